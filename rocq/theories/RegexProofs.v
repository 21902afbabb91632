(* The matcher of Regex.v against the languages of the patterns. *)
From Verif Require Import Regex.
Local Open Scope nat_scope.
Local Open Scope list_scope.

(** [lang r u c c']: the pattern [r] describes the text [u], the captured groups
    going from [c] to [c']. *)
Inductive lang : re -> text -> caps -> caps -> Prop :=
| LEps c : lang Eps [] c c
| LChr p a c : p a = true -> lang (Chr p) [a] c c
| LStar p u c : forallb p u = true -> lang (Star p) u c c
| LSeq r s u v c c1 c2 : lang r u c c1 -> lang s v c1 c2 -> lang (Seq r s) (u ++ v) c c2
| LAltL r s u c c' : lang r u c c' -> lang (Alt r s) u c c'
| LAltR r s u c c' : lang s u c c' -> lang (Alt r s) u c c'
| LGrp n r u c c' : lang r u c c' -> lang (Grp n r) u c ((n, u) :: c').

Lemma consumed_app u s : consumed (u ++ s) s = u.
Proof.
  unfold consumed. rewrite app_length. replace (List.length u + List.length s - List.length s) with (List.length u) by lia.
  rewrite firstn_app, Nat.sub_diag, firstn_all. cbn. apply app_nil_r.
Qed.
Lemma star_sound {X} p (k : text -> option X) x : forall s, star p s k = Some x ->
  exists u s', s = u ++ s' /\ forallb p u = true /\ k s' = Some x.
Proof.
  induction s as [|a s IH]; cbn; intros H.
  - exists [], []. auto.
  - destruct (p a) eqn:P; [|exists [], (a :: s); auto].
    destruct (star p s k) as [y|] eqn:Q.
    + injection H as ->. destruct (IH eq_refl) as (u & s' & -> & F & K). exists (a :: u), s'. cbn. rewrite P. auto.
    + exists [], (a :: s). auto.
Qed.
Lemma star_complete {X} p (k : text -> option X) u : forall s, forallb p u = true -> k s <> None -> star p (u ++ s) k <> None.
Proof.
  induction u as [|a u IH]; intros s F K.
  - cbn. destruct s as [|a s]; cbn; auto. destruct (p a); auto. destruct (star p s k); auto. discriminate.
  - cbn in F. apply andb_true_iff in F. destruct F as [Pa F]. cbn. rewrite Pa.
    specialize (IH s F K). destruct (star p (u ++ s) k); congruence.
Qed.
Lemma run_sound {X} (r : re) : forall s c (k : text -> caps -> option X) x, run r s c k = Some x ->
  exists u s' c', s = u ++ s' /\ lang r u c c' /\ k s' c' = Some x.
Proof.
  induction r as [|p|p|a IHa b IHb|a IHa b IHb|n a IHa]; cbn; intros s c k x H.
  - exists [], s, c. repeat split; auto. constructor.
  - destruct s as [|y s]; [discriminate|]. destruct (p y) eqn:P; [|discriminate]. exists [y], s, c.
    repeat split; auto. now constructor.
  - destruct (star_sound _ _ _ _ H) as (u & s' & -> & F & K). exists u, s', c. repeat split; auto. now constructor.
  - destruct (IHa _ _ _ _ H) as (u & s1 & c1 & -> & La & H1). destruct (IHb _ _ _ _ H1) as (v & s2 & c2 & -> & Lb & K).
    exists (u ++ v), s2, c2. split; [now rewrite app_assoc|]. split; auto. econstructor; eauto.
  - destruct (run a s c k) as [y|] eqn:Q.
    + injection H as ->. destruct (IHa _ _ _ _ Q) as (u & s1 & c1 & -> & La & K). exists u, s1, c1.
      repeat split; auto. now apply LAltL.
    + destruct (IHb _ _ _ _ H) as (u & s1 & c1 & -> & La & K). exists u, s1, c1.
      repeat split; auto. now apply LAltR.
  - destruct (IHa _ _ _ _ H) as (u & s1 & c1 & -> & La & K). rewrite consumed_app in K.
    exists u, s1, ((n, u) :: c1). repeat split; auto. now constructor.
Qed.
Lemma run_complete {X} r u c c' : lang r u c c' -> forall s (k : text -> caps -> option X),
  k s c' <> None -> run r (u ++ s) c k <> None.
Proof.
  induction 1 as [c|p a c P|p u c F|r r' u v c c1 c2 L1 IH1 L2 IH2|r r' u c c' L IH|r r' u c c' L IH|n r u c c' L IH];
    intros s k K; cbn.
  - exact K.
  - now rewrite P.
  - now apply star_complete.
  - rewrite <- app_assoc. apply IH1. now apply IH2.
  - specialize (IH s k K). destruct (run r (u ++ s) c k); congruence.
  - specialize (IH s k K). destruct (run r (u ++ s) c k); congruence.
  - apply IH. now rewrite consumed_app.
Qed.
Lemma match_sound r s rest c : match_at r s = Some (rest, c) -> exists u, s = u ++ rest /\ lang r u [] c.
Proof.
  intros H. destruct (run_sound r _ _ _ _ H) as (u & s' & c' & -> & L & K). injection K as <- <-. eauto.
Qed.
Lemma match_complete r u s c : lang r u [] c -> match_at r (u ++ s) <> None.
Proof. intros L. unfold match_at. eapply run_complete; eauto. discriminate. Qed.

(** patterns without groups, and patterns that cannot match a newline *)
Fixpoint no_groups (r : re) : bool :=
  match r with
  | Seq a b | Alt a b => no_groups a && no_groups b
  | Grp _ _ => false
  | _ => true
  end.
Lemma lang_no_groups r u c c' : lang r u c c' -> no_groups r = true -> c' = c.
Proof.
  induction 1; cbn; intros N; auto; try discriminate; apply andb_true_iff in N; destruct N as [N1 N2]; auto.
  rewrite IHlang2, IHlang1; auto.
Qed.
Lemma lang_caps r u c c' : lang r u c c' -> no_groups r = true -> forall d, lang r u d d.
Proof.
  induction 1; cbn; intros N d0; try discriminate; try (apply andb_true_iff in N; destruct N as [N1 N2]); try (econstructor; eauto; fail).
Qed.
Fixpoint within_line (r : re) : bool :=
  match r with
  | Eps => true
  | Chr p | Star p => negb (p newline)
  | Seq a b | Alt a b => within_line a && within_line b
  | Grp _ a => within_line a
  end.
Lemma lang_within_line r u c c' : lang r u c c' -> within_line r = true -> ~ In newline u.
Proof.
  induction 1 as [c|p a c P|p u c F|r r' u v c c1 c2 L1 IH1 L2 IH2|r r' u c c' L IH|r r' u c c' L IH|n r u c c' L IH];
    cbn; intros W; auto.
  - intros [->|[]]. rewrite P in W. discriminate.
  - intros I. rewrite forallb_forall in F. rewrite (F _ I) in W. discriminate.
  - apply andb_true_iff in W. destruct W. rewrite in_app_iff. intuition.
  - apply andb_true_iff in W. intuition.
  - apply andb_true_iff in W. intuition.
Qed.

(** * Lines *)
Lemma within_first_line u s l rest : ~ In newline u -> u ++ s = l ++ newline :: rest -> exists v, l = u ++ v.
Proof.
  revert l. induction u as [|a u IH]; intros l N H; [now exists l|].
  destruct l as [|b l]; cbn in H; injection H as -> H.
  - exfalso. apply N. now left.
  - destruct (IH l) as [v ->]; auto. { intros I. apply N. now right. } now exists v.
Qed.
(** no empty match *)
Definition proper (r : re) : Prop := forall c, ~ lang r [] [] c.
Lemma no_match_at r l rest : within_line r = true ->
  (forall u v c, l = u ++ v -> ~ lang r u [] c) -> match_at r (l ++ newline :: rest) = None.
Proof.
  intros W N. destruct (match_at r (l ++ newline :: rest)) as [[s c]|] eqn:E; auto.
  destruct (match_sound _ _ _ _ E) as (u & Q & L). pose proof (lang_within_line _ _ _ _ L W) as NN.
  symmetry in Q. destruct (within_first_line u s l rest NN Q) as [v ->]. exfalso. eapply N; eauto.
Qed.
(** a line without a match *)
Lemma finditer_skip_line r l rest : within_line r = true -> proper r ->
  (forall pre u v c, l = pre ++ u ++ v -> ~ lang r u [] c) ->
  finditer r (l ++ newline :: rest) = finditer r rest.
Proof.
  intros W P. induction l as [|a l IH]; intros N.
  - cbn [app]. unfold finditer. cbn [finditer_from].
    replace (match_at r (newline :: rest)) with (@None (text * caps)); auto.
    symmetry. apply (no_match_at r [] rest W). intros u v c Q L. symmetry in Q. apply app_eq_nil in Q.
    destruct Q as [-> ->]. exact (P _ L).
  - unfold finditer. cbn [app finditer_from]. change (a :: l ++ newline :: rest) with ((a :: l) ++ newline :: rest).
    rewrite (no_match_at r (a :: l) rest W) by (intros u v c Q; apply (N [] u v c Q)).
    apply IH. intros pre u v c Q. apply (N (a :: pre) u v c). cbn. now rewrite Q.
Qed.
Lemma finditer_from_skip r u s : forall n, n = List.length u -> finditer_from r n (u ++ s) = finditer_from r 0 s.
Proof. induction u as [|a u IH]; intros n ->; cbn; auto. Qed.
(** a line with a match at its start *)
Lemma finditer_match_line r l rest : within_line r = true -> proper r ->
  (exists u v c, l = u ++ v /\ lang r u [] c) ->
  exists u v c, l = u ++ v /\ lang r u [] c /\ finditer r (l ++ newline :: rest) = c :: finditer r (v ++ newline :: rest).
Proof.
  intros W P (u0 & v0 & c0 & -> & L0).
  pose proof (match_complete r u0 (v0 ++ newline :: rest) c0 L0) as M. rewrite app_assoc in M.
  destruct (match_at r ((u0 ++ v0) ++ newline :: rest)) as [[s c]|] eqn:E; [|congruence].
  destruct (match_sound _ _ _ _ E) as (u & Q & L). symmetry in Q.
  destruct (within_first_line u s (u0 ++ v0) rest (lang_within_line _ _ _ _ L W) Q) as [v Ev].
  exists u, v, c. split; [exact Ev|]. split; [exact L|].
  assert (Es : s = v ++ newline :: rest).
  { rewrite Ev, <- app_assoc in Q. now apply app_inv_head in Q. }
  unfold finditer. rewrite Ev in *. destruct u as [|a u]; [exfalso; exact (P _ L)|].
  cbn [app finditer_from]. cbn [app] in E. rewrite E. f_equal. rewrite Es, <- app_assoc.
  apply finditer_from_skip. cbn [List.length]. rewrite (app_length u). lia.
Qed.

(** * Words *)
Definition space : ascii := " "%char.
Fixpoint words (t : text) : list text :=
  match t with
  | [] => [[]]
  | a :: t' => if Ascii.eqb a space then [] :: words t'
               else match words t' with w :: ws => (a :: w) :: ws | [] => [[a]] end
  end.
Lemma words_nonempty t : words t <> [].
Proof. destruct t as [|a t]; cbn; [discriminate|]. destruct (Ascii.eqb a space); [discriminate|]. destruct (words t); discriminate. Qed.
Lemma words_split a b : words (a ++ space :: b) = words a ++ words b.
Proof.
  induction a as [|x a IH]; cbn; auto. destruct (Ascii.eqb x space); [now rewrite IH|].
  rewrite IH. destruct (words a) eqn:E; cbn; auto. now apply words_nonempty in E.
Qed.
Lemma words_one t : ~ In space t -> words t = [t].
Proof.
  induction t as [|x t IH]; cbn; intros N; auto. destruct (Ascii.eqb_spec x space) as [->|]; [exfalso; auto|].
  now rewrite IH by intuition.
Qed.
Lemma words_single t w : words t = [w] -> t = w.
Proof.
  revert w. induction t as [|x t IH]; cbn; intros w H; [congruence|].
  destruct (Ascii.eqb x space).
  - injection H as H1 H2. now apply words_nonempty in H2.
  - destruct (words t) as [|w' ws] eqn:E; [now apply words_nonempty in E|]. injection H as <- ->. now rewrite (IH w').
Qed.
Lemma app_lengths {X} (a b : list X) n : a <> [] -> List.length (a ++ b) = n -> List.length b < n.
Proof. destruct a; [congruence|]. cbn. rewrite app_length. lia. Qed.
(** spaces are where the words end: cutting one word off *)
Lemma words_cons a ws x rest : words a ++ rest = x :: ws -> exists ys, words a = x :: ys /\ ys ++ rest = ws.
Proof.
  intros H. destruct (words a) as [|w ys] eqn:E; [now apply words_nonempty in E|]. injection H as -> <-. eauto.
Qed.

(** * Texts used as patterns *)
Definition plain (t : text) : Prop := forall a, In a t -> digit a = true \/ a = "."%char.
Fixpoint chars (t : text) : re :=
  match t with [] => Eps | a :: t' => Seq (Chr (atom a)) (chars t') end.
Lemma digit_range a : digit a = true -> 48 <= nat_of_ascii a <= 57.
Proof. unfold digit. intros H. apply andb_true_iff in H. destruct H as [A B]. apply Nat.leb_le in A, B. lia. Qed.
Lemma is_not a b : nat_of_ascii a <> nat_of_ascii b -> is a b = false.
Proof. intros H. unfold is. apply Ascii.eqb_neq. congruence. Qed.
Lemma plain_char a : digit a = true \/ a = "."%char -> special a = false /\ quantifier a = None.
Proof.
  intros [H| ->]; [|now vm_compute]. apply digit_range in H. unfold special, quantifier. cbn [lit list_ascii_of_string existsb].
  repeat match goal with |- context [is a ?b] => rewrite (is_not a b) by (cbn; lia) end. auto.
Qed.
Lemma pattern_plain t : plain t -> pattern_of t = Some (chars t).
Proof.
  induction t as [|a t IH]; intros P; auto. cbn [pattern_of chars].
  destruct (plain_char a (P a (or_introl eq_refl))) as [-> ->].
  assert (Pt : plain t) by (intros b I; apply P; now right). rewrite (IH Pt).
  destruct t as [|b t]; auto. destruct (plain_char b (Pt b (or_introl eq_refl))) as [_ ->]. reflexivity.
Qed.
Lemma lang_chars t u c c' : lang (chars t) u c c' <-> c' = c /\ Forall2 (fun a x => atom a x = true) t u.
Proof.
  revert u c c'. induction t as [|a t IH]; intros u c c'; cbn; split.
  - intros H. inversion H; subst. auto.
  - intros [-> F]. inversion F. constructor.
  - intros H. inversion H as [| | |r s u1 v1 d1 d2 d3 H1 H2| | |]; subst. inversion H1; subst. apply IH in H2. destruct H2 as [-> F]. cbn. auto.
  - intros [-> F]. inversion F as [|x1 y1 l1 l2 A1 F1]; subst. apply (LSeq (Chr (atom a)) (chars t) [y1] l2 c c c).
    + now constructor.
    + apply IH. auto.
Qed.
Lemma chars_no_groups t : no_groups (chars t) = true.
Proof. induction t; auto. Qed.
Lemma digit_newline a : digit a = true -> is a newline = false.
Proof. intros H. apply is_not. apply digit_range in H. cbn. lia. Qed.
Lemma chars_within t : plain t -> within_line (chars t) = true.
Proof.
  induction t as [|a t IH]; intros P; auto. cbn. rewrite IH by (intros b I; apply P; now right). rewrite andb_true_r.
  destruct (P a (or_introl eq_refl)) as [D| ->]; [|reflexivity]. unfold atom.
  destruct (is a "."%char); [reflexivity|]. now rewrite digit_newline.
Qed.
Lemma lang_lit t u c c' : lang (Lit t) u c c' <-> u = t /\ c' = c.
Proof.
  revert u c c'. induction t as [|a t IH]; intros u c c'; cbn; split.
  - intros H. inversion H; subst. auto.
  - intros [-> ->]. constructor.
  - intros H. inversion H as [| | |r s u1 v1 d1 d2 d3 H1 H2| | |]; subst. inversion H1 as [|p1 a1 c1 P1| | | | |]; subst. apply IH in H2.
    destruct H2 as [-> ->]. unfold is in P1. apply Ascii.eqb_eq in P1. subst. auto.
  - intros [-> ->]. apply (LSeq (Chr (is a)) (Lit t) [a] t c c c); [|now apply IH]. constructor. apply Ascii.eqb_refl.
Qed.
