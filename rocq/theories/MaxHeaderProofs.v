(* Proofs about whole .max files. *)
From Verif Require Import MaxModel RegexProofs MaxSpec MaxNumberSpec MaxHeaderSpec MaxProofs MaxNumberProofs PyFacts NumFacts.
Local Open Scope nat_scope.
Local Open Scope list_scope.
Local Open Scope char_scope.

(** * Searching *)
Lemma search_first r pre rest x c : (forall a b, pre ++ rest = a ++ b -> List.length a < List.length pre -> match_at r b = None) ->
  match_at r rest = Some (x, c) -> search r (pre ++ rest) = Some c.
Proof.
  revert rest. induction pre as [|y pre IH]; intros rest N M.
  - cbn [app]. destruct rest; cbn [search]; rewrite M; reflexivity.
  - cbn [app search]. pose proof (N [] (y :: pre ++ rest) eq_refl ltac:(cbn; lia)) as N0. rewrite N0.
    apply IH; [|exact M]. intros a b E L. apply (N (y :: a) b); cbn; [now rewrite E|lia].
Qed.
Lemma run_lit {X} k : forall s c (K : text -> caps -> option X), run (Lit k) (k ++ s) c K = K s c.
Proof.
  induction k as [|a k IH]; intros s c K; [reflexivity|]. cbn [app Lit run]. unfold is. rewrite Ascii.eqb_refl. apply IH.
Qed.
Lemma star_greedy {X} p v : forall post (k : text -> option X), forallb p v = true -> (forall c r, post = c :: r -> p c = false) ->
  (forall s, k s <> None) -> star p (v ++ post) k = k post.
Proof.
  induction v as [|a v IH]; intros post k P N K; cbn [app].
  - destruct post as [|c r]; [reflexivity|]. cbn [star]. now rewrite (N c r eq_refl).
  - cbn in P. apply andb_prop in P. destruct P as [Pa P]. cbn [star]. rewrite Pa, (IH post k P N K).
    destruct (k post) eqn:E; [reflexivity|]. exfalso. exact (K post E).
Qed.
Lemma plus_greedy {X} p v post c (k : text -> caps -> option X) : v <> [] -> forallb p v = true ->
  (forall c r, post = c :: r -> p c = false) -> (forall s, k s c <> None) -> run (Plus p) (v ++ post) c k = k post c.
Proof.
  intros Nv P N K. destruct v as [|a v]; [congruence|]. cbn in P. apply andb_prop in P. destruct P as [Pa P].
  unfold Plus. cbn [run app]. rewrite Pa. apply (star_greedy p v post (fun s => k s c)); auto.
Qed.
Lemma key_found key ok value t : first_value key ok value t ->
  search (Seq (Lit key) (Grp 1 (Plus ok))) t = Some [(1, value)].
Proof.
  intros (pre & post & E & Nv & P & N & F). rewrite E. eapply search_first.
  - intros a b Q L. destruct (match_at _ b) as [[s c]|] eqn:M; [|reflexivity]. exfalso.
    destruct (match_sound _ _ _ _ M) as (u & Eb & La). apply lang_seq in La. destruct La as (x & y & c1 & -> & Lx & Ly).
    apply lang_lit in Lx. destruct Lx as [-> _]. apply lang_grp in Ly; [|reflexivity]. destruct Ly as [_ Ly].
    unfold Plus in Ly. apply lang_seq in Ly. destruct Ly as (y1 & y2 & c2 & -> & Ly & _). inversion Ly as [| ? z ? Pz | | | | |]; subst.
    specialize (F a z (y2 ++ s)). cbn [app] in Q. rewrite <- app_assoc in Q. cbn [app] in Q. specialize (F Q Pz). lia.
  - unfold match_at. cbn [run]. rewrite run_lit. rewrite (plus_greedy ok value post); auto; [|discriminate].
    rewrite consumed_app. reflexivity.
Qed.
Lemma version_found t : of_version_320 t -> check_version t = Ok tt.
Proof.
  intros (pre & post & E & N & F).
  assert (S : search get_geopsy_version t = Some [(3, lit "0"); (2, lit "2"); (1, lit "3")]).
  { rewrite E. eapply search_first.
    - intros a b Q L. destruct (match_at _ b) as [[s c]|] eqn:M; [|reflexivity]. exfalso.
      destruct (match_sound _ _ _ _ M) as (u & Eb & La). unfold get_geopsy_version, seqs in La. cbn [fold_right] in La.
      apply lang_seq in La. destruct La as (x & y & c1 & -> & Lx & Ly). apply lang_lit in Lx. destruct Lx as [-> _].
      rewrite Eb in Q. rewrite <- app_assoc in Q. rewrite <- E in Q. specialize (F a (y ++ s) Q). lia.
    - unfold match_at, get_geopsy_version, seqs. cbn [fold_right]. cbn [run]. rewrite run_lit.
      change (lit "3.2.0" ++ post) with ("3" :: "." :: "2" :: "." :: "0" :: post).
      cbn [Plus run star digit any is negb]. change (digit "3") with true. change (digit ".") with false. change (digit "2") with true.
      change (any ".") with true. change (digit "0") with true. cbn iota beta.
      assert (St : forall k : text -> option (text * caps), star digit post k = k post).
      { intros k. destruct post as [|c r]; [reflexivity|]. cbn [star]. now rewrite (N c r eq_refl). }
      rewrite St.
      change ("3" :: "." :: "2" :: "." :: "0" :: post) with (lit "3" ++ ("." :: "2" :: "." :: "0" :: post)).
      change ("2" :: "." :: "0" :: post) with (lit "2" ++ ("." :: "0" :: post)).
      change ("0" :: post) with (lit "0" ++ post). rewrite !consumed_app. reflexivity. }
  unfold check_version. rewrite S. reflexivity.
Qed.

(** * Words *)
Definition good (w : text) : Prop := (exists a, In a w /\ digit a = true) \/ forallb numeric w = true.
Lemma words_prefix s x : ~ In space s -> exists b B, words x = b :: B /\ words (s ++ x) = (s ++ b) :: B.
Proof.
  induction s as [|a s IH]; intros N.
  - destruct (words x) as [|b B] eqn:E; [now apply words_nonempty in E|]. exists b, B. split; [reflexivity|exact E].
  - destruct IH as (b & B & E1 & E2); [intros I; apply N; now right|]. exists b, B. split; [exact E1|].
    cbn [app words]. rewrite E2. destruct (Ascii.eqb_spec a space) as [->|]; [exfalso; apply N; now left|reflexivity].
Qed.
Lemma words_suffix x t : ~ In space t -> exists A a, words (x ++ t) = A ++ [a ++ t].
Proof.
  intros N. induction x as [|c x (A & a & E)].
  - exists [], []. cbn [app]. now rewrite words_one.
  - cbn [app words]. rewrite E. destruct (Ascii.eqb c space).
    + exists ([] :: A), a. reflexivity.
    + destruct A as [|b A]; cbn [app].
      * exists [], (c :: a). reflexivity.
      * exists ((c :: b) :: A), a. reflexivity.
Qed.
Lemma digit_not_space a : digit a = true -> a <> space. Proof. intros D ->. discriminate. Qed.
Lemma lang_star p u c c' : lang (Star p) u c c' -> forallb p u = true /\ c' = c.
Proof. intros H. inv H. auto. Qed.
Lemma lang_opt p u c c' : lang (Opt p) u c c' -> c' = c /\ (u = [] \/ exists a, u = [a] /\ p a = true).
Proof. intros H. inv H; match goal with H : lang _ _ _ _ |- _ => inv H end; split; auto. right. eauto. Qed.
Lemma lang_plus p u c c' : lang (Plus p) u c c' -> c' = c /\ u <> [] /\ forallb p u = true.
Proof.
  intros H. unfold Plus in H. seq_inv H. apply lang_star in H. destruct H as [P ->]. inv H0. split; [reflexivity|]. split; [discriminate|].
  cbn [app forallb]. now rewrite H1, P.
Qed.
Lemma time_shape u c c' : lang TIME u c c' -> ~ In space u /\
  exists t0 d p, u = t0 ++ [d] ++ p /\ digit d = true /\ (p = [] \/ p = ["."]).
Proof.
  intros H. unfold TIME, seqs in H. cbn [fold_right] in H. apply lang_seq in H. destruct H as (a & z1 & k1 & -> & La & H).
  apply lang_seq in H. destruct H as (p & z2 & k2 & -> & Lp & H). apply lang_seq in H. destruct H as (b & z3 & k3 & -> & Lb & H).
  apply lang_eps in H. destruct H as [-> _].
  apply lang_plus in La. destruct La as (_ & Ne & Da). apply lang_opt in Lp. destruct Lp as (_ & Hp). apply lang_star in Lb. destruct Lb as (Db & _).
  rewrite app_nil_r. rewrite forallb_forall in Da, Db. split.
  - rewrite !in_app_iff. intros [I|[I|I]].
    + now apply (digit_not_space space (Da _ I)).
    + destruct Hp as [-> |(x & -> & X)]; [destruct I|]. destruct I as [-> |[]]. discriminate.
    + now apply (digit_not_space space (Db _ I)).
  - destruct b as [|y b].
    + rewrite app_nil_r. destruct (exists_last Ne) as (t0 & d & ->). exists t0, d, p. rewrite <- app_assoc. split; [reflexivity|].
      split; [apply Da; rewrite in_app_iff; right; now left|]. destruct Hp as [-> |(x & -> & X)]; [now left|]. right.
      apply Ascii.eqb_eq in X. now subst x.
    + destruct (@exists_last _ (y :: b)) as (z & d & E); [discriminate|]. exists (a ++ p ++ z), d, []. rewrite E.
      rewrite <- !app_assoc. split; [reflexivity|]. split; [|now left]. apply Db. rewrite E, in_app_iff. right. now left.
Qed.
Lemma number_shape u c c' : lang NUMBER u c c' -> c' = c /\ exists s d y o r, u = s ++ (d :: y) ++ o ++ r /\ (s = [] \/ s = ["-"]) /\
  digit d = true /\ digits y /\ (o = [] \/ exists a, o = [a]) /\ forallb numeric r = true.
Proof.
  intros H. unfold NUMBER, seqs in H. cbn [fold_right] in H. 
  apply lang_seq in H. destruct H as (s & z0 & k0 & -> & Ls & H).
  apply lang_seq in H. destruct H as (a & z1 & k1 & -> & La & H).
  apply lang_seq in H. destruct H as (o & z2 & k2 & -> & Lo & H).
  apply lang_seq in H. destruct H as (b & z3 & k3 & -> & Lb & H).
  apply lang_seq in H. destruct H as (e & z4 & k4 & -> & Le & H).
  apply lang_seq in H. destruct H as (g & z5 & k5 & -> & Lg & H).
  apply lang_seq in H. destruct H as (x & z6 & k6 & -> & Lx & H).
  apply lang_eps in H. destruct H as [-> ->].
  apply lang_opt in Ls. destruct Ls as (-> & Hs). apply lang_plus in La. destruct La as (-> & Ne & Da).
  apply lang_opt in Lo. destruct Lo as (-> & Ho). apply lang_star in Lb. destruct Lb as (Db & ->).
  apply lang_opt in Le. destruct Le as (-> & He). apply lang_opt in Lg. destruct Lg as (-> & Hg). apply lang_star in Lx. destruct Lx as (Dc & ->).
  split; [reflexivity|]. destruct a as [|d y]; [congruence|]. cbn [forallb] in Da. apply andb_prop in Da. destruct Da as [Dd Dy].
  exists s, d, y, o, (b ++ e ++ g ++ x ++ []). split; [reflexivity|].
  split. { destruct Hs as [-> |(q & -> & X)]; [now left|right]. apply Ascii.eqb_eq in X. now subst q. }
  split; [exact Dd|]. split; [exact Dy|]. split. { destruct Ho as [-> |(q & -> & _)]; eauto. }
  rewrite !forallb_app. rewrite (digits_numeric _ Db), (digits_numeric _ Dc).
  assert (N1 : forallb numeric e = true).
  { destruct He as [-> |(q & -> & X)]; [reflexivity|]. cbn. unfold numeric. cbn. destruct (is q "e"); destruct (is q "E"); cbn in X |- *; try discriminate; rewrite ?orb_true_r; reflexivity. }
  assert (N2 : forallb numeric g = true).
  { destruct Hg as [-> |(q & -> & X)]; [reflexivity|]. cbn. unfold numeric. cbn. destruct (is q "+"); destruct (is q "-"); cbn in X |- *; try discriminate; rewrite ?orb_true_r; reflexivity. }
  rewrite N1, N2. reflexivity.
Qed.
Lemma number_words u c c' : lang NUMBER u c c' -> Forall good (words u).
Proof.
  intros L. destruct (number_shape u c c' L) as (_ & s & d & y & o & r & -> & Hs & D & Dy & Ho & Nr). unfold digits in Dy.
  assert (N1 : forallb numeric (s ++ d :: y) = true).
  { rewrite forallb_app. cbn [forallb]. rewrite (digits_numeric y Dy). unfold numeric at 2. rewrite D. destruct Hs as [-> | ->]; reflexivity. }
  assert (W1 : ~ In space (s ++ d :: y)) by (apply (numeric_word _ N1)).
  assert (W2 : ~ In space r) by (apply (numeric_word _ Nr)).
  rewrite app_assoc. assert (Iz : In d (s ++ d :: y)) by (rewrite in_app_iff; right; now left).
  revert N1 W1 Iz. generalize (s ++ d :: y) as z. intros z N1 W1 Iz.
  destruct Ho as [-> |(a & ->)]; cbn [app].
  - rewrite words_one.
    + constructor; [|constructor]. right. rewrite forallb_app. now rewrite N1, Nr.
    + rewrite in_app_iff. tauto.
  - destruct (Ascii.eqb_spec a space) as [->|Na].
    + rewrite words_split, !words_one by auto. constructor; [now right|]. constructor; [now right|constructor].
    + rewrite words_one.
      * constructor; [|constructor]. left. exists d. split; [|exact D]. rewrite in_app_iff. now left.
      * rewrite in_app_iff. cbn [In]. intros [I|[I|I]]; auto.
Qed.
Lemma number_first_word u v c c' : lang NUMBER u c c' -> exists b B, words (u ++ v) = b :: B /\ good b.
Proof.
  intros L. destruct (number_shape u c c' L) as (_ & s & d & y & o & r & -> & Hs & D & _ & _ & _).
  repeat (rewrite <- app_assoc; cbn [app]).
  destruct (words_prefix (s ++ [d]) (y ++ o ++ r ++ v)) as (b & B & _ & E).
  - rewrite in_app_iff. intros [I|[I|[]]]; [destruct Hs as [-> | ->]; [destruct I|destruct I as [I|[]]; discriminate]|]. subst d. discriminate.
  - rewrite <- app_assoc in E. cbn [app] in E. rewrite E. eexists _, B. split; [reflexivity|]. left. exists d. split; [|exact D].
    rewrite !in_app_iff. left. right. now left.
Qed.
Lemma wavetype_lang u c : lang get_wavetype u [] c ->
  (exists t f g n1 n2 n3 n4, u = t ++ space :: f ++ space :: g ++ space :: n1 ++ space :: n2 ++ space :: n3 ++ space :: n4 /\
     c = [(1, g)] /\ lang TIME t [] [] /\ lang NUMBER f [] [] /\ g <> [] /\ forallb solid g = true /\
     lang NUMBER n1 [] [] /\ lang NUMBER n2 [] [] /\ lang NUMBER n3 [] [] /\ lang NUMBER n4 [] []) \/
  (c = [] /\ (contains (lit "inf") u \/ contains (lit "nan ") u)).
Proof.
  intros H. unfold get_wavetype in H. inversion H as [| | | |? ? ? ? ? H1|? ? ? ? ? H1|]; subst; clear H.
  - left. unfold seqs in H1. cbn [fold_right] in H1.
    apply lang_seq in H1. destruct H1 as (t & z0 & k0 & -> & Lt & H).
    apply lang_seq in H. destruct H as (x1 & z1 & k1 & -> & L1 & H).
    apply lang_seq in H. destruct H as (f & z2 & k2 & -> & Lf & H).
    apply lang_seq in H. destruct H as (x3 & z3 & k3 & -> & L3 & H).
    apply lang_seq in H. destruct H as (g & z4 & k4 & -> & Lg & H).
    apply lang_seq in H. destruct H as (x5 & z5 & k5 & -> & L5 & H).
    apply lang_seq in H. destruct H as (n1 & z6 & k6 & -> & Ln1 & H).
    apply lang_seq in H. destruct H as (x7 & z7 & k7 & -> & L7 & H).
    apply lang_seq in H. destruct H as (n2 & z8 & k8 & -> & Ln2 & H).
    apply lang_seq in H. destruct H as (x9 & z9 & k9 & -> & L9 & H).
    apply lang_seq in H. destruct H as (n3 & z10 & k10 & -> & Ln3 & H).
    apply lang_seq in H. destruct H as (x11 & z11 & k11 & -> & L11 & H).
    apply lang_seq in H. destruct H as (n4 & z12 & k12 & -> & Ln4 & H).
    apply lang_eps in H. destruct H as [-> ->].
    apply lang_chr in L1, L3, L5, L7, L9, L11.
    destruct L1 as [-> ->], L3 as [-> ->], L5 as [-> ->], L7 as [-> ->], L9 as [-> ->], L11 as [-> ->].
    pose proof (lang_no_groups _ _ _ _ Lt eq_refl) as ->. pose proof (lang_no_groups _ _ _ _ Lf eq_refl) as ->.
    apply lang_grp in Lg; [|reflexivity]. destruct Lg as [-> Lg]. apply lang_plus in Lg. destruct Lg as (_ & Ng & Sg).
    pose proof (lang_no_groups _ _ _ _ Ln1 eq_refl) as ->. pose proof (lang_no_groups _ _ _ _ Ln2 eq_refl) as ->.
    pose proof (lang_no_groups _ _ _ _ Ln3 eq_refl) as ->. pose proof (lang_no_groups _ _ _ _ Ln4 eq_refl) as ->.
    exists t, f, g, n1, n2, n3, n4. rewrite app_nil_r. split; [reflexivity|]. split; [reflexivity|]. split; [exact Lt|]. split; [exact Lf|].
    split; [exact Ng|]. split; [exact Sg|].
    repeat split; (eapply lang_caps; [eassumption|reflexivity]).
  - right. split; [exact (lang_no_groups _ _ _ _ H1 eq_refl)|].
    inversion H1 as [| | | |? ? ? ? ? H|? ? ? ? ? H|]; subst; clear H1.
    + left. unfold INF in H. apply lang_seq in H. destruct H as (a & b & k & -> & _ & H). apply lang_lit in H. destruct H as [-> _].
      exists a, []. reflexivity.
    + right. unfold seqs in H. cbn [fold_right] in H. apply lang_seq in H. destruct H as (a & b & k & -> & L1 & H).
      apply lang_seq in H. destruct H as (a2 & b2 & k2 & -> & L2 & H). apply (lang_lit (lit "nan")) in L1. destruct L1 as [-> _].
      apply lang_chr in L2. destruct L2 as [-> _]. exists [], b2. reflexivity.
Qed.
Lemma search_sound r s : forall c, search r s = Some c -> exists pre u v, s = pre ++ u ++ v /\ lang r u [] c.
Proof.
  induction s as [|a s IH]; intros c E; cbn [search] in E.
  - destruct (match_at r []) as [[v c']|] eqn:M; [|discriminate]. injection E as <-. destruct (match_sound _ _ _ _ M) as (u & Q & L). exists [], u, v. auto.
  - destruct (match_at r (a :: s)) as [[v c']|] eqn:M.
    + injection E as <-. destruct (match_sound _ _ _ _ M) as (u & Q & L). exists [], u, v. auto.
    + destruct (IH c E) as (pre & u & v & -> & L). exists (a :: pre), u, v. auto.
Qed.
Lemma search_some r s pre u v c : s = pre ++ u ++ v -> lang r u [] c -> exists c', search r s = Some c'.
Proof. intros E L. destruct (search r s) eqn:S; [eauto|]. exfalso. exact (search_none r s S pre u v c E L). Qed.
Lemma within_wavetype : within_line get_wavetype = true. Proof. reflexivity. Qed.
Lemma contains_app k a b c : contains k b -> contains k (a ++ b ++ c).
Proof. intros (x & y & ->). exists (a ++ x), (y ++ c). now rewrite <- !app_assoc. Qed.

(** * The wave type a file announces *)
Lemma bad_wave w : wave_name w -> ~ good (lit w).
Proof.
  intros Hw [(a & I & D)|F]; [|exact (wave_not_numeric w (lit w) Hw F eq_refl)].
  assert (B : forallb digit (filter digit (lit w)) = true /\ filter digit (lit w) = []).
  { cbn in Hw. repeat (destruct Hw as [<-|Hw]; [split; reflexivity|]). destruct Hw. }
  destruct B as [_ B]. assert (X : In a (filter digit (lit w))) by (apply filter_In; auto). rewrite B in X. destruct X.
Qed.
Lemma bad_noise t : t = lit "inf" \/ t = lit "-inf" \/ t = lit "nan" -> ~ good t.
Proof.
  intros H [(a & I & D)|F].
  - assert (B : filter digit t = []) by (destruct H as [->|[->| ->]]; reflexivity).
    assert (X : In a (filter digit t)) by (apply filter_In; auto). rewrite B in X. destruct X.
  - destruct H as [->|[->| ->]]; discriminate F.
Qed.
Lemma solid_no_space g : forallb solid g = true -> ~ In space g.
Proof. rewrite forallb_forall. intros H I. apply H in I. discriminate. Qed.
(** seven words in a row of which only the third may be no number *)
Lemma wavetype_in_line e pre t f g n1 n2 n3 n4 v w : entry_ok e -> wave_name w -> e_wave e = lit w ->
  line e = pre ++ (t ++ space :: f ++ space :: g ++ space :: n1 ++ space :: n2 ++ space :: n3 ++ space :: n4) ++ v ->
  lang TIME t [] [] -> lang NUMBER f [] [] -> forallb solid g = true ->
  lang NUMBER n1 [] [] -> lang NUMBER n2 [] [] -> lang NUMBER n3 [] [] -> lang NUMBER n4 [] [] ->
  g = e_wave e /\ good (e_noi e).
Proof.
  intros Ok Wn Ew E Lt Lf Sg L1 L2 L3 L4.
  pose proof (words_line e Ok) as W. rewrite E in W. repeat (rewrite <- app_assoc in W; cbn [app] in W).
  rewrite (app_assoc pre t) in W. rewrite !words_split in W. rewrite (words_one g) in W by now apply solid_no_space.
  destruct (time_shape t _ _ Lt) as [Nt (t0 & d & p & Et & D & _)].
  destruct (words_suffix pre t Nt) as (A & a & Ea). rewrite Ea in W.
  assert (Ga : good (a ++ t)). { left. exists d. split; [|exact D]. rewrite Et, !in_app_iff. right. right. left. now left. }
  destruct (number_first_word n4 v _ _ L4) as (b & B & Eb & Gb). rewrite Eb in W.
  assert (Q : exists X Y, A ++ X ++ g :: Y ++ B = entry_words e /\ Forall good X /\ Forall good Y /\ 2 <= List.length X /\ 4 <= List.length Y).
  { exists ((a ++ t) :: words f), (words n1 ++ words n2 ++ words n3 ++ [b]).
    split. { rewrite <- W. repeat (rewrite <- app_assoc; cbn [app]). reflexivity. }
    split; [constructor; [exact Ga|exact (number_words f _ _ Lf)]|].
    split. { repeat (apply Forall_app; split); try (eapply number_words; eassumption). constructor; [exact Gb|constructor]. }
    cbn [List.length]. rewrite !app_length. pose proof (words_len f). pose proof (words_len n1). pose proof (words_len n2). pose proof (words_len n3).
    cbn [List.length]. unfold text in *. lia. }
  destruct Q as (X & Y & Q & FX & FY & LX & LY).
  pose proof (f_equal (@List.length text) Q) as Len. rewrite !app_length in Len. cbn [List.length] in Len. rewrite app_length in Len.
  cbn [entry_words List.length] in Len.
  assert (N2 : nth_error (A ++ X ++ g :: Y ++ B) 2 = Some (e_wave e)) by (rewrite Q; reflexivity).
  assert (N6 : nth_error (A ++ X ++ g :: Y ++ B) 6 = Some (e_noi e)) by (rewrite Q; reflexivity).
  rewrite Forall_forall in FX, FY. rewrite nth_error_app2 in N2 by lia.
  destruct (Nat.lt_ge_cases (2 - List.length A) (List.length X)) as [H|H].
  - exfalso. rewrite nth_error_app1 in N2 by lia. apply nth_error_In in N2. apply FX in N2. rewrite Ew in N2. now apply (bad_wave w Wn).
  - rewrite nth_error_app2 in N2 by lia. assert (LA : List.length A = 0) by lia. assert (LX2 : List.length X = 2) by lia.
    rewrite LA, LX2 in N2. cbn in N2. injection N2 as <-. split; [reflexivity|].
    rewrite nth_error_app2 in N6 by lia. rewrite nth_error_app2 in N6 by lia. rewrite LA, LX2 in N6. change (nth_error (Y ++ B) 3 = Some (e_noi e)) in N6.
    rewrite nth_error_app1 in N6 by lia. apply nth_error_In in N6. now apply FY.
Qed.
Lemma contains_in k t : contains k t -> forall a, In a k -> In a t.
Proof. intros (x & y & ->) a I. rewrite !in_app_iff. auto. Qed.
Lemma contains_word k t : ~ In space k -> contains k t -> exists w, In w (words t) /\ contains k w.
Proof.
  intros N (a & b & ->). destruct (words_prefix k b N) as (b0 & B & _ & E).
  induction a as [|c a IH]; cbn [app].
  - rewrite E. exists (k ++ b0). split; [now left|]. exists [], b0. reflexivity.
  - destruct IH as (w & I & C). cbn [words]. destruct (Ascii.eqb c space); [exists w; split; [now right|exact C]|].
    destruct (words (a ++ k ++ b)) as [|x ws]; [destruct I|]. destruct I as [<-|I].
    + exists (c :: x). split; [now left|]. destruct C as (y & z & ->). exists (c :: y), z. reflexivity.
    + exists w. split; [now right|exact C].
Qed.
Lemma lit_absent k w : search (Lit k) w = None -> ~ contains k w.
Proof. intros S (a & b & E). apply (search_none _ _ S a k b [] E). apply lang_lit. auto. Qed.
Lemma no_name_in_line e w : entry_ok e -> wave_name w -> e_wave e = lit w -> number (e_noi e) ->
  ~ contains (lit "inf") (line e) /\ ~ contains (lit "nan ") (line e).
Proof.
  intros Ok Wn Ew N.
  assert (G : forall k, In "n" k -> ~ In space k -> search (Lit k) (lit w) = None -> ~ contains k (line e)).
  { intros k Ik Nk S C. destruct (contains_word k (line e) Nk C) as (x & I & Cx). rewrite (words_line e Ok) in I.
    pose proof (contains_in k x Cx "n" Ik) as In'. destruct Ok as (T & F & _ & Sl & A & L & _ & P).
    assert (B : forall y, forallb numeric y = true -> ~ In "n" y).
    { intros y Fy J. rewrite forallb_forall in Fy. apply Fy in J. discriminate. }
    cbn in I. repeat (destruct I as [<-|I]; [first
      [ now apply (B _ (unsigned_numeric _ T)) | now apply (B _ (unsigned_numeric _ F)) | rewrite Ew in Cx; now apply (lit_absent k (lit w) S)
      | now apply (B _ (number_numeric _ Sl)) | now apply (B _ (number_numeric _ A)) | now apply (B _ (number_numeric _ L))
      | now apply (B _ (number_numeric _ N)) | now apply (B _ (number_numeric _ P)) | now apply (B ["1"] eq_refl)]|]). destruct I. }
  assert (S : search (Lit (lit "inf")) (lit w) = None /\ search (Lit (lit "nan")) (lit w) = None).
  { cbn in Wn. repeat (destruct Wn as [<-|Wn]; [split; reflexivity|]). destruct Wn. }
  split.
  - apply G; [right; now left|cbn; intuition discriminate|apply S].
  - intros (a & b & E). apply (G (lit "nan")); [now left|cbn; intuition discriminate|apply S|]. exists a, (space :: b). exact E.
Qed.
Lemma header_no_wavetype header pre u v t f g n1 n2 n3 n4 : no_data_line header ->
  header = pre ++ u ++ v -> ~ In newline u ->
  u = t ++ space :: f ++ space :: g ++ space :: n1 ++ space :: n2 ++ space :: n3 ++ space :: n4 ->
  lang TIME t [] [] -> lang NUMBER f [] [] -> False.
Proof.
  intros H E NL -> Lt Lf. destruct (time_shape t _ _ Lt) as [_ (t0 & c & p & -> & C & Hp)].
  destruct (number_shape f _ _ Lf) as (_ & s & d & y & o & r & -> & Hs & D & _ & _ & _).
  pose proof (H (pre ++ t0) c p s d ((y ++ o ++ r) ++ space :: g ++ space :: n1 ++ space :: n2 ++ space :: n3 ++ space :: n4) v) as K.
  enough (5 <= count_occ ascii_dec ((y ++ o ++ r) ++ space :: g ++ space :: n1 ++ space :: n2 ++ space :: n3 ++ space :: n4) space).
  { refine ((fun X => _) (K _ C D Hp Hs _)); [lia| |].
    - rewrite E. repeat (rewrite <- app_assoc; cbn [app]). reflexivity.
    - intros I. apply NL. repeat (rewrite <- app_assoc; cbn [app]). rewrite <- app_assoc in I. repeat (rewrite <- app_assoc in I; cbn [app] in I).
      rewrite in_app_iff. right. right. rewrite in_app_iff. right. right. rewrite in_app_iff. right. right. exact I. }
  repeat (rewrite count_occ_app; cbn [count_occ]; destruct (ascii_dec space space) as [_|]; [|congruence]). lia.
Qed.
Lemma wavetype_line_intro e : entry_ok e -> wave_name (string_of_list_ascii (e_wave e)) -> number (e_noi e) ->
  exists u v c, line e = u ++ v /\ lang get_wavetype u [] c.
Proof.
  intros (T & F & _ & S & A & L & _ & P) Wn N.
  exists (e_time e ++ space :: e_frq e ++ space :: e_wave e ++ space :: e_slo e ++ space :: e_azi e ++ space :: e_ell e ++ space :: e_noi e), 
    (space :: e_pwr e ++ space :: ["1"]), [(1, e_wave e)].
  split. { unfold line. repeat (rewrite <- app_assoc; cbn [app]). reflexivity. }
  unfold get_wavetype. apply LAltL. unfold seqs. cbn [fold_right].
  eapply LSeq; [now apply lang_time|]. eapply (LSeq _ _ [space]); [apply lsp|]. eapply LSeq; [now apply lang_number, unsigned_number|].
  eapply (LSeq _ _ [space]); [apply lsp|]. eapply LSeq.
  { apply lgrp, lplus.
    - intros Z. rewrite Z in Wn. cbn in Wn. intuition discriminate.
    - rewrite <- (list_ascii_of_string_of_list_ascii (e_wave e)). revert Wn. generalize (string_of_list_ascii (e_wave e)) as w. intros w Wn.
      cbn in Wn. repeat (destruct Wn as [<-|Wn]; [reflexivity|]). destruct Wn. }
  eapply (LSeq _ _ [space]); [apply lsp|]. eapply LSeq; [now apply lang_number|].
  eapply (LSeq _ _ [space]); [apply lsp|]. eapply LSeq; [now apply lang_number|].
  eapply (LSeq _ _ [space]); [apply lsp|]. eapply LSeq; [now apply lang_number|].
  eapply (LSeq _ _ [space]); [apply lsp|]. rewrite <- (app_nil_r (e_noi e)). eapply LSeq; [now apply lang_number|constructor].
Qed.
Lemma announced_found header es o : no_data_line header ->
  (forall e, In e es -> entry_ok e /\ wave_name (string_of_list_ascii (e_wave e))) ->
  announced header es o -> exists c, search get_wavetype (contents header es) = Some c /\ group 1 c = o.
Proof.
  intros Nd Es An. destruct An as [(Ci & ->)|(Ni & Nn & e & r & -> & An)].
  - destruct Ci as (a & b & E).
    destruct (search_some get_wavetype header a (lit "inf") b [] E) as (c & S).
    { apply LAltR, LAltL. apply lseq_nil; [apply lopt_none|]. now apply lang_lit. }
    exists c. split; [now apply search_header|]. destruct (search_sound _ _ _ S) as (pre & u & v & Eh & L).
    pose proof (lang_within_line _ _ _ _ L within_wavetype) as NL.
    destruct (wavetype_lang u c L) as [(t & f & g & n1 & n2 & n3 & n4 & Eu & _ & Lt & Lf & _)|[-> _]]; [|reflexivity].
    exfalso. exact (header_no_wavetype header pre u v t f g n1 n2 n3 n4 Nd Eh NL Eu Lt Lf).
  - assert (Sh : search get_wavetype header = None).
    { destruct (search get_wavetype header) as [c|] eqn:S; [|reflexivity]. exfalso.
      destruct (search_sound _ _ _ S) as (pre & u & v & Eh & L). pose proof (lang_within_line _ _ _ _ L within_wavetype) as NL.
      destruct (wavetype_lang u c L) as [(t & f & g & n1 & n2 & n3 & n4 & Eu & _ & Lt & Lf & _)|[_ [C|C]]].
      - exact (header_no_wavetype header pre u v t f g n1 n2 n3 n4 Nd Eh NL Eu Lt Lf).
      - apply Ni. rewrite Eh. now apply contains_app.
      - apply Nn. rewrite Eh. now apply contains_app. }
    unfold contents. rewrite search_more, Sh by reflexivity. cbn [map List.concat]. rewrite <- app_assoc. cbn [app].
    rewrite search_more by reflexivity. destruct (Es e (or_introl eq_refl)) as [Ok Wn].
    assert (Ew : e_wave e = lit (string_of_list_ascii (e_wave e))) by (symmetry; apply list_ascii_of_string_of_list_ascii).
    assert (Sl : exists c, search get_wavetype (line e) = Some c).
    { destruct An as [[N _]|[N _]].
      - destruct (wavetype_line_intro e Ok Wn N) as (u & v & c & E & L). exact (search_some _ (line e) [] u v c E L).
      - pose proof Ok as (_ & _ & _ & _ & _ & _ & _ & P). unfold line.
        set (a := e_time e ++ space :: e_frq e ++ space :: e_wave e ++ space :: e_slo e ++ space :: e_azi e ++ space :: e_ell e ++ [space]).
        assert (El : line e = a ++ e_noi e ++ space :: e_pwr e ++ space :: ["1"]) by (unfold line, a; repeat (rewrite <- app_assoc; cbn [app]); reflexivity).
        unfold line in El. rewrite El. destruct N as [E|[E|E]]; rewrite E.
        + eapply (search_some get_wavetype _ a (lit "inf") _ []); [reflexivity|].
          apply LAltR, LAltL. apply lseq_nil; [apply lopt_none|]. now apply lang_lit.
        + eapply (search_some get_wavetype _ a (lit "-inf") _ []); [reflexivity|].
          apply LAltR, LAltL. apply (lseq _ _ ["-"] (lit "inf")); [now apply lopt_some|]. now apply lang_lit.
        + eapply (search_some get_wavetype _ a (lit "nan" ++ [space] ++ e_pwr e ++ [space] ++ ["1"] ++ []) [] []).
          { rewrite app_nil_r. repeat (rewrite <- app_assoc; cbn [app]). reflexivity. }
          apply LAltR, LAltR. unfold seqs. cbn [fold_right]. apply lseq; [now apply lang_lit|]. apply lseq; [apply lsp|].
          apply lseq; [now apply lang_number|]. apply lseq; [apply lsp|]. apply lseq; [now constructor|constructor]. }
    destruct Sl as (c & S). rewrite S. exists c. split; [reflexivity|]. destruct (search_sound _ _ _ S) as (pre & u & v & E & L).
    destruct (wavetype_lang u c L) as [(t & f & g & n1 & n2 & n3 & n4 & -> & -> & Lt & Lf & _ & Sg & L1 & L2 & L3 & L4)|[-> C]].
    + destruct (wavetype_in_line e pre t f g n1 n2 n3 n4 v _ Ok Wn Ew E Lt Lf Sg L1 L2 L3 L4) as [-> G].
      destruct An as [[_ ->]|[N _]]; [reflexivity|]. exfalso. now apply (bad_noise (e_noi e) N).
    + destruct An as [[N _]|[_ ->]]; [|reflexivity]. exfalso. destruct (no_name_in_line e _ Ok Wn Ew N) as [N1 N2]. rewrite E in N1, N2.
      destruct C as [C|C]; [apply N1|apply N2]; now apply contains_app.
Qed.

(** * The numbers *)
Lemma written_number t v : written t v -> number t.
Proof.
  intros (s & a & p & b & x & e & S & Na & Da & Db & P & X & -> & _). exists s, (a ++ p ++ b), x. split; [exact S|]. split.
  - exists a, b. split; [exact Na|]. split; [exact Da|]. split; [exact Db|]. destruct P as [[-> ->]| ->]; [left; now rewrite !app_nil_r|now right].
  - split; [|now rewrite <- !app_assoc]. destruct X as [[-> _]|(c & d & C & _ & D & X)]; [now left|right].
    destruct X as [[-> _]|[[-> _]|[-> _]]]; [exists c, [], d|exists c, ["+"], d|exists c, ["-"], d]; auto.
Qed.
Lemma wave_names_name w W : In (w, W) wave_names -> wave_name W.
Proof. cbn. intros H. repeat (destruct H as [H|H]; [injection H as _ <-; cbn; auto 6|]). destruct H. Qed.
Lemma noise_reads t x : noise_value t x -> parse_float t = Ok x /\ (number t \/ t = lit "inf" \/ t = lit "-inf" \/ t = lit "nan").
Proof.
  intros [(v & H & ->)|[[-> ->]|[[-> ->]|[-> ->]]]]; [split; [now apply parse_written|left; now apply (written_number t v)]|..]; split; auto.
Qed.
Lemma states_ok e r : states e r -> entry_ok e /\ wave_name (string_of_list_ascii (e_wave e)) /\ reads e r.
Proof.
  intros (T & F & (w & I) & f & s & a & l & n & p & Hf & Hs & Ns & Ha & Hl & Hn & Hp & ->). apply wave_names_name in I.
  destruct (noise_reads _ _ Hn) as [Pn Nn].
  assert (Ew : e_wave e = lit (string_of_list_ascii (e_wave e))) by (symmetry; apply list_ascii_of_string_of_list_ascii).
  split; [|split; [exact I|]].
  - split; [exact T|]. split; [exact F|]. split; [rewrite Ew; now apply wave_word|]. eauto 10 using written_number.
  - unfold reads. cbn [r_frq r_vel r_azi r_ell r_noi r_pwr]. rewrite (parse_written _ _ Hf), (parse_written _ _ Ha), (parse_written _ _ Hl), (parse_written _ _ Hp).
    split; [reflexivity|]. split; [exists s; split; [now apply parse_written|split; auto]|]. auto.
Qed.
Lemma count_of_spec N : digits N -> clamp_nmaxima N = count_of N.
Proof. intros D. unfold clamp_nmaxima, count_of. now rewrite digits_val_decimal by exact D. Qed.
Lemma read_as_spec w o w' : read_as w o w' -> effective_wavetype w o = w'.
Proof.
  unfold effective_wavetype. intros [(-> & -> & ->)|(H & ->)]; [reflexivity|]. destruct (String.eqb_spec w "rayleigh") as [E|]; [|reflexivity].
  destruct o as [t|]; [|reflexivity]. destruct (text_eqb_spec t (lit "Vertical")) as [Q|]; [|reflexivity]. exfalso. destruct H as [H|H]; apply H; congruence.
Qed.
Lemma named_spec P wf o name : group 1 wf = o -> named P o name -> process_name wf [(1, P)] = name.
Proof.
  unfold process_name. intros -> H. change (cap 1 [(1, P)]) with P. destruct H as [(-> & -> & ->)|(H & ->)]; [reflexivity|].
  destruct (text_eqb_spec (lower P) (lit "rtbf")) as [E|]; [|reflexivity]. destruct o as [t|]; [|reflexivity].
  destruct (text_eqb_spec t (lit "Vertical")) as [Q|]; [|reflexivity]. exfalso. destruct H as [H|H]; apply H; congruence.
Qed.

(** * A whole file *)
Lemma document_read header es P N o w w' W name values :
  header_of P N header -> (forall e, In e es -> states e (values e)) -> announced header es o ->
  read_as w o w' -> In (w', W) wave_names -> named P o name -> header_ok (lit W) header ->
  (forall e, In e (of_wave (lit W) es) -> time_stands_out (e_time e) es /\ frequency_stands_out (e_frq e) es) ->
  (forall t f, List.length (at_frequency f (of_window t (lit W) es)) <= count_of N) ->
  exists ps, read_file (contents header es) w = (w', Ok ps) /\
    Forall2 (fun t p => identifier p = string_of_list_ascii (t ++ ["-"] ++ name) /\
               holds_window p (count_of N) (firsts (map e_frq (of_wave (lit W) es))) (of_window t (lit W) es) values)
            (firsts (map e_time (of_wave (lit W) es))) ps.
Proof.
  intros (Hv & Hp & Hn & Nd) St An Ra Wn Nm Ho Out Cnt.
  destruct (announced_found header es o Nd) as (wf & Sw & G); [intros e I; destruct (states_ok e _ (St e I)) as (A & B & _); auto|exact An|].
  pose proof (key_found _ _ _ _ Hp) as Sp. pose proof (key_found _ _ _ _ Hn) as Sn.
  destruct Hn as (pre & post & _ & _ & Dn & _). pose proof (count_of_spec N Dn) as Cn.
  rewrite <- (read_as_spec w o w' Ra) in *. rewrite <- (named_spec P wf o name G Nm), <- Cn. rewrite <- Cn in Cnt. rewrite <- G in *.
  apply (read_file_ok header es w W [(1, N)] wf [(1, P)] values); auto.
  - now apply version_found.
  - now apply names_spec.
  - intros e I. apply (states_ok e _ (St e I)).
  - intros e I. apply (states_ok e _ (St e I)).
Qed.
Lemma document_first header es P N o w w' W name values e0 rest :
  header_of P N header -> (forall e, In e es -> states e (values e)) -> announced header es o ->
  read_as w o w' -> In (w', W) wave_names -> named P o name -> header_ok (lit W) header ->
  of_wave (lit W) es = e0 :: rest -> time_stands_out (e_time e0) es ->
  (forall e, In e (of_window (e_time e0) (lit W) es) -> frequency_stands_out (e_frq e) es) ->
  (forall f, List.length (at_frequency f (of_window (e_time e0) (lit W) es)) <= count_of N) ->
  exists p, peaks_from_max (contents header es) w = Ok p /\
    identifier p = string_of_list_ascii (e_time e0 ++ ["-"] ++ name) /\
    holds_window p (count_of N) (firsts (map e_frq (of_window (e_time e0) (lit W) es))) (of_window (e_time e0) (lit W) es) values.
Proof.
  intros (Hv & Hp & Hn & Nd) St An Ra Wn Nm Ho Fst Out1 Out2 Cnt.
  destruct (announced_found header es o Nd) as (wf & Sw & G); [intros e I; destruct (states_ok e _ (St e I)) as (A & B & _); auto|exact An|].
  pose proof (key_found _ _ _ _ Hp) as Sp. pose proof (key_found _ _ _ _ Hn) as Sn.
  destruct Hn as (pre & post & _ & _ & Dn & _). pose proof (count_of_spec N Dn) as Cn.
  rewrite <- (read_as_spec w o w' Ra) in *. rewrite <- (named_spec P wf o name G Nm), <- Cn. rewrite <- Cn in Cnt. rewrite <- G in *.
  apply (first_window header es w W e0 rest [(1, N)] wf [(1, P)] values); auto.
  - now apply version_found.
  - now apply names_spec.
  - intros e I. apply (states_ok e _ (St e I)).
  - intros e I. apply (states_ok e _ (St e I)).
Qed.
