(* Proofs about the SPAC patterns. *)
From Coq Require Import Lia.
From Verif Require Import Regex RegexProofs MaxModel MaxSpec MaxProofs MaxHeaderProofs SpacModel SpacSpec.
Local Open Scope nat_scope.
Local Open Scope list_scope.
Local Open Scope char_scope.

(** * NUMBER takes all of a number *)
Lemma star_all {X} p v : forall post (k : text -> option X) x, forallb p v = true -> (forall c r, post = c :: r -> p c = false) ->
  k post = Some x -> star p (v ++ post) k = Some x.
Proof.
  induction v as [|a v IH]; intros post k x F N K.
  - cbn [app]. destruct post as [|c r]; cbn; auto. now rewrite (N c r eq_refl).
  - cbn in F. apply andb_true_iff in F. destruct F as [Pa F]. cbn [app star]. rewrite Pa. now rewrite (IH post k x F N K).
Qed.
Lemma opt_yes {X} p a s R c (k : text -> caps -> option X) x : p a = true -> run R s c k = Some x -> run (Seq (Opt p) R) (a :: s) c k = Some x.
Proof. intros P H. cbn [run Opt]. rewrite P, H. reflexivity. Qed.
Lemma opt_no {X} p s R c (k : text -> caps -> option X) : (forall a r, s = a :: r -> p a = false) -> run (Seq (Opt p) R) s c k = run R s c k.
Proof. intros N. cbn [run Opt]. destruct s as [|a s]; auto. now rewrite (N a s eq_refl). Qed.
Lemma plus_all {X} p v post R c (k : text -> caps -> option X) x : v <> [] -> forallb p v = true -> (forall a r, post = a :: r -> p a = false) ->
  run R post c k = Some x -> run (Seq (Plus p) R) (v ++ post) c k = Some x.
Proof.
  intros Ne F N K. destruct v as [|a v]; [congruence|]. cbn in F. apply andb_true_iff in F. destruct F as [Pa F].
  cbn [run Plus app]. rewrite Pa. now apply star_all.
Qed.
Lemma star_seq {X} p v post R c (k : text -> caps -> option X) x : forallb p v = true -> (forall a r, post = a :: r -> p a = false) ->
  run R post c k = Some x -> run (Seq (Star p) R) (v ++ post) c k = Some x.
Proof. intros F N K. cbn [run]. now apply star_all. Qed.
Lemma not_dash a : digit a = true -> is a "-" = false.
Proof. intros D. apply is_not. apply digit_range in D. cbn. lia. Qed.
Lemma not_digit_of a (n : nat) : nat_of_ascii a = n -> n < 48 \/ 57 < n -> digit a = false.
Proof.
  intros E H. destruct (digit a) eqn:D; auto. apply digit_range in D. lia.
Qed.
Definition ends (post : text) : Prop := post = [] \/ exists r, post = newline :: r.
Lemma number_greedy {X} t post c (k : text -> caps -> option X) x : number t -> ends post -> k post c = Some x -> run NUMBER (t ++ post) c k = Some x.
Proof.
  intros (s & m & ex & Hs & (a & b & Na & Da & Db & Hm) & Hx & ->) E K. unfold NUMBER, seqs. cbn [fold_right].
  assert (NP : forall (p : ascii -> bool), p newline = false -> forall y r, post = y :: r -> p y = false).
  { intros p P y r Q. destruct E as [->|(z & ->)]; [discriminate|]. injection Q as <- _. exact P. }
  assert (K7 : run (Seq (Star digit) Eps) post c k = Some x).
  { change post with ([] ++ post). apply star_seq; [reflexivity|apply NP; reflexivity|]. exact K. }
  assert (K6 : run (Seq (Opt (fun a => (is a "+" || is a "-")%bool)) (Seq (Star digit) Eps)) post c k = Some x).
  { rewrite opt_no; [exact K7|apply NP; reflexivity]. }
  assert (K5 : run (Seq (Opt (fun a => (is a "e" || is a "E")%bool)) (Seq (Opt (fun a => (is a "+" || is a "-")%bool)) (Seq (Star digit) Eps))) post c k = Some x).
  { rewrite opt_no; [exact K6|apply NP; reflexivity]. }
  (* after the sign of the mantissa *)
  assert (Body : forall m', m' = m ++ ex -> run (Seq (Plus digit) (Seq (Opt any) (Seq (Star digit)
     (Seq (Opt (fun a => (is a "e" || is a "E")%bool)) (Seq (Opt (fun a => (is a "+" || is a "-")%bool)) (Seq (Star digit) Eps)))))) (m' ++ post) c k = Some x).
  { intros m' ->. destruct Hx as [-> |(e & g & d & He & Hg & Hd & ->)].
    - rewrite app_nil_r. destruct Hm as [-> | ->].
      + apply plus_all; [exact Na|exact Da|apply NP; reflexivity|]. rewrite opt_no by (apply NP; reflexivity).
        change post with ([] ++ post). apply star_seq; [reflexivity|apply NP; reflexivity|]. exact K5.
      + rewrite <- app_assoc. apply plus_all; [exact Na|exact Da|intros y r Q; injection Q as <- _; reflexivity|]. rewrite <- app_assoc. cbn [app].
        apply opt_yes; [reflexivity|]. apply star_seq; [exact Db|apply NP; reflexivity|]. exact K5.
    - assert (De : digit e = false) by (destruct He as [-> | ->]; reflexivity).
      assert (Last : run (Seq (Opt (fun a => (is a "+" || is a "-")%bool)) (Seq (Star digit) Eps)) ((g ++ d) ++ post) c k = Some x).
      { assert (G7 : run (Seq (Star digit) Eps) (d ++ post) c k = Some x) by (apply star_seq; [exact Hd|apply NP; reflexivity|exact K]).
        destruct Hg as [-> |Hg].
        - cbn [app]. rewrite opt_no; [exact G7|]. intros y r Q. destruct d as [|d0 d]; [cbn in Q; now apply (NP (fun a => (is a "+" || is a "-")%bool) eq_refl y r)|].
          injection Q as <- _. unfold digits in Hd. cbn in Hd. apply andb_true_iff in Hd. destruct Hd as [D0 _].
          rewrite (not_dash d0 D0). rewrite orb_false_r. apply is_not. apply digit_range in D0. cbn. lia.
        - destruct Hg as [-> | ->]; cbn [app]; apply opt_yes; auto. }
      destruct Hm as [-> | ->].
      + rewrite <- app_assoc. apply plus_all; [exact Na|exact Da|intros y r Q; injection Q as <- _; exact De|].
        cbn [app]. apply opt_yes; [destruct He as [-> | ->]; reflexivity|].
        destruct Hg as [-> |Hg].
        * cbn [app]. apply star_seq; [exact Hd|apply NP; reflexivity|]. exact K5.
        * change ((g ++ d) ++ post) with ([] ++ ((g ++ d) ++ post)). 
          apply star_seq; [reflexivity|intros y r Q; destruct Hg as [-> | ->]; injection Q as <- _; reflexivity|].
          rewrite opt_no; [exact Last|]. intros y r Q; destruct Hg as [-> | ->]; injection Q as <- _; reflexivity.
      + rewrite <- !app_assoc. apply plus_all; [exact Na|exact Da|intros y r Q; injection Q as <- _; reflexivity|]. cbn [app].
        apply opt_yes; [reflexivity|]. apply star_seq; [exact Db|intros y r Q; injection Q as <- _; exact De|].
        apply opt_yes; [destruct He as [-> | ->]; reflexivity|]. exact Last. }
  destruct Hs as [-> | ->].
  - cbn [app]. rewrite opt_no; [now apply Body|]. intros y r Q. apply not_dash.
    assert (exists a0 z, (m ++ ex) ++ post = a0 :: z /\ digit a0 = true) as (a0 & z & Q2 & D).
    { destruct a as [|a0 a]; [congruence|]. unfold digits in Da. cbn in Da. apply andb_true_iff in Da. destruct Da as [D _].
      destruct Hm as [-> | ->]; cbn [app]; eauto. }
    rewrite Q2 in Q. now injection Q as <- _.
  - cbn [app]. apply opt_yes; [reflexivity|]. now apply Body.
Qed.

(** * The fields of the pattern *)
Definition add (n : nat) (p : part) (u : text) (c : caps) : caps := if fst p then (n, u) :: c else c.
Lemma run_part {X} n p s c (K : text -> caps -> option X) x : no_groups (snd p) = true -> run (part_re n p) s c K = Some x ->
  exists u s', s = u ++ s' /\ lang (snd p) u [] [] /\ K s' (add n p u c) = Some x.
Proof.
  intros N H. destruct (run_sound _ _ _ _ _ H) as (u & s' & c' & -> & L & Q). exists u, s'. split; auto.
  unfold part_re, add in *. destruct p as [[|] r]; cbn [fst snd] in *.
  - apply lang_grp in L; auto. destruct L as [-> L]. auto.
  - pose proof (lang_no_groups _ _ _ _ L N). subst. split; auto. eapply lang_caps; eauto.
Qed.
Lemma run_sp {X} s c (K : text -> caps -> option X) x : run SP s c K = Some x -> exists s', s = space :: s' /\ K s' c = Some x.
Proof.
  cbn [run SP]. destruct s as [|a s]; [discriminate|]. unfold is. destruct (Ascii.eqb_spec " " a) as [<-|]; [|discriminate]. eauto.
Qed.
Section Ratio.
  Variables (t c r : part).
  Hypothesis Nt : no_groups (snd t) = true.
  Hypothesis Nr : no_groups (snd r) = true.
  Hypothesis Wt : within_line (snd t) = true.
  Hypothesis Wr : within_line (snd r) = true.
  Hypothesis Ec : snd c = Chr (is "0").
  Let Nc : no_groups (snd c) = true. Proof. rewrite Ec. reflexivity. Qed.
  Let R : re := fields 1 [t; grouped_number; c; r; grouped_number].
  Let n2 := next 1 t. Let n3 := next n2 grouped_number. Let n4 := next n3 c. Let n5 := next n4 r.
  Definition captured (g1 g2 g4 : text) : caps := add n4 r g4 (add n3 c ["0"] (add n2 grouped_number g2 (add 1 t g1 []))).
  Lemma ratio_run s s' cc : match_at R s = Some (s', cc) -> exists g1 g2 g4 y,
    s = g1 ++ space :: g2 ++ space :: ["0"] ++ space :: g4 ++ space :: y /\ lang (snd t) g1 [] [] /\ lang NUMBER g2 [] [] /\ lang (snd r) g4 [] [] /\
    run (Grp n5 NUMBER) y (captured g1 g2 g4) (fun s c => Some (s, c)) = Some (s', cc).
  Proof.
    unfold match_at, R, fields. intros H. cbn [run] in H.
    change (fun (s0 : text) (c0 : caps) => Some (s0, c0)) with (fun (s0 : text) (c0 : caps) => @Some (text * caps) (s0, c0)) in H.
    destruct (run_part _ _ _ _ _ _ Nt H) as (g1 & s1 & -> & L1 & H1). cbn beta in H1.
    destruct (run_sp _ _ _ _ H1) as (s2 & -> & H2). cbn [run] in H2.
    destruct (run_part _ grouped_number _ _ _ _ eq_refl H2) as (g2 & s3 & -> & L2 & H3).
    destruct (run_sp _ _ _ _ H3) as (s4 & -> & H4). cbn [run] in H4.
    destruct (run_part _ _ _ _ _ _ Nc H4) as (g3 & s5 & -> & L3 & H5).
    destruct (run_sp _ _ _ _ H5) as (s6 & -> & H6). cbn [run] in H6.
    destruct (run_part _ _ _ _ _ _ Nr H6) as (g4 & s7 & -> & L4 & H7).
    destruct (run_sp _ _ _ _ H7) as (y & -> & H8).
    rewrite Ec in L3. apply lang_chr in L3. destruct L3 as [-> _].
    exists g1, g2, g4, y. repeat split; auto.
  Qed.
  Lemma lang_part n p u k : lang (snd p) u [] [] -> no_groups (snd p) = true -> lang (part_re n p) u k (add n p u k).
  Proof. intros L N. unfold part_re, add. destruct p as [[|] q]; cbn [fst snd] in *; [constructor|]; eapply lang_caps; eauto. Qed.
  Lemma ratio_lang g1 g2 g4 x : lang (snd t) g1 [] [] -> lang NUMBER g2 [] [] -> lang (snd r) g4 [] [] -> lang NUMBER x [] [] ->
    exists cc, lang R (g1 ++ space :: g2 ++ space :: ["0"] ++ space :: g4 ++ space :: x) [] cc.
  Proof.
    intros L1 L2 L4 L5. unfold R, fields. eexists.
    repeat match goal with |- context [?a ++ space :: ?b] => change (a ++ space :: b) with (a ++ [space] ++ b) end.
    eapply LSeq; [apply lang_part; eauto|]. eapply LSeq; [apply lsp|].
    eapply LSeq; [apply (lang_part _ grouped_number); eauto; reflexivity|]. eapply LSeq; [apply lsp|].
    eapply LSeq; [apply lang_part; [rewrite Ec; now constructor|exact Nc]|]. eapply LSeq; [apply lsp|].
    eapply LSeq; [apply lang_part; eauto|]. eapply LSeq; [apply lsp|].
    apply (lang_part _ grouped_number); [exact L5|reflexivity].
  Qed.
  Lemma ratio_lang_inv u cc : lang R u [] cc -> exists g1 g2 g4 x, u = g1 ++ space :: g2 ++ space :: ["0"] ++ space :: g4 ++ space :: x /\
    lang (snd t) g1 [] [] /\ lang NUMBER g2 [] [] /\ lang (snd r) g4 [] [] /\ lang NUMBER x [] [].
  Proof.
    assert (P : forall n p v k k', no_groups (snd p) = true -> lang (part_re n p) v k k' -> lang (snd p) v [] []).
    { intros n [[|] q] v k k' N L; cbn [fst snd part_re] in *; [apply lang_grp in L; tauto|eapply lang_caps; eauto]. }
    intros H. unfold R, fields in H.
    apply lang_seq in H. destruct H as (g1 & z1 & k1 & -> & L1 & H). apply lang_seq in H. destruct H as (p1 & z2 & k2 & -> & S1 & H).
    apply lang_seq in H. destruct H as (g2 & z3 & k3 & -> & L2 & H). apply lang_seq in H. destruct H as (p2 & z4 & k4 & -> & S2 & H).
    apply lang_seq in H. destruct H as (g3 & z5 & k5 & -> & L3 & H). apply lang_seq in H. destruct H as (p3 & z6 & k6 & -> & S3 & H).
    apply lang_seq in H. destruct H as (g4 & z7 & k7 & -> & L4 & H). apply lang_seq in H. destruct H as (p4 & z8 & k8 & -> & S4 & H).
    apply lang_chr in S1, S2, S3, S4. destruct S1 as [-> _], S2 as [-> _], S3 as [-> _], S4 as [-> _].
    apply P in L1, L2, L3, L4, H; auto. rewrite Ec in L3. apply lang_chr in L3. destruct L3 as [-> _].
    exists g1, g2, g4, z8. split; [reflexivity|auto].
  Qed.
  Lemma ratio_within : within_line R = true.
  Proof.
    unfold R, fields, part_re. destruct t as [ft T], c as [fc C0], r as [fr R0]. cbn [fst snd] in *. subst C0.
    destruct ft, fc, fr; cbn [within_line fst snd grouped_number]; rewrite ?Wt, ?Wr; reflexivity.
  Qed.
  Lemma ratio_proper : proper R.
  Proof. intros cc L. destruct (ratio_lang_inv _ _ L) as (g1 & g2 & g4 & x & E & _). destruct g1; discriminate. Qed.
  Lemma ratio_words e : ratio_ok e -> words (ratio_line e) = [q_time e; q_frq e; q_component e; q_ring e; q_ratio e].
  Proof.
    intros (A & B & (C1 & _) & (_ & D) & F). unfold ratio_line. rewrite !words_split.
    rewrite !words_one; auto; [apply numeric_word, number_numeric, F|apply numeric_word, digits_numeric, D|apply numeric_word, number_numeric, B|apply numeric_word, number_numeric, A].
  Qed.
  (** a match inside a line of the file *)
  Lemma ratio_split e pre g1 g2 g4 x : ratio_ok e -> ratio_line e = pre ++ g1 ++ space :: g2 ++ space :: ["0"] ++ space :: g4 ++ space :: x ->
    q_time e = pre ++ g1 /\ q_frq e = g2 /\ q_component e = ["0"] /\ q_ring e = g4 /\ q_ratio e = x.
  Proof.
    intros Ok E. pose proof (ratio_words e Ok) as W. rewrite E in W. rewrite app_assoc in W. rewrite !words_split in W.
    pose proof (f_equal (@List.length text) W) as Len. rewrite !app_length in Len. cbn [List.length] in Len.
    pose proof (words_len (pre ++ g1)). pose proof (words_len g2). pose proof (words_len ["0"]). pose proof (words_len g4). pose proof (words_len x).
    rewrite (words_len1 (pre ++ g1)), (words_len1 g2), (words_len1 ["0"]), (words_len1 g4), (words_len1 x) in W by lia.
    cbn [app] in W. injection W as W1 W2 W3 W4 W5. auto.
  Qed.
  Lemma ratio_skip e rest : ratio_ok e -> ~ (q_component e = ["0"] /\ (exists pre g, q_time e = pre ++ g /\ lang (snd t) g [] []) /\ lang (snd r) (q_ring e) [] []) ->
    finditer R (ratio_line e ++ newline :: rest) = finditer R rest.
  Proof.
    intros Ok N. apply finditer_skip_line; [apply ratio_within|apply ratio_proper|].
    intros pre u v cc E L. destruct (ratio_lang_inv _ _ L) as (g1 & g2 & g4 & x & -> & L1 & L2 & L4 & L5).
    assert (E' : ratio_line e = pre ++ g1 ++ space :: g2 ++ space :: ["0"] ++ space :: g4 ++ space :: (x ++ v)).
    { rewrite E. cbn [app]. repeat (rewrite <- !app_assoc; cbn [app]). reflexivity. }
    destruct (ratio_split e pre g1 g2 g4 (x ++ v) Ok E') as (W1 & W2 & W3 & W4 & W5). apply N.
    rewrite W3, W1, W4. eauto 6.
  Qed.
  Lemma ratio_take e rest : ratio_ok e -> q_component e = ["0"] -> lang (snd t) (q_time e) [] [] -> lang (snd r) (q_ring e) [] [] ->
    finditer R (ratio_line e ++ newline :: rest) = ((n5, q_ratio e) :: captured (q_time e) (q_frq e) (q_ring e)) :: finditer R rest.
  Proof.
    intros Ok C0 Lt Lr. pose proof Ok as (A & B & _ & _ & F).
    destruct (ratio_lang (q_time e) (q_frq e) (q_ring e) (q_ratio e) Lt (lang_number _ [] B) Lr (lang_number _ [] F)) as (cc0 & L0).
    assert (EL : ratio_line e = q_time e ++ space :: q_frq e ++ space :: ["0"] ++ space :: q_ring e ++ space :: q_ratio e) by (unfold ratio_line; now rewrite C0).
    rewrite <- EL in L0.
    pose proof (match_complete R (ratio_line e) (newline :: rest) cc0 L0) as M.
    destruct (match_at R (ratio_line e ++ newline :: rest)) as [[s' cc]|] eqn:E; [|congruence]. clear M.
    destruct (match_sound _ _ _ _ E) as (u & Q & L). symmetry in Q.
    destruct (within_first_line u s' (ratio_line e) rest (lang_within_line _ _ _ _ L ratio_within) Q) as [v Ev].
    destruct (ratio_run _ _ _ E) as (g1 & g2 & g4 & y & Es & L1 & L2 & L4 & K).
    (* y begins inside the line *)
    destruct (ratio_lang_inv _ _ L) as (h1 & h2 & h4 & x & Eu & M1 & M2 & M4 & M5).
    assert (Hy : exists x', ratio_line e = g1 ++ space :: g2 ++ space :: ["0"] ++ space :: g4 ++ space :: x' /\ y = x' ++ newline :: rest).
    { assert (NL : ~ In newline (g1 ++ space :: g2 ++ space :: ["0"] ++ space :: g4 ++ [space])).
      { assert (n1 : ~ In newline g1) by (eapply lang_within_line; [exact L1|exact Wt]).
        assert (n2' : ~ In newline g2) by (eapply lang_within_line; [exact L2|reflexivity]).
        assert (n4' : ~ In newline g4) by (eapply lang_within_line; [exact L4|exact Wr]).
        rewrite in_app_iff. cbn [In]. rewrite in_app_iff. cbn [In app]. rewrite in_app_iff. cbn [In].
        intros [Z|[Z|[Z|[Z|[Z|[Z|[Z|[Z|Z]]]]]]]]; try tauto; try discriminate. }
      symmetry in Es. 
      assert (Es' : (g1 ++ space :: g2 ++ space :: ["0"] ++ space :: g4 ++ [space]) ++ y = ratio_line e ++ newline :: rest).
      { rewrite <- Es. cbn [app]. repeat (rewrite <- !app_assoc; cbn [app]). reflexivity. }
      destruct (within_first_line _ _ _ _ NL Es') as [x' Ex]. exists x'. split.
      - rewrite Ex. cbn [app]. repeat (rewrite <- !app_assoc; cbn [app]). reflexivity.
      - rewrite Ex in Es'. revert Es'. generalize (g1 ++ space :: g2 ++ space :: ["0"] ++ space :: g4 ++ [space]) as z. intros z Es'. rewrite <- app_assoc in Es'. now apply app_inv_head in Es'. }
    destruct Hy as (x' & Ex & ->).
    destruct (ratio_split e [] g1 g2 g4 x' Ok Ex) as (W1 & W2 & W3 & W4 & W5). cbn [app] in W1. subst g1 g2 g4 x'.
    cbn [run] in K. 
    rewrite (number_greedy (q_ratio e) (newline :: rest) _ _ (newline :: rest, (n5, q_ratio e) :: captured (q_time e) (q_frq e) (q_ring e)) F) in K.
    - injection K as <- <-. unfold finditer.
      assert (Ne : ratio_line e <> []) by (rewrite EL; destruct (q_time e); discriminate).
      revert E Ne. generalize (ratio_line e) as l. intros l E Ne. destruct l as [|a l]; [congruence|].
      cbn [app finditer_from]. cbn [app] in E. rewrite E. f_equal.
      rewrite finditer_from_skip by (cbn [List.length]; rewrite app_length; cbn [List.length]; lia).
      change (newline :: rest) with ([] ++ newline :: rest). apply (finditer_skip_line R [] rest ratio_within ratio_proper).
      intros pre u0 v0 c0 Q0 LL. symmetry in Q0. apply app_eq_nil in Q0. destruct Q0 as [_ Q0]. apply app_eq_nil in Q0. destruct Q0 as [-> _].
      exact (ratio_proper _ LL).
    - right. eauto.
    - now rewrite consumed_app.
  Qed.
  Lemma ratio_header header : no_ratio_line header -> (forall g, lang (snd t) g [] [] -> exists a d b, g = a ++ d :: b /\ digit d = true) ->
    forall pre u v cc, header = pre ++ u ++ v -> ~ lang R u [] cc.
  Proof.
    intros H D pre u v cc E L. pose proof (lang_within_line _ _ _ _ L ratio_within) as NL.
    destruct (ratio_lang_inv _ _ L) as (g1 & g2 & g4 & x & -> & L1 & L2 & L4 & L5).
    destruct (D g1 L1) as (a & d & b & -> & Dd).
    specialize (H (pre ++ a) d (b ++ space :: g2 ++ space :: ["0"] ++ space :: g4 ++ space :: x) v).
    assert (Hc : count_occ ascii_dec (b ++ space :: g2 ++ space :: ["0"] ++ space :: g4 ++ space :: x) space < 4).
    { apply H; [rewrite E; cbn [app]; repeat (rewrite <- !app_assoc; cbn [app]); reflexivity|exact Dd|].
      intros I. apply NL. cbn [app]. rewrite <- app_assoc. rewrite in_app_iff. right. now right. }
    clear - Hc. cbn [app] in Hc. 
    repeat (rewrite count_occ_app in Hc; cbn [count_occ] in Hc; destruct (ascii_dec space space) as [_|]; [|congruence]).
    repeat (destruct (ascii_dec space space) as [_|] in Hc; [|congruence]). cbn [count_occ] in Hc.
    repeat (destruct (ascii_dec "0" space) as [Q|_] in Hc; [discriminate|]).
    repeat (rewrite count_occ_app in Hc; cbn [count_occ] in Hc; try (destruct (ascii_dec space space) as [_|] in Hc; [|congruence])). lia.
  Qed.
  Definition selected (e : ratio) (b : bool) : Prop :=
    if b then q_component e = ["0"] /\ lang (snd t) (q_time e) [] [] /\ lang (snd r) (q_ring e) [] []
    else ~ (q_component e = ["0"] /\ (exists pre g, q_time e = pre ++ g /\ lang (snd t) g [] []) /\ lang (snd r) (q_ring e) [] []).
  Lemma ratio_file_found header es (sel : ratio -> bool) : no_ratio_line header ->
    (forall g, lang (snd t) g [] [] -> exists a d b, g = a ++ d :: b /\ digit d = true) ->
    (forall e, In e es -> ratio_ok e /\ selected e (sel e)) ->
    finditer R (ratio_file header es) = map (fun e => (n5, q_ratio e) :: captured (q_time e) (q_frq e) (q_ring e)) (filter sel es).
  Proof.
    intros H D Hs. unfold ratio_file.
    rewrite (finditer_skip_line R header) by (apply ratio_within || apply ratio_proper || now apply ratio_header).
    clear H. induction es as [|e es IH]; [reflexivity|]. cbn [map List.concat filter]. rewrite <- app_assoc. cbn [app].
    destruct (Hs e (or_introl eq_refl)) as [Ok S]. unfold selected in S. destruct (sel e).
    - rewrite ratio_take by tauto. cbn [map]. f_equal. apply IH. intros e0 I0. apply Hs. now right.
    - rewrite ratio_skip by auto. apply IH. intros e0 I0. apply Hs. now right.
  Qed.
End Ratio.

(** * What is asked for *)
Lemma digit_of_number g : lang NUMBER g [] [] -> exists a d b, g = a ++ d :: b /\ digit d = true.
Proof.
  intros L. destruct (number_shape g [] [] L) as (_ & s & d & y & o & r & -> & _ & D & _). exists s, d, (y ++ o ++ r).
  split; auto.
Qed.
Lemma digit_of_figured T : figured T -> forall g, lang T g [] [] -> exists a d b, g = a ++ d :: b /\ digit d = true.
Proof. intros F g L. destruct (F g [] [] L) as (d & I & D). apply in_split in I. destruct I as (a & b & ->). eauto. Qed.
Lemma digits_plain t : digits t -> plain t.
Proof. intros D a I. left. unfold digits in D. rewrite forallb_forall in D. auto. Qed.
Lemma looks_like_digits_refl t : digits t -> looks_like t t.
Proof. intros D. apply looks_like_refl. apply numeric_word, digits_numeric, D. Qed.
Lemma plus_digits t : t <> [] -> digits t -> lang (Plus digit) t [] [].
Proof. intros. now apply lplus. Qed.
Lemma not_all (P Q S : Prop) (p q s : bool) : (p = false -> ~ P) -> (q = false -> ~ Q) -> (s = false -> ~ S) -> (p && q && s)%bool = false -> ~ (P /\ Q /\ S).
Proof. intros HP HQ HS E (X & Y & Z). destruct p, q, s; try discriminate; [now apply HS|now apply HQ|now apply HQ|now apply HP..]. Qed.
Lemma ratios_found header es time component ring : no_ratio_line header -> (forall e, In e es -> ratio_ok e) ->
  component = "(0)"%string \/ component = "0"%string ->
  (forall t, time = Some t -> unsigned t /\ sole_time t es) ->
  (forall r, ring = Some r -> r <> [] /\ digits r) ->
  exists p, get_spac_ratio time component ring = Ok p /\
    map all_groups (finditer p (ratio_file header es)) = map (columns time (String.eqb component "(0)") ring) (filter (asked time ring) es).
Proof.
  intros Hh Hes Hc Ht Hr.
  assert (exists fc, (if String.eqb component "(0)" then Ok (true, Chr (is "0")) else if String.eqb component "0" then Ok (false, Chr (is "0"))
    else Err NotImplementedError) = Ok (fc, Chr (is "0")) /\ fc = String.eqb component "(0)") as (fc & Ec & Efc) by (destruct Hc as [-> | ->]; cbn; eauto).
  assert (exists pt, caller_part grouped_number time = Ok pt /\ no_groups (snd pt) = true /\ within_line (snd pt) = true /\
    (forall g, lang (snd pt) g [] [] -> exists a d b, g = a ++ d :: b /\ digit d = true) /\ fst pt = (match time with None => true | Some _ => false end) /\
    (forall e, In e es -> ((match time with None => true | Some t => text_eqb (q_time e) t end) = true -> lang (snd pt) (q_time e) [] []) /\
       ((match time with None => true | Some t => text_eqb (q_time e) t end) = false -> ~ exists pre g, q_time e = pre ++ g /\ lang (snd pt) g [] [])))
    as (pt & Et & Nt & Wt & Dt & Ft & St).
  { destruct time as [t|].
    - destruct (Ht t eq_refl) as [U So]. exists (false, chars t). cbn [caller_part]. rewrite pattern_plain by now apply unsigned_plain.
      cbn [fst snd]. repeat split; [apply chars_no_groups|now apply chars_within, unsigned_plain|now apply digit_of_figured, figured_chars| |].
      + intros E. destruct (text_eqb_spec (q_time e) t) as [->|]; [|discriminate]. apply lang_looks_like, looks_like_refl, unsigned_no_newline, U.
      + intros E (pre & g & Q & L). destruct (text_eqb_spec (q_time e) t) as [|Ne]; [discriminate|]. apply Ne.
        apply (So e pre g); auto. now apply lang_looks_like.
    - exists grouped_number. repeat split; try reflexivity; [exact digit_of_number| |discriminate].
      intros _. apply lang_number. apply (Hes e H). }
  assert (exists pr, caller_part (true, Plus digit) ring = Ok pr /\ no_groups (snd pr) = true /\ within_line (snd pr) = true /\
    fst pr = (match ring with None => true | Some _ => false end) /\
    (forall e, In e es -> ((match ring with None => true | Some t => text_eqb (q_ring e) t end) = true -> lang (snd pr) (q_ring e) [] []) /\
       ((match ring with None => true | Some t => text_eqb (q_ring e) t end) = false -> ~ lang (snd pr) (q_ring e) [] [])))
    as (pr & Er & Nr & Wr & Fr & Sr).
  { destruct ring as [t|].
    - destruct (Hr t eq_refl) as [Ne D]. exists (false, chars t). cbn [caller_part]. rewrite pattern_plain by now apply digits_plain.
      cbn [fst snd]. repeat split; [apply chars_no_groups|now apply chars_within, digits_plain| |].
      + intros E. destruct (text_eqb_spec (q_ring e) t) as [->|]; [|discriminate]. now apply lang_looks_like, looks_like_digits_refl.
      + intros E L. destruct (text_eqb_spec (q_ring e) t) as [|Nq]; [discriminate|]. apply Nq. apply lang_looks_like in L.
        now apply (looks_like_digits t (q_ring e)).
    - exists (true, Plus digit). repeat split; try reflexivity; [|discriminate]. intros _. destruct (Hes e H) as (_ & _ & _ & (A & B) & _). now apply plus_digits. }
  exists (fields 1 [pt; grouped_number; (fc, Chr (is "0")); pr; grouped_number]). split. { unfold get_spac_ratio. rewrite Ec. cbn [bind]. rewrite Et. cbn [bind]. rewrite Er. cbn [bind]. reflexivity. }
  etransitivity; [apply f_equal; apply (ratio_file_found pt (fc, Chr (is "0")) pr Nt Nr Wt Wr eq_refl header es (asked time ring) Hh Dt)|].
  - intros e I. split; [now apply Hes|]. unfold selected, asked. destruct (St e I) as [T1 T2]. destruct (Sr e I) as [R1 R2].
    match goal with |- if ?b then _ else _ => destruct b eqn:E end.
    + apply andb_true_iff in E. destruct E as [E E3]. apply andb_true_iff in E. destruct E as [E1 E2].
      destruct (text_eqb_spec (q_component e) ["0"]); [|discriminate]. auto.
    + revert E. apply not_all; auto. intros E Q. destruct (text_eqb_spec (q_component e) ["0"]); congruence.
  - rewrite map_map. apply map_ext. intros e. unfold all_groups, columns, captured, add, next. cbn [fst snd grouped_number].
    rewrite Ft, Fr, Efc. destruct time, ring, (String.eqb component "(0)"); reflexivity.
Qed.

(** * Rings *)
Lemma number_stop a x k k' X Y : number a -> lang NUMBER x k k' -> x ++ lit " m" ++ X = a ++ lit " m" ++ Y -> x = a.
Proof.
  intros Na L E. destruct (number_shape x k k' L) as (_ & s & d & y & o & r & Ex & Hs & D & Dy & Ho & Nr).
  pose proof (number_numeric a Na) as NA. destruct (numeric_word a NA) as [SA _].
  assert (Stop : forall (u v w z : text), ~ In space u -> ~ In space v -> u ++ space :: w = v ++ space :: z -> u = v /\ w = z).
  { induction u as [|p u IH]; intros v w z Nu Nv Q.
    - destruct v as [|q v]; cbn in Q; [injection Q as ->; auto|]. injection Q as <- _. exfalso. apply Nv. now left.
    - destruct v as [|q v]; cbn in Q. { injection Q as -> _. exfalso. apply Nu. now left. }
      injection Q as -> Q. destruct (IH v w z) as [-> ->]; auto; intros I; [apply Nu|apply Nv]; now right. }
  assert (N1 : forallb numeric (s ++ d :: y) = true).
  { rewrite forallb_app. cbn [forallb]. rewrite (digits_numeric y Dy). unfold numeric at 2. rewrite D. destruct Hs as [-> | ->]; reflexivity. }
  destruct Ho as [-> |(b & ->)].
  - cbn [app] in Ex. assert (Nx : forallb numeric x = true) by (rewrite Ex; change (s ++ d :: y ++ r) with (s ++ (d :: y) ++ r); rewrite app_assoc, forallb_app, N1; exact Nr).
    destruct (numeric_word x Nx) as [Sx _]. exact (proj1 (Stop x a _ _ Sx SA E)).
  - destruct (Ascii.eqb_spec b space) as [->|Nb].
    + exfalso. assert (E2 : (s ++ d :: y) ++ space :: (r ++ lit " m" ++ X) = a ++ space :: lit "m" ++ Y).
      { transitivity (x ++ lit " m" ++ X); [|exact E]. rewrite Ex. repeat (rewrite <- !app_assoc; cbn [app]). reflexivity. }
      destruct (numeric_word _ N1) as [S1 _]. destruct (Stop _ _ _ _ S1 SA E2) as [_ Q].
      destruct r as [|c r]; [discriminate|]. cbn in Q. injection Q as -> _. discriminate.
    + assert (Sx : ~ In space x).
      { rewrite Ex. intros I. change (s ++ (d :: y) ++ [b] ++ r) with (s ++ (d :: y) ++ b :: r) in I. rewrite app_assoc, in_app_iff in I. destruct I as [I|[I|I]].
        - exact (proj1 (numeric_word _ N1) I). - congruence. - exact (proj1 (numeric_word _ Nr) I). }
      exact (proj1 (Stop x a _ _ Sx SA E)).
Qed.
Lemma ring_lang u c : lang get_spac_ring u [] c -> exists a b, u = ring_text (a, b) /\ lang NUMBER a [] [] /\ lang NUMBER b [] [] /\ c = [(2, b); (1, a)].
Proof.
  intros H. unfold get_spac_ring, seqs in H. cbn [fold_right] in H.
  apply lang_seq in H. destruct H as (x1 & z1 & k1 & -> & L1 & H). apply lang_seq in H. destruct H as (a & z2 & k2 & -> & L2 & H).
  apply lang_seq in H. destruct H as (x3 & z3 & k3 & -> & L3 & H). apply lang_seq in H. destruct H as (b & z4 & k4 & -> & L4 & H).
  apply lang_seq in H. destruct H as (x5 & z5 & k5 & -> & L5 & H). apply lang_eps in H. destruct H as [-> ->].
  apply (lang_lit (lit " --- Ring (")) in L1. destruct L1 as [-> ->]. apply lang_grp in L2; [|reflexivity]. destruct L2 as [-> L2].
  apply (lang_lit (lit " m, ")) in L3. destruct L3 as [-> ->]. apply lang_grp in L4; [|reflexivity]. destruct L4 as [-> L4].
  apply (lang_lit (lit " m)")) in L5. destruct L5 as [-> ->]. exists a, b. rewrite app_nil_r. auto.
Qed.
Lemma ring_match ab rest : number (fst ab) -> number (snd ab) -> match_at get_spac_ring (ring_text ab ++ rest) = Some (rest, [(2, snd ab); (1, fst ab)]).
Proof.
  destruct ab as [a b]. cbn [fst snd]. intros Na Nb.
  assert (L : lang get_spac_ring (ring_text (a, b)) [] [(2, b); (1, a)]).
  { unfold get_spac_ring, seqs, ring_text, ring_mark. cbn [fold_right fst snd]. eapply LSeq; [now apply lang_lit|].
    eapply LSeq; [apply lgrp; now apply lang_number|]. eapply LSeq; [now apply lang_lit|]. eapply LSeq; [apply lgrp; now apply lang_number|].
    rewrite <- (app_nil_r (lit " m)")). eapply LSeq; [now apply lang_lit|constructor]. }
  pose proof (match_complete _ _ rest _ L) as M. destruct (match_at get_spac_ring (ring_text (a, b) ++ rest)) as [[s c]|] eqn:E; [|congruence].
  destruct (match_sound _ _ _ _ E) as (u & Q & Lu). destruct (ring_lang u c Lu) as (a' & b' & -> & La & Lb & ->).
  unfold ring_text in Q. cbn [fst snd] in Q. rewrite <- !app_assoc in Q. apply app_inv_head in Q.
  change (lit " m, ") with (lit " m" ++ lit ", ") in Q. rewrite <- !app_assoc in Q.
  pose proof (number_stop a a' [] [] _ _ Na La (eq_sym Q)) as ->. apply app_inv_head in Q. apply app_inv_head in Q. apply app_inv_head in Q.
  change (lit " m)") with (lit " m" ++ lit ")") in Q. rewrite <- !app_assoc in Q.
  pose proof (number_stop b b' [] [] _ _ Nb Lb (eq_sym Q)) as ->. apply app_inv_head in Q. apply app_inv_head in Q. apply app_inv_head in Q.
  now rewrite Q.
Qed.
(** the mark does not overlap itself *)
Lemma mark_apart y s : y <> [] -> (exists b, y ++ ring_mark ++ s = ring_mark ++ b) -> exists b, y = ring_mark ++ b.
Proof.
  intros Ne (b & E). destruct y as [|c0 y]; [congruence|]. 
  do 10 (destruct y as [|?c y]; [exfalso; cbn in E; injection E; intros; subst; discriminate|]).
  exists y. cbn in E. injection E as -> -> -> -> -> -> -> -> -> -> -> _. reflexivity.
Qed.
Lemma no_ring_match s : (forall b, s <> ring_mark ++ b) -> match_at get_spac_ring s = None.
Proof.
  intros N. destruct (match_at get_spac_ring s) as [[r c]|] eqn:E; auto. destruct (match_sound _ _ _ _ E) as (u & Q & L).
  destruct (ring_lang u c L) as (a & b & -> & _). exfalso. apply (N ((a ++ lit " m, " ++ b ++ lit " m)") ++ r)). rewrite Q. unfold ring_text. cbn [fst snd].
  now rewrite <- app_assoc.
Qed.
Lemma finditer_pass r pre s : (forall x y, pre = x ++ y -> y <> [] -> match_at r (y ++ s) = None) -> finditer r (pre ++ s) = finditer r s.
Proof.
  unfold finditer. induction pre as [|a pre IH]; intros N; auto. cbn [app finditer_from].
  pose proof (N [] (a :: pre) eq_refl ltac:(discriminate)) as N0. cbn [app] in N0. rewrite N0. apply IH.
  intros x y E Ne. apply (N (a :: x) y); [now rewrite E|exact Ne].
Qed.
Lemma rings_found before l : unmarked before -> (forall ab after, In (ab, after) l -> number (fst ab) /\ number (snd ab) /\ unmarked after) ->
  map all_groups (finditer get_spac_ring (before ++ List.concat (map (fun x => ring_text (fst x) ++ snd x) l))) = map (fun x => [fst (fst x); snd (fst x)]) l.
Proof.
  revert before. induction l as [|[ab after] l IH]; intros before U H.
  - cbn [map List.concat]. replace (finditer get_spac_ring (before ++ [])) with (@nil caps); auto. symmetry. rewrite finditer_pass; auto.
    intros x y E Ne. rewrite app_nil_r. apply no_ring_match. intros b Q. apply (U x b). now rewrite E, Q.
  - destruct (H ab after (or_introl eq_refl)) as (Na & Nb & Ua). cbn [map List.concat fst snd]. rewrite <- app_assoc.
    set (rest := after ++ List.concat (map (fun x => ring_text (fst x) ++ snd x) l)).
    rewrite finditer_pass.
    + pose proof (ring_match ab rest Na Nb) as M.
      assert (Q : finditer get_spac_ring (ring_text ab ++ rest) = [(2, snd ab); (1, fst ab)] :: finditer get_spac_ring rest).
      { unfold finditer. remember (ring_text ab) as z eqn:Ez. destruct z as [|c z]; [discriminate|]. cbn [app finditer_from]. cbn [app] in M. rewrite M. f_equal.
        apply finditer_from_skip. cbn [List.length]. rewrite app_length. lia. }
      rewrite Q. cbn [map]. f_equal. apply IH; auto. intros ab0 after0 I0. apply H. now right.
    + intros x y E Ne. apply no_ring_match. intros b Q. unfold ring_text in Q. rewrite <- !app_assoc in Q.
      destruct (mark_apart y _ Ne (ex_intro _ b Q)) as (b' & ->). apply (U x b'). exact E.
Qed.
