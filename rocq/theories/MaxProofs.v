(* Proofs about reading .max files. *)
From Verif Require Import MaxModel RegexProofs MaxSpec PyFacts NumFacts.
Local Open Scope nat_scope.
Local Open Scope list_scope.
Local Open Scope char_scope.

Lemma text_eqb_spec a b : reflect (a = b) (text_eqb a b).
Proof.
  unfold text_eqb. destruct (String.eqb_spec (string_of_list_ascii a) (string_of_list_ascii b)) as [E|E]; constructor.
  - rewrite <- (list_ascii_of_string_of_list_ascii a), <- (list_ascii_of_string_of_list_ascii b). congruence.
  - congruence.
Qed.
Lemma text_eqb_refl a : text_eqb a a = true. Proof. destruct (text_eqb_spec a a); congruence. Qed.

(** * Numbers match *)
Lemma lseq r s u v c : lang r u c c -> lang s v c c -> lang (Seq r s) (u ++ v) c c.
Proof. intros. econstructor; eauto. Qed.
Lemma lseq_nil r s v c : lang r [] c c -> lang s v c c -> lang (Seq r s) v c c.
Proof. intros. now apply (lseq r s [] v c). Qed.
Lemma lopt_none p c : lang (Opt p) [] c c. Proof. apply LAltR. constructor. Qed.
Lemma lopt_some p a c : p a = true -> lang (Opt p) [a] c c. Proof. intros. apply LAltL. now constructor. Qed.
Lemma lplus p u c : u <> [] -> forallb p u = true -> lang (Plus p) u c c.
Proof.
  destruct u as [|a u]; [congruence|]. intros _ F. cbn in F. apply andb_true_iff in F. destruct F as [A F].
  apply (lseq (Chr p) (Star p) [a] u c); now constructor.
Qed.
Lemma lstar p u c : forallb p u = true -> lang (Star p) u c c. Proof. now constructor. Qed.
Lemma lang_time t c : unsigned t -> lang TIME t c c.
Proof.
  intros (a & b & Na & Da & Db & [-> | ->]); unfold TIME, seqs; cbn [fold_right].
  - rewrite <- (app_nil_r a). apply lseq; [now apply lplus|]. apply lseq_nil; [apply lopt_none|].
    apply lseq_nil; [now apply lstar|constructor].
  - apply lseq; [now apply lplus|]. apply lseq; [now apply lopt_some|]. rewrite <- (app_nil_r b).
    apply lseq; [now apply lstar|constructor].
Qed.
Lemma lang_number t c : number t -> lang NUMBER t c c.
Proof.
  intros (s & m & x & Hs & (a & b & Na & Da & Db & Hm) & Hx & ->). unfold NUMBER, seqs; cbn [fold_right].
  apply lseq. { destruct Hs as [-> | ->]; [apply lopt_none|now apply lopt_some]. }
  assert (X : lang (Seq (Opt (fun a => (is a "e" || is a "E")%bool)) (Seq (Opt (fun a => (is a "+" || is a "-")%bool)) (Seq (Star digit) Eps))) x c c).
  { destruct Hx as [-> |(e & g & d & He & Hg & Hd & ->)].
    - apply lseq_nil; [apply lopt_none|]. apply lseq_nil; [apply lopt_none|]. apply lseq_nil; [now apply lstar|constructor].
    - apply (lseq _ _ [e] (g ++ d)). { apply lopt_some. destruct He as [-> | ->]; reflexivity. }
      apply lseq. { destruct Hg as [-> |[-> | ->]]; [apply lopt_none| |]; now apply lopt_some. }
      rewrite <- (app_nil_r d). apply lseq; [now apply lstar|constructor]. }
  destruct Hm as [-> | ->].
  - apply lseq; [now apply lplus|]. apply lseq_nil; [apply lopt_none|]. apply lseq_nil; [now apply lstar|]. exact X.
  - rewrite <- !app_assoc. apply lseq; [now apply lplus|]. apply lseq; [now apply lopt_some|]. apply lseq; [now apply lstar|]. exact X.
Qed.
(** * Tokens *)
Definition numeric (a : ascii) : bool := (digit a || existsb (is a) (lit "-.eE+"))%bool.
Lemma digits_numeric t : digits t -> forallb numeric t = true.
Proof. unfold digits. rewrite !forallb_forall. intros H a I. unfold numeric. now rewrite (H a I). Qed.
Lemma unsigned_numeric t : unsigned t -> forallb numeric t = true.
Proof.
  intros (a & b & _ & Da & Db & [-> | ->]); [now apply digits_numeric|].
  rewrite !forallb_app. cbn. now rewrite !digits_numeric.
Qed.
Lemma number_numeric t : number t -> forallb numeric t = true.
Proof.
  intros (s & m & x & Hs & Hm & Hx & ->). rewrite !forallb_app, (unsigned_numeric m Hm).
  replace (forallb numeric s) with true by (destruct Hs as [-> | ->]; reflexivity).
  destruct Hx as [-> |(e & g & d & He & Hg & Hd & ->)]; auto. cbn. rewrite forallb_app, (digits_numeric d Hd).
  destruct He as [-> | ->], Hg as [-> |[-> | ->]]; reflexivity.
Qed.
Lemma numeric_word t : forallb numeric t = true -> word t.
Proof. intros H. rewrite forallb_forall in H. split; intros I; apply H in I; discriminate. Qed.
Lemma unsigned_plain t : unsigned t -> plain t.
Proof.
  intros (a & b & _ & Da & Db & [-> | ->]) x I; unfold digits in *; rewrite forallb_forall in *.
  - left; auto.
  - rewrite !in_app_iff in I. destruct I as [I|[[<-|[]]|I]]; auto.
Qed.
Lemma unsigned_number t : unsigned t -> number t.
Proof. intros H. exists [], t, []. rewrite app_nil_r. auto. Qed.
Lemma number_nonempty t : number t -> t <> [].
Proof.
  intros (s & m & x & _ & (a & b & Na & _ & _ & Hm) & _ & ->). destruct a as [|y a]; [congruence|].
  destruct Hm as [-> | ->], s; discriminate.
Qed.
Definition entry_words (e : entry) : list text :=
  [e_time e; e_frq e; e_wave e; e_slo e; e_azi e; e_ell e; e_noi e; e_pwr e; ["1"]].
Lemma noise_word t : number t \/ t = lit "inf" \/ t = lit "-inf" \/ t = lit "nan" -> word t.
Proof.
  intros [H|[->|[->| ->]]]; [now apply numeric_word, number_numeric| | |];
    split; intros I; cbn in I; intuition discriminate.
Qed.
Lemma entry_word e : entry_ok e -> forall t, In t (entry_words e) -> word t.
Proof.
  intros (T & F & W & S & A & L & N & P) t I. cbn in I.
  repeat (destruct I as [<-|I]; [first [exact W | now apply noise_word | now apply numeric_word, number_numeric
    | now apply numeric_word, unsigned_numeric | split; cbn; intuition discriminate]|]). destruct I.
Qed.
Lemma words_line e : entry_ok e -> words (line e) = entry_words e.
Proof.
  intros H. pose proof (entry_word e H) as W. unfold line. rewrite !words_split.
  rewrite !words_one by (apply W; cbn; tauto). reflexivity.
Qed.
Lemma words_len1 x : List.length (words x) = 1 -> words x = [x].
Proof. destruct (words x) as [|w [|]] eqn:E; cbn; try lia. intros _. now rewrite (words_single x w E). Qed.
Lemma words_len x : 1 <= List.length (words x).
Proof. pose proof (words_nonempty x). destruct (words x); cbn; [congruence|lia]. Qed.

(** * The pattern for peaks *)
Definition caps_of (g1 g2 g3 g4 g5 g6 g7 : text) : caps := [(7, g7); (6, g6); (5, g5); (4, g4); (3, g3); (2, g2); (1, g1)].
Definition joined (g1 g2 w g3 g4 g5 g6 g7 : text) : text :=
  g1 ++ space :: g2 ++ space :: w ++ space :: g3 ++ space :: g4 ++ space :: g5 ++ space :: g6 ++ space :: g7 ++ space :: ["1"].
Ltac inv H := inversion H; subst; clear H.
Lemma lang_seq r s u c c' : lang (Seq r s) u c c' -> exists a b c1, u = a ++ b /\ lang r a c c1 /\ lang s b c1 c'.
Proof. intros H. inv H. eauto 8. Qed.
Lemma lang_grp n r u c c' : lang (Grp n r) u c c' -> no_groups r = true -> c' = (n, u) :: c /\ lang r u [] [].
Proof. intros H N. inv H. pose proof (lang_no_groups _ _ _ _ H5 N). subst. split; auto. eapply lang_caps; eauto. Qed.
Lemma lang_chr a u c c' : lang (Chr (is a)) u c c' -> u = [a] /\ c' = c.
Proof. intros H. inv H. unfold is in H1. apply Ascii.eqb_eq in H1. subst. auto. Qed.
Lemma lang_eps u c c' : lang Eps u c c' -> u = [] /\ c' = c.
Proof. intros H. inv H. auto. Qed.
Definition NOISE : re := Alt NUMBER (Alt INF (Lit (lit "nan"))).
Ltac seq_inv H := apply lang_seq in H; let a := fresh "u" in let b := fresh "u" in let c := fresh "c" in
  let H1 := fresh "H" in destruct H as (a & b & c & -> & H1 & H).
Lemma peak_lang T F w u c : no_groups T = true -> no_groups F = true -> lang (peak_re T F w) u [] c ->
  exists g1 g2 g3 g4 g5 g6 g7, u = joined g1 g2 (lit w) g3 g4 g5 g6 g7 /\ c = caps_of g1 g2 g3 g4 g5 g6 g7 /\
    lang T g1 [] [] /\ lang F g2 [] [].
Proof.
  intros NT NF H. unfold peak_re, seqs in H. cbn [fold_right] in H.
  repeat seq_inv H.
  repeat match goal with
  | H : lang (Grp 1 _) _ _ _ |- _ => apply lang_grp in H; [destruct H as [-> H]|exact NT]
  | H : lang (Grp 2 _) _ _ _ |- _ => apply lang_grp in H; [destruct H as [-> H]|exact NF]
  | H : lang (Grp _ _) _ _ _ |- _ => apply lang_grp in H; [destruct H as [-> H]|reflexivity]
  | H : lang SP _ _ _ |- _ => apply lang_chr in H; destruct H as [-> ->]
  | H : lang (Chr (is _)) _ _ _ |- _ => apply lang_chr in H; destruct H as [-> ->]
  | H : lang (Lit _) _ _ _ |- _ => apply lang_lit in H; destruct H as [-> ->]
  | H : lang Eps _ _ _ |- _ => apply lang_eps in H; destruct H as [-> ->]
  end.
  do 7 eexists. split; [|split; [reflexivity|split; eassumption]]. reflexivity.
Qed.
Lemma lgrp n r u c : lang r u c c -> lang (Grp n r) u c ((n, u) :: c). Proof. now constructor. Qed.
Lemma lsp c : lang SP [space] c c. Proof. now constructor. Qed.
Lemma lang_noise t c : number t \/ t = lit "inf" \/ t = lit "-inf" \/ t = lit "nan" -> lang NOISE t c c.
Proof.
  intros [H|[->|[->| ->]]].
  - apply LAltL. now apply lang_number.
  - apply LAltR, LAltL. apply lseq_nil; [apply lopt_none|]. now apply lang_lit.
  - apply LAltR, LAltL. apply (lseq _ _ ["-"] (lit "inf")); [now apply lopt_some|]. now apply lang_lit.
  - apply LAltR, LAltR. now apply lang_lit.
Qed.
Lemma peak_lang_intro T F w e : no_groups T = true -> no_groups F = true -> entry_ok e ->
  lang T (e_time e) [] [] -> lang F (e_frq e) [] [] -> e_wave e = lit w ->
  lang (peak_re T F w) (line e) []
    (caps_of (e_time e) (e_frq e) (e_slo e) (e_azi e) (e_ell e) (e_noi e) (e_pwr e)).
Proof.
  intros NT NF (_ & _ & _ & S & A & L & N & P) HT HF HW.
  unfold line, peak_re, seqs. rewrite HW. cbn [fold_right].
  change (?a ++ space :: ?b) with (a ++ [space] ++ b).
  repeat match goal with |- context [?a ++ space :: ?b] => change (a ++ space :: b) with (a ++ [space] ++ b) end.
  eapply LSeq; [apply lgrp; exact HT|]. eapply LSeq; [apply lsp|].
  eapply LSeq; [apply lgrp; eapply lang_caps; eauto|]. eapply LSeq; [apply lsp|].
  eapply LSeq; [now apply lang_lit|]. eapply LSeq; [apply lsp|].
  eapply LSeq; [apply lgrp; now apply lang_number|]. eapply LSeq; [apply lsp|].
  eapply LSeq; [apply lgrp; now apply lang_number|]. eapply LSeq; [apply lsp|].
  eapply LSeq; [apply lgrp; now apply lang_number|]. eapply LSeq; [apply lsp|].
  eapply LSeq; [apply lgrp; now apply lang_noise|]. eapply LSeq; [apply lsp|].
  eapply LSeq; [apply lgrp; now apply lang_number|].
  change (space :: ["1"]) with ([space] ++ ["1"] ++ []). eapply LSeq; [apply lsp|].
  change ["1"] with (["1"] ++ []). eapply LSeq; [now constructor|constructor].
Qed.
(** a match inside a line *)
Lemma peak_in_line T F w e pre u v c : no_groups T = true -> no_groups F = true -> entry_ok e ->
  line e = pre ++ u ++ v -> lang (peak_re T F w) u [] c ->
  exists g, e_time e = pre ++ g /\ lang T g [] [] /\ lang F (e_frq e) [] [] /\ e_wave e = lit w /\ v = [] /\
    c = caps_of g (e_frq e) (e_slo e) (e_azi e) (e_ell e) (e_noi e) (e_pwr e).
Proof.
  intros NT NF Ok E L. destruct (peak_lang T F w u c NT NF L) as (g1 & g2 & g3 & g4 & g5 & g6 & g7 & -> & -> & LT & LF).
  pose proof (words_line e Ok) as W. rewrite E in W. unfold joined in W.
  rewrite <- !app_assoc in W. cbn [app] in W. repeat (rewrite <- app_assoc in W; cbn [app] in W).
  rewrite (app_assoc pre g1) in W. rewrite !words_split in W.
  pose proof (f_equal (@List.length text) W) as Len. unfold entry_words in Len. rewrite !app_length in Len. cbn [List.length] in Len.
  pose proof (words_len (pre ++ g1)). pose proof (words_len g2). pose proof (words_len (lit w)). pose proof (words_len g3).
  pose proof (words_len g4). pose proof (words_len g5). pose proof (words_len g6). pose proof (words_len g7). pose proof (words_len ("1" :: v)).
  rewrite (words_len1 (pre ++ g1)), (words_len1 g2), (words_len1 (lit w)), (words_len1 g3), (words_len1 g4), (words_len1 g5),
    (words_len1 g6), (words_len1 g7), (words_len1 ("1" :: v)) in W by lia.
  cbn [app] in W. unfold entry_words in W. injection W as W1 W2 W3 W4 W5 W6 W7 W8 W9.
  exists g1. rewrite <- W1, <- W2, <- W3, <- W4, <- W5, <- W6, <- W7, <- W8. auto 8.
Qed.

(** * The pattern that counts *)
Lemma all_lang T w u c : no_groups T = true -> lang (all_re T w) u [] c ->
  exists g x y, u = g ++ space :: x ++ space :: lit w ++ space :: y ++ space :: ["1"] /\ lang T g [] [].
Proof.
  intros NT H. unfold all_re, seqs in H. cbn [fold_right] in H.
  repeat seq_inv H.
  pose proof (lang_no_groups _ _ _ _ H0 NT) as ->.
  repeat match goal with
  | H : lang SP _ _ _ |- _ => apply lang_chr in H; destruct H as [-> ->]
  | H : lang (Chr (is _)) _ _ _ |- _ => apply lang_chr in H; destruct H as [-> ->]
  | H : lang (Lit _) _ _ _ |- _ => apply lang_lit in H; destruct H as [-> ->]
  | H : lang Eps _ _ _ |- _ => apply lang_eps in H; destruct H as [-> ->]
  end.
  do 3 eexists. split; [|eassumption]. reflexivity.
Qed.
Definition wave_name (w : string) : Prop := In w ["Rayleigh"; "Love"; "Vertical"; "Radial"; "Transverse"]%string.
Lemma wave_not_numeric w t : wave_name w -> forallb numeric t = true -> t <> lit w.
Proof. intros H F ->. cbn in H. repeat (destruct H as [<-|H]; [discriminate F|]). destruct H. Qed.
Lemma wave_not_noise w t : wave_name w -> number t \/ t = lit "inf" \/ t = lit "-inf" \/ t = lit "nan" -> t <> lit w.
Proof.
  intros H [N|N]; [now apply wave_not_numeric; auto; apply number_numeric|].
  intros ->. cbn in H. repeat (destruct H as [<-|H]; [intuition discriminate|]). destruct H.
Qed.
Lemma wave_word w : wave_name w -> word (lit w).
Proof. intros H. cbn in H. repeat (destruct H as [<-|H]; [split; cbn; intuition discriminate|]). destruct H. Qed.
Lemma all_in_line T w e pre u v c : no_groups T = true -> entry_ok e -> wave_name w ->
  line e = pre ++ u ++ v -> lang (all_re T w) u [] c ->
  exists g, e_time e = pre ++ g /\ lang T g [] [] /\ e_wave e = lit w /\ In space u.
Proof.
  intros NT Ok Wn E L. destruct (all_lang T w u c NT L) as (g & x & y & -> & LT).
  pose proof (words_line e Ok) as W. rewrite E in W.
  repeat (rewrite <- app_assoc in W; cbn [app] in W).
  rewrite (app_assoc pre g) in W. rewrite !words_split in W.
  rewrite (words_one (lit w)) in W by apply (wave_word w Wn). cbn [app] in W.
  pose proof (words_len (pre ++ g)) as La. pose proof (words_len x) as Lb.
  assert (K : nth_error (entry_words e) (List.length (words (pre ++ g)) + List.length (words x)) = Some (lit w)).
  { rewrite <- W, app_assoc. rewrite nth_error_app2 by (rewrite app_length; lia). rewrite app_length, Nat.sub_diag. reflexivity. }
  assert (N : List.length (words (pre ++ g)) + List.length (words x) = 2).
  { destruct Ok as (_ & _ & _ & S & A & F & N & P). unfold entry_words in K.
    assert (G2 : 2 <= List.length (words (pre ++ g)) + List.length (words x)) by lia.
    revert K G2. generalize (List.length (words (pre ++ g)) + List.length (words x)) as n. intros n K G2.
    destruct n as [|[|[|n]]]; try lia. exfalso. cbn [nth_error] in K.
    destruct n as [|[|[|[|[|[|n]]]]]]; cbn [nth_error] in K.
    - injection K as K. now apply (wave_not_numeric w (e_slo e) Wn (number_numeric _ S)).
    - injection K as K. now apply (wave_not_numeric w (e_azi e) Wn (number_numeric _ A)).
    - injection K as K. now apply (wave_not_numeric w (e_ell e) Wn (number_numeric _ F)).
    - injection K as K. now apply (wave_not_noise w (e_noi e) Wn N).
    - injection K as K. now apply (wave_not_numeric w (e_pwr e) Wn (number_numeric _ P)).
    - injection K as K. exact (wave_not_numeric w ["1"] Wn eq_refl K).
    - destruct n; discriminate. }
  rewrite (words_len1 (pre ++ g)), (words_len1 x) in W by lia. cbn [app] in W. unfold entry_words in W.
  injection W as W1 W2 W3 _. exists g. rewrite <- W1, <- W3. split; auto. split; auto. split; auto.
  rewrite in_app_iff. right. now left.
Qed.
Lemma any_word t : ~ In newline t -> forallb any t = true.
Proof.
  intros N. apply forallb_forall. intros a I. unfold any, is. destruct (Ascii.eqb_spec a newline) as [->|]; auto.
Qed.
Lemma all_lang_intro T w e : no_groups T = true -> entry_ok e -> lang T (e_time e) [] [] -> e_wave e = lit w ->
  lang (all_re T w) (line e) [] [].
Proof.
  intros NT Ok LT HW. pose proof (entry_word e Ok) as Wd.
  assert (Wi : forall t, In t (entry_words e) -> forallb any t = true) by (intros t I; apply any_word, (Wd t I)).
  unfold line, all_re, seqs. rewrite HW. cbn [fold_right].
  apply lseq; [exact LT|]. apply (lseq SP _ [space]); [apply lsp|]. apply lseq; [apply lstar, Wi; cbn; tauto|].
  apply (lseq SP _ [space]); [apply lsp|]. apply lseq; [now apply lang_lit|].
  apply (lseq SP _ [space]); [apply lsp|].
  set (y := e_slo e ++ space :: e_azi e ++ space :: e_ell e ++ space :: e_noi e ++ space :: e_pwr e).
  replace (e_slo e ++ _) with (y ++ [space] ++ ["1"] ++ []) by (unfold y; repeat (rewrite <- app_assoc; cbn [app]); reflexivity).
  apply lseq.
  - apply lstar. unfold y. repeat (rewrite forallb_app; cbn [forallb]).
    rewrite !Wi by (cbn; tauto). reflexivity.
  - apply lseq; [apply lsp|]. apply lseq; [now constructor|constructor].
Qed.

(** * Scanning a file *)
Lemma finditer_contents r header es (sel : entry -> bool) (P : caps -> entry -> Prop) :
  within_line r = true -> proper r ->
  (forall pre u v c, header = pre ++ u ++ v -> ~ lang r u [] c) ->
  (forall e, In e es -> sel e = false -> forall pre u v c, line e = pre ++ u ++ v -> ~ lang r u [] c) ->
  (forall e, In e es -> sel e = true ->
     (exists u v c, line e = u ++ v /\ lang r u [] c) /\
     forall u v c, line e = u ++ v -> lang r u [] c -> P c e /\
       forall pre u2 v2 c2, v = pre ++ u2 ++ v2 -> ~ lang r u2 [] c2) ->
  Forall2 P (finditer r (contents header es)) (filter sel es).
Proof.
  intros W Pr Hh Hn Hy. unfold contents. rewrite (finditer_skip_line r header) by auto. clear Hh.
  induction es as [|e es IH]; [constructor|].
  cbn [map List.concat filter]. rewrite <- app_assoc. cbn [app].
  assert (IH' : Forall2 P (finditer r (List.concat (map (fun e => line e ++ [newline]) es))) (filter sel es)).
  { apply IH; [intros e0 I0; apply (Hn e0)|intros e0 I0; apply (Hy e0)]; now right. }
  destruct (sel e) eqn:S.
  - destruct (Hy e (or_introl eq_refl) S) as [X Y].
    destruct (finditer_match_line r (line e) (List.concat (map (fun e => line e ++ [newline]) es)) W Pr X) as (u & v & c & E & L & F).
    destruct (Y u v c E L) as [Pc Nv]. rewrite F. constructor; auto. rewrite (finditer_skip_line r v); auto.
  - rewrite (finditer_skip_line r (line e)); auto. exact (Hn e (or_introl eq_refl) S).
Qed.
Lemma proper_peak T F w : no_groups T = true -> no_groups F = true -> proper (peak_re T F w).
Proof.
  intros NT NF c L. destruct (peak_lang T F w [] c NT NF L) as (g1 & g2 & g3 & g4 & g5 & g6 & g7 & E & _).
  unfold joined in E. destruct g1; discriminate.
Qed.
Lemma proper_all T w : no_groups T = true -> proper (all_re T w).
Proof. intros NT c L. destruct (all_lang T w [] c NT L) as (g & x & y & E & _). destruct g; discriminate. Qed.
Lemma within_number : within_line NUMBER = true. Proof. reflexivity. Qed.
Lemma within_lit t : ~ In newline t -> within_line (Lit t) = true.
Proof.
  induction t as [|a t IH]; intros N; auto. cbn. rewrite IH by (intros I; apply N; now right). rewrite andb_true_r.
  unfold is. destruct (Ascii.eqb_spec a newline) as [->|]; auto. exfalso. apply N. now left.
Qed.
Lemma within_peak T F w : wave_name w -> within_line T = true -> within_line F = true -> within_line (peak_re T F w) = true.
Proof.
  intros Wn WT WF. unfold peak_re, seqs. cbn [fold_right within_line]. rewrite WT, WF, (within_lit (lit w)) by apply (wave_word w Wn).
  reflexivity.
Qed.
Lemma within_all T w : wave_name w -> within_line T = true -> within_line (all_re T w) = true.
Proof.
  intros Wn WT. unfold all_re, seqs. cbn [fold_right within_line]. rewrite WT, (within_lit (lit w)) by apply (wave_word w Wn).
  reflexivity.
Qed.
(** every match of [T] contains a figure *)
Definition figured (T : re) : Prop := forall u c c', lang T u c c' -> exists a, In a u /\ digit a = true.
Lemma figured_time : figured TIME.
Proof.
  intros u c c' L. unfold TIME, seqs in L. cbn [fold_right] in L. apply lang_seq in L. destruct L as (x & y & c1 & -> & L & _).
  unfold Plus in L. apply lang_seq in L. destruct L as (x1 & x2 & c2 & -> & L & _). inversion L as [| ? a ? D | | | | |]; subst.
  exists a. split; [now left|exact D].
Qed.
Lemma figured_chars t : unsigned t -> figured (chars t).
Proof.
  intros (a & b & N & Da & _ & E) u c c' L. apply lang_chars in L. destruct L as [_ L].
  destruct a as [|x a]; [congruence|]. unfold digits in Da. cbn in Da. apply andb_prop in Da. destruct Da as [Dx _].
  assert (Q : exists t', t = x :: t') by (destruct E as [-> | ->]; eexists; reflexivity). destruct Q as [t' ->].
  inversion L as [|? y ? ? A _]; subst. exists y. split; [now left|]. unfold atom in A.
  destruct (is x "."%char) eqn:X; [apply Ascii.eqb_eq in X; subst x; discriminate|]. apply Ascii.eqb_eq in A. now subst y.
Qed.
Lemma header_no_peak T F w header pre u v c : no_groups T = true -> no_groups F = true -> figured T ->
  within_line (peak_re T F w) = true -> header_ok (lit w) header ->
  header = pre ++ u ++ v -> ~ lang (peak_re T F w) u [] c.
Proof.
  intros NT NF FT WL H E L. pose proof (lang_within_line _ _ _ _ L WL) as NL.
  destruct (peak_lang T F w u c NT NF L) as (g1 & g2 & g3 & g4 & g5 & g6 & g7 & -> & _ & LT & _).
  destruct (FT g1 _ _ LT) as (a & Ia & Da). unfold joined in E, NL.
  rewrite (H pre (g1 ++ space :: g2)
    (g3 ++ space :: g4 ++ space :: g5 ++ space :: g6 ++ space :: g7 ++ space :: "1" :: v) a) in Da; [discriminate| | |].
  - rewrite E. repeat (rewrite <- app_assoc; cbn [app]). reflexivity.
  - intros I. apply NL. rewrite !in_app_iff in *. cbn [In] in *. rewrite !in_app_iff. tauto.
  - apply in_app_iff. now left.
Qed.
Lemma header_no_all T w header pre u v c : no_groups T = true -> figured T -> within_line (all_re T w) = true ->
  header_ok (lit w) header -> header = pre ++ u ++ v -> ~ lang (all_re T w) u [] c.
Proof.
  intros NT FT WL H E L. pose proof (lang_within_line _ _ _ _ L WL) as NL.
  destruct (all_lang T w u c NT L) as (g & x & y & -> & LT).
  destruct (FT g _ _ LT) as (a & Ia & Da).
  rewrite (H pre (g ++ space :: x) (y ++ space :: "1" :: v) a) in Da; [discriminate| | |].
  - rewrite E. repeat (rewrite <- app_assoc; cbn [app]). reflexivity.
  - intros I. apply NL. rewrite !in_app_iff in *. cbn [In] in *. rewrite !in_app_iff. tauto.
  - apply in_app_iff. now left.
Qed.
(** the peaks found *)
Definition caps_line (e : entry) : caps :=
  caps_of (e_time e) (e_frq e) (e_slo e) (e_azi e) (e_ell e) (e_noi e) (e_pwr e).
Lemma Forall2_eq_map {A B} (f : B -> A) l l' : Forall2 (fun a b => a = f b) l l' -> l = map f l'.
Proof. induction 1; cbn; congruence. Qed.
Lemma peaks_found T F w header es (sel : entry -> bool) : figured T ->
  no_groups T = true -> no_groups F = true -> within_line T = true -> within_line F = true ->
  wave_name w -> header_ok (lit w) header -> (forall e, In e es -> entry_ok e) ->
  (forall e, In e es -> sel e = true -> lang T (e_time e) [] [] /\ lang F (e_frq e) [] [] /\ e_wave e = lit w) ->
  (forall e pre g, In e es -> e_time e = pre ++ g -> lang T g [] [] -> lang F (e_frq e) [] [] -> e_wave e = lit w -> sel e = true) ->
  finditer (peak_re T F w) (contents header es) = map caps_line (filter sel es).
Proof.
  intros FT NT NF WT WF Wn H Ok Y N. apply Forall2_eq_map. apply finditer_contents.
  - now apply within_peak.
  - now apply proper_peak.
  - intros. eapply header_no_peak; eauto using within_peak.
  - intros e I S pre u v c E L. destruct (peak_in_line T F w e pre u v c NT NF (Ok e I) E L) as (g & A & B & C & D & _).
    rewrite (N e pre g I A B C D) in S. discriminate.
  - intros e I S. destruct (Y e I S) as (A & B & C). split.
    + exists (line e), [], (caps_line e). split; [now rewrite app_nil_r|]. now apply peak_lang_intro; auto.
    + intros u v c E L. destruct (peak_in_line T F w e [] u v c NT NF (Ok e I) E L) as (g & A' & _ & _ & _ & -> & ->).
      cbn [app] in A'. subst g. split; [reflexivity|]. intros pre u2 v2 c2 E2 L2. symmetry in E2.
      apply app_eq_nil in E2. destruct E2 as [_ E2]. apply app_eq_nil in E2. destruct E2 as [-> _].
      exact (proper_peak T F w NT NF c2 L2).
Qed.
Lemma all_found T w header es (sel : entry -> bool) : figured T ->
  no_groups T = true -> within_line T = true ->
  wave_name w -> header_ok (lit w) header -> (forall e, In e es -> entry_ok e) ->
  (forall e, In e es -> sel e = true -> lang T (e_time e) [] [] /\ e_wave e = lit w) ->
  (forall e pre g, In e es -> e_time e = pre ++ g -> lang T g [] [] -> e_wave e = lit w -> sel e = true) ->
  List.length (finditer (all_re T w) (contents header es)) = List.length (filter sel es).
Proof.
  intros FT NT WT Wn H Ok Y N. eapply Forall2_length. apply (finditer_contents _ _ _ sel (fun _ _ => True)).
  - now apply within_all.
  - now apply proper_all.
  - intros. eapply header_no_all; eauto using within_all.
  - intros e I S pre u v c E L. destruct (all_in_line T w e pre u v c NT (Ok e I) Wn E L) as (g & A & B & C & _).
    rewrite (N e pre g I A B C) in S. discriminate.
  - intros e I S. destruct (Y e I S) as (A & B). split.
    + exists (line e), [], []. split; [now rewrite app_nil_r|]. now apply all_lang_intro; auto.
    + intros u v c E L. split; auto. intros pre u2 v2 c2 E2 L2.
      destruct (all_in_line T w e [] u v c NT (Ok e I) Wn E L) as (_ & _ & _ & _ & Su).
      rewrite E2, app_assoc in E. destruct (all_in_line T w e (u ++ pre) u2 v2 c2 NT (Ok e I) Wn E L2) as (g & A2 & _).
      assert (Wt : word (e_time e)) by (apply (entry_word e (Ok e I)); now left).
      apply (proj1 Wt). rewrite A2, !in_app_iff. auto.
Qed.

(** * Texts as patterns *)
Lemma chars_looks_like t u : Forall2 (fun a x => atom a x = true) t u <-> looks_like t u.
Proof.
  assert (K : forall a x, atom a x = true <-> (a = x \/ (a = "." /\ x <> newline))).
  { intros a x. unfold atom, is. destruct (Ascii.eqb_spec a ".") as [->|Na].
    - unfold any, is. destruct (Ascii.eqb_spec x newline) as [->|]; cbn; split; intros H; auto; try discriminate.
      destruct H as [H|[_ H]]; [discriminate|congruence].
    - destruct (Ascii.eqb_spec a x); split; intros H; auto; try discriminate. destruct H as [H|[H _]]; congruence. }
  unfold looks_like. split; intros H; (eapply Forall2_impl; [|exact H]); intros a x; apply K.
Qed.
Lemma looks_like_refl t : ~ In newline t -> looks_like t t.
Proof. induction t as [|a t IH]; intros N; constructor; auto. apply IH. intros I; apply N; now right. Qed.
Lemma lang_looks_like t u : lang (chars t) u [] [] <-> looks_like t u.
Proof. rewrite lang_chars, chars_looks_like. tauto. Qed.
Lemma number_pattern w t f W : validate_wavetypes w = Ok W -> unsigned t -> unsigned f ->
  get_peak_from_max (Some t) (Some f) w = Ok (peak_re (chars t) (chars f) W).
Proof.
  intros V Ut Uf. unfold get_peak_from_max, as_pattern. rewrite V. cbn [bind].
  now rewrite !pattern_plain by now apply unsigned_plain.
Qed.
Lemma validate_name w W : validate_wavetypes w = Ok W -> wave_name W.
Proof.
  unfold validate_wavetypes, wave_name. intros H.
  repeat match type of H with (if ?b then _ else _) = _ => destruct b; [injection H as <-; cbn; tauto|] end. discriminate.
Qed.
Definition sel_tf (t f W : text) (e : entry) : bool :=
  (text_eqb (e_time e) t && text_eqb (e_wave e) W && text_eqb (e_frq e) f)%bool.
Definition sel_t (t W : text) (e : entry) : bool := (text_eqb (e_time e) t && text_eqb (e_wave e) W)%bool.
Lemma sel_tf_true t f W e : sel_tf t f W e = true <-> e_time e = t /\ e_wave e = W /\ e_frq e = f.
Proof.
  unfold sel_tf. destruct (text_eqb_spec (e_time e) t), (text_eqb_spec (e_wave e) W), (text_eqb_spec (e_frq e) f);
    cbn; split; intros H; try discriminate; tauto.
Qed.
Lemma sel_t_true t W e : sel_t t W e = true <-> e_time e = t /\ e_wave e = W.
Proof.
  unfold sel_t. destruct (text_eqb_spec (e_time e) t), (text_eqb_spec (e_wave e) W);
    cbn; split; intros H; try discriminate; tauto.
Qed.
Lemma unsigned_no_newline t : unsigned t -> ~ In newline t.
Proof. intros U. apply (numeric_word t (unsigned_numeric t U)). Qed.
Lemma column_found t f W header es : wave_name W -> header_ok (lit W) header -> (forall e, In e es -> entry_ok e) ->
  unsigned t -> unsigned f -> time_stands_out t es -> frequency_stands_out f es ->
  finditer (peak_re (chars t) (chars f) W) (contents header es) = map caps_line (filter (sel_tf t f (lit W)) es).
Proof.
  intros Wn H Ok Ut Uf St Sf. apply peaks_found; auto using chars_no_groups, figured_chars; try (apply chars_within, unsigned_plain; auto).
  - intros e I S. apply sel_tf_true in S. destruct S as (-> & E & ->). rewrite !lang_looks_like.
    auto using looks_like_refl, unsigned_no_newline.
  - intros e pre g I E LT LF EW. apply lang_looks_like in LT, LF. apply sel_tf_true.
    split; [exact (St e pre g I E LT)|]. split; [exact EW|exact (Sf e I LF)].
Qed.
Lemma count_found t W header es : wave_name W -> header_ok (lit W) header -> (forall e, In e es -> entry_ok e) ->
  unsigned t -> time_stands_out t es ->
  List.length (finditer (all_re (chars t) W) (contents header es)) = List.length (filter (sel_t t (lit W)) es).
Proof.
  intros Wn H Ok Ut St. apply all_found; auto using chars_no_groups, figured_chars; try (apply chars_within, unsigned_plain; auto).
  - intros e I S. apply sel_t_true in S. destruct S as (-> & E). rewrite lang_looks_like.
    auto using looks_like_refl, unsigned_no_newline.
  - intros e pre g I E LT EW. apply lang_looks_like in LT. apply sel_t_true. split; [exact (St e pre g I E LT)|exact EW].
Qed.
Lemma window_found W header es : wave_name W -> header_ok (lit W) header -> (forall e, In e es -> entry_ok e) ->
  finditer (peak_re TIME NUMBER W) (contents header es) = map caps_line (filter (fun e => text_eqb (e_wave e) (lit W)) es).
Proof.
  intros Wn H Ok. apply peaks_found; auto using figured_time.
  - intros e I S. destruct (text_eqb_spec (e_wave e) (lit W)) as [E|]; [|discriminate]. destruct (Ok e I) as (T & F & _).
    auto using lang_time, lang_number, unsigned_number.
  - intros e pre g I E LT LF EW. rewrite EW. apply text_eqb_refl.
Qed.

(** * Reading the numbers *)
Lemma mapM_ok {A B} (f : A -> result B) (g : A -> B) l : (forall a, In a l -> f a = Ok (g a)) -> mapM f l = Ok (map g l).
Proof.
  induction l as [|a l IH]; intros H; cbn; auto. rewrite (H a (or_introl eq_refl)). cbn [bind].
  rewrite IH by (intros; apply H; now right). reflexivity.
Qed.
Lemma read_line n i e r : reads e r -> i < n -> read_match n i (caps_line e) = Ok r.
Proof.
  intros (F & (s & S & Ns & V) & A & L & N & P) Hi. unfold read_match.
  change (cap 2 (caps_line e)) with (e_frq e). change (cap 3 (caps_line e)) with (e_slo e).
  change (cap 4 (caps_line e)) with (e_azi e). change (cap 5 (caps_line e)) with (e_ell e).
  change (cap 6 (caps_line e)) with (e_noi e). change (cap 7 (caps_line e)) with (e_pwr e).
  rewrite F. cbn [bind]. destruct (Nat.leb_spec n i); [lia|]. rewrite S. cbn [bind]. unfold inverse.
  destruct (Qceqb_spec s 0%Qc); [contradiction|]. cbn [bind]. rewrite A, L, N, P. cbn [bind]. rewrite <- V. now destruct r.
Qed.
Lemma column_read t f w W header es nmax values : validate_wavetypes w = Ok W -> header_ok (lit W) header ->
  (forall e, In e es -> entry_ok e) -> unsigned t -> unsigned f -> time_stands_out t es -> frequency_stands_out f es ->
  (forall e, In e (filter (sel_tf t f (lit W)) es) -> reads e (values e)) -> List.length (filter (sel_tf t f (lit W)) es) <= nmax ->
  read_column (contents header es) t w nmax f = Py.Ok (map values (filter (sel_tf t f (lit W)) es)).
Proof.
  intros V H Eo Ut Uf St Sf Rd Le. unfold read_column. rewrite (number_pattern w t f W V Ut Uf). cbn [bind].
  rewrite column_found by eauto using validate_name. set (l := filter (sel_tf t f (lit W)) es) in *.
  rename Rd into Il. clearbody l. unfold enumerate, range.
  assert (G : forall k, k + List.length l <= nmax ->
    mapM (fun ic => read_match nmax (fst ic) (snd ic)) (combine (seq k (List.length (map caps_line l))) (map caps_line l)) = Py.Ok (map values l)).
  { clear Le. induction l as [|e l IH]; intros k Hk; auto. cbn in Hk |- *. rewrite (read_line nmax k e (values e)); [|apply Il; now left|lia].
    cbn [bind]. rewrite (IH ltac:(intros; apply Il; now right) (S k)) by lia. reflexivity. }
  apply G. lia.
Qed.

(** * Counting *)
Lemma filter_columns {A} (P : A -> bool) {I} (f : I -> A) (g : I -> list A) l :
  List.length (filter P (List.concat (map (fun i => f i :: g i) l)))
  = List.length (filter P (map f l)) + List.length (filter P (List.concat (map g l))).
Proof.
  induction l as [|i l IH]; auto. cbn [map List.concat]. rewrite !filter_app, !app_length, IH. cbn [filter].
  destruct (P (f i)); cbn [List.length app filter]; rewrite ?filter_app, ?app_length; lia.
Qed.
Lemma concat_nils {A I} (l : list I) : List.concat (map (fun _ => @nil A) l) = [].
Proof. induction l; auto. Qed.
Lemma column_count c n : List.length c <= n -> (forall r, In r c -> is_nan (r_frq r) = false) ->
  List.length (filter (fun x => negb (is_nan x)) (map (fun i => r_frq (nth i c nan_row)) (seq 0 n))) = List.length c.
Proof.
  intros Le F. replace n with (List.length c + (n - List.length c)) by lia. rewrite seq_app, map_app, filter_app, app_length.
  cbn [Nat.add].
  replace (map (fun i => r_frq (nth i c nan_row)) (seq 0 (List.length c))) with (map r_frq c).
  2:{ apply nth_ext with (d := NaN) (d' := NaN); [now rewrite !map_length, seq_length|]. intros i Hi. rewrite map_length in Hi.
      change NaN with (r_frq nan_row). rewrite map_nth.
      rewrite nth_indep with (d' := (fun i => r_frq (nth i c nan_row)) 0) by now rewrite map_length, seq_length.
      rewrite (map_nth (fun i => r_frq (nth i c nan_row))). now rewrite seq_nth by auto. }
  replace (filter (fun x => negb (is_nan x)) (map r_frq c)) with (map r_frq c).
  2:{ clear Le n. induction c as [|r c IH]; auto. cbn. rewrite (F r (or_introl eq_refl)). cbn. f_equal. apply IH. intros; apply F; now right. }
  replace (filter (fun x => negb (is_nan x)) (map (fun i => r_frq (nth i c nan_row)) (seq (List.length c) (n - List.length c)))) with (@nil flt).
  2:{ assert (G : forall m k, List.length c <= k -> filter (fun x => negb (is_nan x)) (map (fun i => r_frq (nth i c nan_row)) (seq k m)) = []).
      { induction m as [|m IH]; intros k Hk; auto. cbn. rewrite nth_overflow by auto. cbn. apply IH. lia. }
      symmetry. now apply G. }
  rewrite map_length. cbn. lia.
Qed.
Lemma matrix_count n cols : (forall c, In c cols -> List.length c <= n) ->
  (forall c r, In c cols -> In r c -> is_nan (r_frq r) = false) ->
  List.length (filter (fun x => negb (is_nan x)) (dat (matrix_of r_frq n cols))) = list_sum (map (@List.length row_data) cols).
Proof.
  intros Le F. cbn [dat matrix_of]. unfold range. induction cols as [|c cols IH].
  - cbn [map]. now rewrite concat_nils.
  - cbn [map]. rewrite filter_columns, IH by (intros; eauto using in_cons).
    rewrite column_count by (eauto using in_eq). reflexivity.
Qed.
Lemma sum_add {A} (f g : A -> nat) l : list_sum (map (fun x => f x + g x) l) = list_sum (map f l) + list_sum (map g l).
Proof. unfold list_sum. induction l as [|a l IH]; cbn; auto. rewrite IH. lia. Qed.
Lemma sum_zero {A} (f : A -> nat) l : (forall x, In x l -> f x = 0) -> list_sum (map f l) = 0.
Proof. unfold list_sum. induction l as [|a l IH]; cbn; intros H; auto. rewrite (H a), IH; auto. Qed.
Lemma sum_ext {A} (f g : A -> nat) l : (forall x, In x l -> f x = g x) -> list_sum (map f l) = list_sum (map g l).
Proof. unfold list_sum. induction l as [|a l IH]; cbn; intros H; auto. Qed.
Lemma sum_cons a l : list_sum (a :: l) = a + list_sum l. Proof. reflexivity. Qed.
Lemma sum_one (f : text) l : NoDup l -> In f l -> list_sum (map (fun x => if text_eqb f x then 1 else 0) l) = 1.
Proof.
  induction l as [|x l IH]; intros N I; [destruct I|]. inversion N; subst.
  cbn [map]. rewrite sum_cons. destruct (text_eqb_spec f x) as [->|Nx].
  - rewrite sum_zero; auto. intros y Iy. destruct (text_eqb_spec x y) as [->|]; auto; contradiction.
  - destruct I as [->|I]; [contradiction|]. now rewrite IH.
Qed.
Lemma window_sum t W es frqs : NoDup frqs -> (forall e, In e es -> sel_t t W e = true -> In (e_frq e) frqs) ->
  list_sum (map (fun f => List.length (filter (sel_tf t f W) es)) frqs) = List.length (filter (sel_t t W) es).
Proof.
  intros N. induction es as [|e es IH]; intros H.
  - now apply sum_zero.
  - cbn [filter]. rewrite (sum_ext _ (fun f => (if sel_tf t f W e then 1 else 0) + List.length (filter (sel_tf t f W) es)))
      by (intros f _; destruct (sel_tf t f W e); reflexivity).
    rewrite sum_add, IH by (intros; apply H; auto; now right). unfold sel_tf at 1, sel_t at 2.
    destruct (text_eqb (e_time e) t && text_eqb (e_wave e) W)%bool eqn:S; cbn [andb].
    + rewrite sum_one; auto. apply H; [now left|exact S].
    + now rewrite sum_zero.
Qed.
Lemma parse_not_nan t x : parse_float t = Ok x -> t <> lit "nan" -> is_nan x = false.
Proof.
  unfold parse_float. destruct (text_eqb_spec t (lit "nan")) as [|_]; [contradiction|]. intros H _.
  destruct (text_eqb t (lit "inf")); [injection H as <-; reflexivity|].
  destruct (text_eqb t (lit "-inf")); [injection H as <-; reflexivity|].
  destruct t as [|a t]; [discriminate|]. destruct (is a "-");
    match type of H with match ?o with _ => _ end = _ => destruct o; [injection H as <-; reflexivity|discriminate] end.
Qed.
Lemma unsigned_not_nan t : unsigned t -> t <> lit "nan".
Proof. intros U ->. apply unsigned_numeric in U. discriminate. Qed.
Lemma matrix_cell get n cols i j c : i < n -> nth_error cols j = Some c ->
  at2 (get nan_row) (List.length cols) (dat (matrix_of get n cols)) i j
  = match nth_error c i with Some r => get r | None => get nan_row end.
Proof.
  intros Hi Hj. unfold at2. cbn [dat matrix_of]. unfold range.
  assert (Lj : j < List.length cols) by (apply nth_error_Some; congruence).
  assert (G : forall m k i, i < m -> nth (i * List.length cols + j)
    (List.concat (map (fun i => map (fun c => get (nth i c nan_row)) cols) (seq k m))) (get nan_row) = get (nth (k + i) c nan_row)).
  { clear i Hi. induction m as [|m IH]; intros k i Hi; [lia|]. cbn [seq map List.concat]. destruct i as [|i].
    - cbn [Nat.mul Nat.add]. rewrite app_nth1 by now rewrite map_length. rewrite Nat.add_0_r.
      rewrite nth_indep with (d' := (fun c => get (nth k c nan_row)) []) by now rewrite map_length.
      rewrite (map_nth (fun c => get (nth k c nan_row))). now rewrite (nth_error_nth cols j [] Hj).
    - rewrite app_nth2 by (rewrite map_length; cbn; lia). rewrite map_length.
      replace (S i * List.length cols + j - List.length cols) with (i * List.length cols + j) by (cbn; lia).
      rewrite IH by lia. do 2 f_equal. lia. }
  rewrite G by auto. cbn [Nat.add]. destruct (nth_error c i) eqn:E; [now rewrite (nth_error_nth _ _ _ E)|].
  rewrite nth_overflow; auto. now apply nth_error_None.
Qed.
Lemma at_frequency_sel f t W es : at_frequency f (of_window t W es) = filter (sel_tf t f W) es.
Proof.
  unfold at_frequency, of_window. induction es as [|e es IH]; auto. cbn [filter]. unfold sel_tf at 1.
  destruct (text_eqb (e_time e) t && text_eqb (e_wave e) W)%bool; cbn [filter andb]; rewrite IH; auto.
Qed.
Lemma holds_matrix p name get nmax frqs W t es values :
  get nan_row = NaN ->
  assoc name (fields p) = Some (matrix_of get nmax (map (fun f => map values (filter (sel_tf t f W) es)) frqs)) ->
  holds p name get nmax frqs (of_window t W es) values.
Proof.
  intros G A. eexists. split; [exact A|]. split; [cbn; now rewrite map_length|].
  intros i j f Hi Hj. pose proof (matrix_cell get nmax (map (fun f => map values (filter (sel_tf t f W) es)) frqs) i j
    (map values (filter (sel_tf t f W) es)) Hi) as M. rewrite map_length in M. rewrite <- G, M by now rewrite nth_error_map, Hj.
  rewrite at_frequency_sel, nth_error_map. now destruct (nth_error (filter (sel_tf t f W) es) i).
Qed.
(** * One window *)
Lemma parse_window header es w W t frqs nmax values wf pt :
  search get_wavetype (contents header es) = Some wf ->
  search get_process_type (contents header es) = Some pt ->
  validate_wavetypes (effective_wavetype w (group 1 wf)) = Ok W ->
  header_ok (lit W) header -> (forall e, In e es -> entry_ok e) -> (forall e, In e (of_window t (lit W) es) -> reads e (values e)) ->
  unsigned t -> time_stands_out t es ->
  NoDup frqs -> (forall f, In f frqs -> unsigned f /\ frequency_stands_out f es) ->
  (forall e, In e (of_window t (lit W) es) -> In (e_frq e) frqs) ->
  (forall f, In f frqs -> List.length (at_frequency f (of_window t (lit W) es)) <= nmax) ->
  exists p, parse_peaks (contents header es) w (Some t) (Some frqs) (Some nmax) = Ok p /\
    holds_window p nmax frqs (of_window t (lit W) es) values /\
    identifier p = string_of_list_ascii (t ++ ["-"] ++ process_name wf pt).
Proof.
  intros Sw Sp V H Eo Rd Ut St Nd Fr Cov Cnt. unfold parse_peaks. rewrite Sw, Sp. cbn [groups bind].
  set (w' := effective_wavetype w (group 1 wf)) in *. fold (process_name wf pt).
  set (cols := map (fun f => map values (filter (sel_tf t f (lit W)) es)) frqs).
  assert (Ec : mapM (read_column (contents header es) t w' nmax) frqs = Ok cols).
  { apply mapM_ok. intros f If. destruct (Fr f If). apply column_read; auto; [|rewrite <- at_frequency_sel; auto].
    intros e Ie. apply Rd. rewrite <- at_frequency_sel in Ie. unfold at_frequency in Ie. apply filter_In in Ie. tauto. }
  rewrite Ec. cbn [bind]. unfold get_all, as_pattern. rewrite V. cbn [bind]. rewrite pattern_plain by now apply unsigned_plain.
  cbn [bind]. rewrite (count_found t W header es); eauto using validate_name.
  rewrite matrix_count.
  - unfold cols. rewrite map_map. rewrite (sum_ext _ (fun f => List.length (filter (sel_tf t f (lit W)) es))) by (intros; now rewrite map_length).
    rewrite window_sum; auto.
    2:{ intros e I S. apply Cov. apply filter_In. auto. }
    rewrite Nat.eqb_refl. cbn [negb]. unfold new_peaks. cbn [existsb fst computed orb].
    eexists. split; [reflexivity|]. split; [|reflexivity].
    unfold holds_window. repeat split; apply holds_matrix; reflexivity.
  - intros c Ic. apply in_map_iff in Ic. destruct Ic as (f & <- & If). rewrite map_length, <- at_frequency_sel. auto.
  - intros c r Ic Ir. apply in_map_iff in Ic. destruct Ic as (f & <- & If). apply in_map_iff in Ir. destruct Ir as (e & <- & Ie).
    rewrite <- at_frequency_sel in Ie. unfold at_frequency in Ie. apply filter_In in Ie. destruct Ie as [Iw _]. destruct (Rd e Iw) as [P _].
    unfold of_window in Iw. apply filter_In in Iw. destruct Iw as [Ie _]. eapply parse_not_nan; [exact P|].
    apply unsigned_not_nan, (Eo e Ie).
Qed.
(** * Lists without repetition *)
Lemma mem_text_spec t l : mem_text t l = true <-> In t l.
Proof.
  unfold mem_text. rewrite existsb_exists. split.
  - intros (x & I & E). destruct (text_eqb_spec t x); [now subst|discriminate].
  - intros I. exists t. split; auto. apply text_eqb_refl.
Qed.
Lemma distinct_in l : forall seen x, In x (distinct seen l) <-> In x seen \/ In x l.
Proof.
  induction l as [|a l IH]; intros seen x; cbn [distinct]; [cbn; tauto|].
  destruct (mem_text a seen) eqn:M; rewrite IH; cbn.
  - apply mem_text_spec in M. intuition (subst; auto).
  - rewrite in_app_iff. cbn. tauto.
Qed.
Lemma distinct_nodup l : forall seen, NoDup seen -> NoDup (distinct seen l).
Proof.
  induction l as [|a l IH]; intros seen N; cbn [distinct]; auto. destruct (mem_text a seen) eqn:M; apply IH; auto.
  apply NoDup_Add with (a := a) (l := seen); [|split; auto].
  - rewrite <- (app_nil_r seen) at 1. apply Add_app.
  - intros I. apply mem_text_spec in I. congruence.
Qed.

Lemma filter_and {A} (f g : A -> bool) l : filter f (filter g l) = filter (fun x => (g x && f x)%bool) l.
Proof. induction l as [|a l IH]; auto. cbn. destruct (g a); cbn; [destruct (f a); rewrite IH|]; auto. Qed.
Lemma distinct_firsts l : forall seen, distinct seen l = seen ++ filter (fun y => negb (mem_text y seen)) (firsts l).
Proof.
  induction l as [|x l IH]; intros seen; cbn [distinct firsts filter]; [now rewrite app_nil_r|].
  destruct (mem_text x seen) eqn:M; cbn [negb].
  - rewrite IH. f_equal. rewrite filter_and. apply filter_ext_in. intros y _.
    destruct (text_eqb_spec x y) as [<-|]; cbn [negb andb]; auto. now rewrite M.
  - rewrite IH, <- app_assoc. f_equal. cbn [app]. f_equal. rewrite filter_and. apply filter_ext_in. intros y _.
    unfold mem_text. rewrite existsb_app. cbn. rewrite orb_false_r, negb_orb, andb_comm. f_equal.
    destruct (text_eqb_spec y x) as [E1|N], (text_eqb_spec x y) as [E2|N']; congruence.
Qed.
Lemma firsts_distinct l : distinct [] l = firsts l.
Proof. rewrite distinct_firsts. cbn. induction (firsts l) as [|a k IH]; cbn; congruence. Qed.
Lemma firsts_in l x : In x (firsts l) <-> In x l.
Proof. rewrite <- firsts_distinct, distinct_in. cbn. tauto. Qed.
Lemma firsts_nodup l : NoDup (firsts l).
Proof. rewrite <- firsts_distinct. apply distinct_nodup. constructor. Qed.

(** * Searching a file *)
Lemma consumed_more s s' q : List.length s' <= List.length s -> consumed (s ++ q) (s' ++ q) = consumed s s'.
Proof.
  intros L. unfold consumed. rewrite !app_length.
  replace (List.length s + List.length q - (List.length s' + List.length q)) with (List.length s - List.length s') by lia.
  rewrite firstn_app. replace (List.length s - List.length s' - List.length s) with 0 by lia. cbn. now rewrite app_nil_r.
Qed.
Lemma star_more {X Y} p (h : X -> Y) q (k : text -> option X) (k' : text -> option Y) : p newline = false ->
  forall s, (forall s', List.length s' <= List.length s -> k' (s' ++ newline :: q) = option_map h (k s')) ->
  star p (s ++ newline :: q) k' = option_map h (star p s k).
Proof.
  intros Pn. induction s as [|a s IH]; intros K.
  - cbn. rewrite Pn. apply (K []). auto.
  - cbn. destruct (p a).
    + rewrite IH by (intros s' L; apply K; cbn; lia). destruct (star p s k); cbn; auto.
      apply (K (a :: s)). auto.
    + apply (K (a :: s)). auto.
Qed.
Lemma run_more {X Y} (h : X -> Y) q r : within_line r = true -> forall s c (k : text -> caps -> option X) (k' : text -> caps -> option Y),
  (forall s' c', List.length s' <= List.length s -> k' (s' ++ newline :: q) c' = option_map h (k s' c')) ->
  run r (s ++ newline :: q) c k' = option_map h (run r s c k).
Proof.
  induction r as [|p|p|a IHa b IHb|a IHa b IHb|n a IHa]; cbn [within_line run]; intros W s c k k' K.
  - now apply K.
  - apply negb_true_iff in W. destruct s as [|x s]; cbn; [now rewrite W|]. destruct (p x); auto. apply K. cbn. lia.
  - apply negb_true_iff in W. apply star_more; auto.
  - apply andb_true_iff in W. destruct W as [Wa Wb]. apply IHa; auto. intros s' c' L. apply IHb; auto.
    intros s'' c'' L'. apply K. lia.
  - apply andb_true_iff in W. destruct W as [Wa Wb]. rewrite (IHa Wa s c k k' K), (IHb Wb s c k k' K).
    destruct (run a s c k); auto.
  - apply IHa; auto. intros s' c' L. rewrite (consumed_more s s' (newline :: q)) by auto. now apply K.
Qed.
Lemma match_more r s q : within_line r = true ->
  match_at r (s ++ newline :: q) = option_map (fun x => (fst x ++ newline :: q, snd x)) (match_at r s).
Proof. intros W. apply run_more; auto. Qed.
Lemma search_more r s q : within_line r = true ->
  search r (s ++ newline :: q) = match search r s with Some c => Some c | None => search r q end.
Proof.
  intros W. induction s as [|a s IH]; cbn [app search].
  - pose proof (match_more r [] q W) as M. cbn [app] in M. rewrite M. destruct (match_at r []) as [[u c]|]; auto.
  - pose proof (match_more r (a :: s) q W) as M. cbn [app] in M. rewrite M. destruct (match_at r (a :: s)) as [[u c]|]; auto.
Qed.
Lemma search_header r header es c : within_line r = true -> search r header = Some c -> search r (contents header es) = Some c.
Proof. intros W E. unfold contents. rewrite search_more, E by auto. reflexivity. Qed.

(** * A file *)
Lemma mapM_forall2 {A B} (f : A -> result B) (P : A -> B -> Prop) l :
  (forall a, In a l -> exists b, f a = Ok b /\ P a b) -> exists bs, mapM f l = Ok bs /\ Forall2 P l bs.
Proof.
  induction l as [|a l IH]; intros H; cbn; [eexists; split; [reflexivity|constructor]|].
  destruct (H a (or_introl eq_refl)) as (b & E & Pb). rewrite E. cbn [bind].
  destruct IH as (bs & E2 & F); [intros; apply H; now right|]. rewrite E2. cbn [bind]. eexists. split; [reflexivity|]. now constructor.
Qed.
Lemma map_cap1 l : map (cap 1) (map caps_line l) = map e_time l. Proof. now rewrite map_map. Qed.
Lemma map_cap2 l : map (cap 2) (map caps_line l) = map e_frq l. Proof. now rewrite map_map. Qed.
Lemma in_of_window t W es e : In e (of_window t W es) <-> In e es /\ e_time e = t /\ e_wave e = W.
Proof. unfold of_window. rewrite filter_In. fold (sel_t t W e). now rewrite sel_t_true. Qed.
Lemma in_of_wave W es e : In e (of_wave W es) <-> In e es /\ e_wave e = W.
Proof. unfold of_wave. rewrite filter_In. destruct (text_eqb_spec (e_wave e) W); split; intros [? H]; split; auto; discriminate. Qed.
Lemma effective_again w o W : validate_wavetypes (effective_wavetype w o) = Ok W ->
  effective_wavetype (effective_wavetype w o) o = effective_wavetype w o.
Proof.
  intros _. unfold effective_wavetype. destruct (String.eqb w "rayleigh") eqn:R; cbn [andb]; [|now rewrite R].
  destruct o as [t|]; [destruct (text_eqb t (lit "Vertical"))|]; cbn; rewrite ?R; reflexivity.
Qed.
Lemma read_file_ok header es w W cn wf pt values :
  check_version header = Ok tt -> search get_nmaxima header = Some cn -> search get_process_type header = Some pt ->
  search get_wavetype (contents header es) = Some wf ->
  validate_wavetypes (effective_wavetype w (group 1 wf)) = Ok W ->
  header_ok (lit W) header -> (forall e, In e es -> entry_ok e) -> (forall e, In e es -> reads e (values e)) ->
  (forall e, In e (of_wave (lit W) es) -> time_stands_out (e_time e) es /\ frequency_stands_out (e_frq e) es) ->
  (forall t f, List.length (at_frequency f (of_window t (lit W) es)) <= clamp_nmaxima (cap 1 cn)) ->
  exists ps, read_file (contents header es) w = (effective_wavetype w (group 1 wf), Ok ps) /\
    Forall2 (fun t p => identifier p = string_of_list_ascii (t ++ ["-"] ++ process_name wf pt) /\
               holds_window p (clamp_nmaxima (cap 1 cn)) (firsts (map e_frq (of_wave (lit W) es))) (of_window t (lit W) es) values)
            (firsts (map e_time (of_wave (lit W) es))) ps.
Proof.
  intros Cv Sn Sp Sw V H Eo Rd St Cnt. unfold read_file.
  assert (Ev : check_version (contents header es) = Ok tt).
  { unfold check_version in *. destruct (search get_geopsy_version header) as [c|] eqn:E; [|discriminate].
    now rewrite (search_header _ _ _ c) by auto. }
  rewrite Ev, Sw, (search_header get_nmaxima header es cn) by auto. cbn [groups bind].
  set (w' := effective_wavetype w (group 1 wf)) in *. unfold get_peak_from_max at 1. rewrite V. cbn [as_pattern bind].
  rewrite (window_found W header es) by eauto using validate_name. fold (of_wave (lit W) es).
  rewrite map_cap1, map_cap2, !firsts_distinct.
  destruct (mapM_forall2 (fun t => parse_peaks (contents header es) w' (Some t) (Some (firsts (map e_frq (of_wave (lit W) es)))) (Some (clamp_nmaxima (cap 1 cn))))
    (fun t p => identifier p = string_of_list_ascii (t ++ ["-"] ++ process_name wf pt) /\
               holds_window p (clamp_nmaxima (cap 1 cn)) (firsts (map e_frq (of_wave (lit W) es))) (of_window t (lit W) es) values)
    (firsts (map e_time (of_wave (lit W) es)))) as (ps & E & F).
  2:{ exists ps. now rewrite E. }
  intros t It. apply firsts_in, in_map_iff in It. destruct It as (e & <- & Ie). destruct (St e Ie) as [T _].
  pose proof (proj1 (in_of_wave _ _ _) Ie) as [Ie' _].
  destruct (parse_window header es w' W (e_time e) (firsts (map e_frq (of_wave (lit W) es))) (clamp_nmaxima (cap 1 cn)) values wf pt)
    as (p & P1 & P2 & P3); auto.
  - now apply search_header.
  - unfold w'. now rewrite (effective_again _ _ W V).
  - intros e2 I2. apply Rd. apply in_of_window in I2. tauto.
  - apply (Eo e Ie').
  - apply firsts_nodup.
  - intros f If. apply firsts_in, in_map_iff in If. destruct If as (e2 & <- & I2). destruct (St e2 I2) as [_ Fs]. split; auto.
    apply in_of_wave in I2. apply (Eo e2), I2.
  - intros e2 I2. apply firsts_in, in_map. apply in_of_window in I2. apply in_of_wave. tauto.
  - eauto.
Qed.
(** Fixed-width decimals stand out. *)
Lemma looks_like_length t u : looks_like t u -> List.length t = List.length u.
Proof. apply Forall2_length. Qed.
Lemma app_same {A} (a c : list A) : forall b d, List.length a = List.length c -> a ++ b = c ++ d -> a = c /\ b = d.
Proof.
  revert c. induction a as [|x a IH]; intros [|y c] b d L E; try discriminate; auto. cbn in *. injection E as -> E.
  destruct (IH c b d ltac:(lia) E) as [-> ->]. auto.
Qed.
Lemma looks_like_digits x u : digits x -> looks_like x u -> u = x.
Proof.
  intros D L. revert D. induction L as [|a c x u Ha L IH]; intros D; auto. unfold digits in D. cbn in D.
  apply andb_true_iff in D. destruct D as [Da D]. rewrite (IH D). destruct Ha as [->|[-> _]]; [auto|discriminate].
Qed.
Lemma fixed_point_looks a b t u : fixed_point a b t -> fixed_point a b u -> looks_like t u -> u = t.
Proof.
  intros (x & y & -> & Lx & Ly & Dx & Dy) (x' & y' & -> & Lx' & Ly' & _ & _) L. unfold looks_like in L.
  apply Forall2_app_inv_l in L. destruct L as (u1 & u2 & L1 & L2 & E).
  pose proof (looks_like_length _ _ L1) as K1. apply (looks_like_digits x u1 Dx) in L1. subst u1.
  destruct (app_same x x' u2 (["."] ++ y') ltac:(lia) (eq_sym E)) as [<- ->].
  cbn [app] in L2. inversion L2 as [|? ? ? ? _ L3]; subst. now rewrite (looks_like_digits y _ Dy L3).
Qed.
(** Times of which none is longer than the others, and frequencies, written with a fixed number of decimals. *)
Lemma fixed_time_stands_out a b t es : fixed_point a b t -> (forall e, In e es -> fixed_point a b (e_time e)) ->
  time_stands_out t es.
Proof.
  intros F A e pre s I E L. pose proof (looks_like_length _ _ L) as K. pose proof (A e I) as Fe.
  assert (Ls : List.length (e_time e) = List.length t).
  { destruct F as (x & y & -> & ? & ? & _), Fe as (x' & y' & -> & ? & ? & _). rewrite !app_length. cbn. lia. }
  assert (pre = []) as ->. { destruct pre; auto. rewrite E, app_length in Ls. cbn in Ls. lia. }
  cbn in E. subst s. eapply fixed_point_looks; eauto.
Qed.
(** exactly one point *)
Lemma pointed_looks x y x' y' : digits x -> digits y -> digits x' -> digits y' ->
  looks_like (x ++ ["."] ++ y) (x' ++ ["."] ++ y') -> x' ++ ["."] ++ y' = x ++ ["."] ++ y.
Proof.
  unfold digits. revert x'. induction x as [|a x IH]; intros x' Dx Dy Dx' Dy' L.
  - destruct x' as [|a' x']; cbn [app] in *.
    + f_equal. inversion L; subst. now apply looks_like_digits.
    + inversion L as [|? ? ? ? _ L']; subst. exfalso. change (Forall2 (fun a x => a = x \/ (a = "." /\ x <> newline)) y (x' ++ ["."] ++ y')) in L'.
      apply (looks_like_digits y) in L'; [|exact Dy]. rewrite <- L' in Dy. rewrite !forallb_app in Dy. cbn in Dy.
      rewrite Bool.andb_false_r in Dy. discriminate.
  - cbn in Dx. apply andb_prop in Dx. destruct Dx as [Da Dx]. destruct x' as [|a' x']; cbn [app] in *.
    + inversion L as [|? ? ? ? [Q|[Q _]] _]; subst; discriminate.
    + cbn in Dx'. apply andb_prop in Dx'. destruct Dx' as [Da' Dx']. inversion L as [|? ? ? ? [Q|[Q _]] L']; subst; [|discriminate].
      f_equal. now apply IH.
Qed.
Lemma fixed_frequency_stands_out f es : (exists a b, fixed_point a b f) -> (forall e, In e es -> exists a b, fixed_point a b (e_frq e)) ->
  frequency_stands_out f es.
Proof.
  intros (a & b & x & y & -> & _ & _ & Dx & Dy) H e I L. destruct (H e I) as (a' & b' & x' & y' & E & _ & _ & Dx' & Dy').
  rewrite E in *. now apply pointed_looks.
Qed.

(** * The first window *)
Lemma search_finditer r s : proper r -> search r s = match finditer r s with c :: _ => Some c | [] => None end.
Proof.
  intros P. unfold finditer. induction s as [|a s IH]; cbn [search finditer_from].
  - destruct (match_at r []) as [[u c]|] eqn:E; auto. destruct (match_sound _ _ _ _ E) as (v & Q & L).
    symmetry in Q. apply app_eq_nil in Q. destruct Q as [-> _]. exfalso. exact (P _ L).
  - destruct (match_at r (a :: s)) as [[u c]|]; auto.
Qed.
Lemma time_found t W header es : wave_name W -> header_ok (lit W) header -> (forall e, In e es -> entry_ok e) ->
  unsigned t -> time_stands_out t es ->
  finditer (peak_re (chars t) NUMBER W) (contents header es) = map caps_line (of_window t (lit W) es).
Proof.
  intros Wn H Eo Ut St. unfold of_window. apply peaks_found; auto using chars_no_groups, figured_chars; try (apply chars_within, unsigned_plain; auto).
  - intros e I S. destruct (Eo e I) as (T & F & _). apply sel_t_true in S. destruct S as (-> & E). rewrite lang_looks_like.
    auto using looks_like_refl, unsigned_no_newline, lang_number, unsigned_number.
  - intros e pre g I E LT LF EW. apply lang_looks_like in LT. apply sel_t_true. split; [exact (St e pre g I E LT)|exact EW].
Qed.
Lemma first_window header es w W e0 rest cn wf pt values :
  check_version header = Ok tt -> search get_nmaxima header = Some cn -> search get_process_type header = Some pt ->
  search get_wavetype (contents header es) = Some wf ->
  validate_wavetypes (effective_wavetype w (group 1 wf)) = Ok W ->
  header_ok (lit W) header -> (forall e, In e es -> entry_ok e) -> (forall e, In e es -> reads e (values e)) ->
  of_wave (lit W) es = e0 :: rest ->
  time_stands_out (e_time e0) es ->
  (forall e, In e (of_window (e_time e0) (lit W) es) -> frequency_stands_out (e_frq e) es) ->
  (forall f, List.length (at_frequency f (of_window (e_time e0) (lit W) es)) <= clamp_nmaxima (cap 1 cn)) ->
  exists p, peaks_from_max (contents header es) w = Ok p /\
    identifier p = string_of_list_ascii (e_time e0 ++ ["-"] ++ process_name wf pt) /\
    holds_window p (clamp_nmaxima (cap 1 cn)) (firsts (map e_frq (of_window (e_time e0) (lit W) es)))
      (of_window (e_time e0) (lit W) es) values.
Proof.
  intros Cv Sn Sp Sw V H Eo Rd Fst St Sf Cnt. unfold peaks_from_max.
  assert (Ev : check_version (contents header es) = Ok tt).
  { unfold check_version in *. destruct (search get_geopsy_version header) as [c|] eqn:E; [|discriminate].
    now rewrite (search_header _ _ _ c) by auto. }
  rewrite Ev. cbn [bind].
  pose proof (validate_name _ _ V) as Wn.
  assert (I0 : In e0 es). { apply (in_of_wave (lit W) es e0). rewrite Fst. now left. }
  destruct (Eo e0 I0) as (Ut & _).
  destruct (parse_window header es w W (e_time e0) (firsts (map e_frq (of_window (e_time e0) (lit W) es)))
     (clamp_nmaxima (cap 1 cn)) values wf pt) as (p & P1 & P2 & P3); auto using search_header, firsts_nodup.
  - intros e2 I2. apply Rd. apply in_of_window in I2. tauto.
  - intros f If. apply firsts_in, in_map_iff in If. destruct If as (e2 & <- & I2). split; auto.
    apply in_of_window in I2. apply (Eo e2), I2.
  - intros e2 I2. now apply firsts_in, in_map.
  - exists p. split; auto. revert P1. unfold parse_peaks. rewrite Sw, (search_header get_process_type header es pt) by auto.
    cbn [groups bind]. set (w' := effective_wavetype w (group 1 wf)) in *.
    unfold get_peak_from_max. rewrite V. cbn [as_pattern bind].
    rewrite search_finditer by (apply proper_peak; reflexivity).
    rewrite (window_found W header es) by auto. fold (of_wave (lit W) es). rewrite Fst. cbn [map groups bind].
    change (cap 1 (caps_line e0)) with (e_time e0). rewrite pattern_plain by now apply unsigned_plain. cbn [bind].
    rewrite time_found, map_cap2, firsts_distinct by auto. rewrite (search_header get_nmaxima header es cn) by auto.
    cbn [groups bind]. auto.
Qed.
(** * Several files *)
Lemma read_file_keeps d w : w <> "rayleigh"%string \/ ~ detects_vertical d -> fst (read_file d w) = w.
Proof.
  intros H. unfold read_file. destruct (check_version d); auto. destruct (search get_wavetype d) as [c|] eqn:E; auto. cbn [groups fst].
  unfold effective_wavetype. destruct (String.eqb_spec w "rayleigh") as [->|]; auto. cbn [andb].
  destruct (group 1 c) as [t|] eqn:G; auto. destruct (text_eqb_spec t (lit "Vertical")) as [->|]; auto.
  destruct H as [H|H]; [congruence|]. exfalso. apply H. now exists c, (lit "Vertical").
Qed.
Lemma read_files_each files w : w <> "rayleigh"%string \/ (forall d, In d files -> ~ detects_vertical d) ->
  read_files files w = bind (mapM (fun d => snd (read_file d w)) files) (fun pss => Ok (List.concat pss)).
Proof.
  induction files as [|d files IH]; intros H; auto. cbn [read_files mapM].
  pose proof (read_file_keeps d w) as K. destruct (read_file d w) as [w' r]. cbn [fst snd] in *.
  rewrite K by (destruct H; [now left|right; apply H; now left]). destruct r as [ps|e]; auto. cbn [bind].
  rewrite IH by (destruct H; [now left|right; intros; apply H; now right]).
  destruct (mapM (fun d0 => snd (read_file d0 w)) files); reflexivity.
Qed.
Lemma unknown_invalid w : ~ known w -> validate_wavetypes w = Err ValueError.
Proof.
  unfold known, validate_wavetypes. intros N.
  repeat match goal with |- context [String.eqb w ?s] => destruct (String.eqb_spec w s) as [->|]; [exfalso; apply N; cbn; tauto|] end.
  reflexivity.
Qed.
Lemma unknown_effective w o : ~ known w -> effective_wavetype w o = w.
Proof. unfold effective_wavetype. intros N. destruct (String.eqb_spec w "rayleigh") as [->|]; auto. exfalso. apply N. now left. Qed.
Lemma unknown_file d w : ~ known w -> exists e, snd (read_file d w) = Err e.
Proof.
  intros N. unfold read_file. destruct (check_version d); [|cbn; eauto]. destruct (search get_wavetype d); cbn [groups snd]; eauto.
  destruct (search get_nmaxima d); cbn [groups bind]; eauto. unfold get_peak_from_max.
  rewrite unknown_effective, unknown_invalid by auto. cbn. eauto.
Qed.
Lemma unknown_wavetype d files w : ~ known w -> exists e, suite_from_max (d :: files) w = Err e.
Proof.
  intros N. destruct (unknown_file d w N) as [e E]. unfold suite_from_max. cbn [read_files].
  destruct (read_file d w) as [w' r]. cbn [snd] in E. rewrite E. cbn. eauto.
Qed.
Lemma unknown_value d w : ~ known w -> check_version d = Ok tt -> search get_wavetype d <> None -> search get_nmaxima d <> None ->
  forall files, suite_from_max (d :: files) w = Err ValueError.
Proof.
  intros N C S M files.
  assert (E : snd (read_file d w) = Err ValueError).
  { unfold read_file. rewrite C. destruct (search get_wavetype d); [|congruence]. cbn [groups snd].
    destruct (search get_nmaxima d); [|congruence]. cbn [groups bind]. unfold get_peak_from_max.
    now rewrite unknown_effective, unknown_invalid by auto. }
  unfold suite_from_max. cbn [read_files]. destruct (read_file d w) as [w' r]. cbn [snd] in E. now rewrite E.
Qed.
Lemma version_needed d : (forall c, search get_geopsy_version d = Some c ->
    cap 1 c ++ ["."] ++ cap 2 c ++ ["."] ++ cap 3 c <> lit "3.2.0") ->
  forall w files, exists e, peaks_from_max d w = Err e /\ suite_from_max (d :: files) w = Err e /\
    (e = ValueError \/ e = AttributeError).
Proof.
  intros H w files. unfold peaks_from_max, suite_from_max. cbn [read_files]. unfold read_file, check_version, check_geopsy_version.
  destruct (search get_geopsy_version d) as [c|]; cbn [groups bind]; [|eauto].
  destruct (text_eqb_spec (cap 1 c ++ ["."] ++ cap 2 c ++ ["."] ++ cap 3 c) (lit "3.2.0")) as [E|_]; cbn; eauto.
  exfalso. exact (H c eq_refl E).
Qed.

(** * Checks by computation, for examples *)
Lemma search_none r s : search r s = None -> forall pre u v c, s = pre ++ u ++ v -> ~ lang r u [] c.
Proof.
  intros N pre. revert s N. induction pre as [|a pre IH]; intros s N u v c E L; subst s.
  - cbn [app] in N. pose proof (match_complete r u v c L) as M. destruct (u ++ v); cbn [search] in N;
      match type of N with context [match_at r ?x] => destruct (match_at r x) as [[? ?]|]; congruence end.
  - cbn [app search] in N. destruct (match_at r (a :: pre ++ u ++ v)) as [[? ?]|]; [discriminate|]. eapply (IH _ N); eauto.
Qed.
Lemma header_check w header : search (seqs [Chr digit; Star any; Lit (space :: w ++ [space])]) header = None -> header_ok w header.
Proof.
  intros S a l b c E NL I. destruct (digit c) eqn:D; [|reflexivity]. exfalso.
  apply in_split in I. destruct I as (l1 & l2 & ->).
  refine (search_none _ _ S (a ++ l1) (c :: l2 ++ (space :: w ++ [space])) b [] _ _).
  - rewrite E. repeat (rewrite <- app_assoc; cbn [app]). reflexivity.
  - unfold seqs. cbn [fold_right]. change (c :: l2 ++ space :: w ++ [space]) with ([c] ++ (l2 ++ space :: w ++ [space])).
    apply lseq; [now constructor|]. apply lseq.
    + constructor. apply any_word. intros X. apply NL. rewrite in_app_iff. cbn [In]. tauto.
    + generalize (space :: w ++ [space]) as z. intros z. assert (X : lang (Seq (Lit z) Eps) (z ++ []) [] []).
      { apply lseq; [apply lang_lit; split; reflexivity|constructor]. }
      rewrite app_nil_r in X. exact X.
Qed.
Definition unsigned_b (t : text) : bool :=
  match split_digits t with
  | (_ :: _, []) => true
  | (_ :: _, p :: r) => (is p "." && forallb digit r)%bool
  | _ => false
  end.
Lemma split_digits_spec t : t = fst (split_digits t) ++ snd (split_digits t) /\ digits (fst (split_digits t)).
Proof.
  unfold digits. induction t as [|a t [IH1 IH2]]; cbn; auto. destruct (digit a) eqn:D; cbn; auto.
  destruct (split_digits t) as [d r]. cbn in *. rewrite D, IH2. subst t. auto.
Qed.
Lemma unsigned_check t : unsigned_b t = true -> unsigned t.
Proof.
  unfold unsigned_b. destruct (split_digits_spec t) as [E D]. destruct (split_digits t) as [[|x d] r]; [discriminate|]. cbn [fst snd] in *.
  destruct r as [|p r].
  - intros _. exists (x :: d), []. rewrite app_nil_r in E. split; [discriminate|]. split; auto. split; [reflexivity|now left].
  - intros H. apply andb_true_iff in H. destruct H as [P R]. unfold is in P. apply Ascii.eqb_eq in P. subst p.
    exists (x :: d), r. split; [discriminate|]. auto.
Qed.
Definition entry_b (e : entry) : bool :=
  (unsigned_b (e_time e) && unsigned_b (e_frq e) && forallb (fun a => negb (is a space) && negb (is a newline)) (e_wave e) &&
   unsigned_b (e_slo e) && unsigned_b (e_azi e) && unsigned_b (e_ell e) &&
   (unsigned_b (e_noi e) || text_eqb (e_noi e) (lit "inf")) && unsigned_b (e_pwr e))%bool.
Lemma entry_check e : entry_b e = true -> entry_ok e.
Proof.
  unfold entry_b, entry_ok. rewrite !andb_true_iff, orb_true_iff. intros (((((((A & B) & C) & D) & E) & F) & G) & H).
  repeat split; auto using unsigned_check, unsigned_number.
  - intros I. rewrite forallb_forall in C. specialize (C _ I). discriminate.
  - intros I. rewrite forallb_forall in C. specialize (C _ I). discriminate.
  - destruct G as [G|G]; [auto using unsigned_check, unsigned_number|]. destruct (text_eqb_spec (e_noi e) (lit "inf")); [auto|discriminate].
Qed.
Definition value_of (e : entry) : row_data :=
  match read_match 1 0 (caps_line e) with Ok r => r | Err _ => nan_row end.
Definition reads_b (e : entry) : bool :=
  match read_match 1 0 (caps_line e), parse_float (e_slo e) with
  | Ok _, Ok (Fin s) => negb (Qceqb s 0%Qc)
  | _, _ => false
  end.
Lemma reads_check e : reads_b e = true -> reads e (value_of e).
Proof.
  unfold reads_b, value_of, read_match, reads.
  change (cap 2 (caps_line e)) with (e_frq e). change (cap 3 (caps_line e)) with (e_slo e).
  change (cap 4 (caps_line e)) with (e_azi e). change (cap 5 (caps_line e)) with (e_ell e).
  change (cap 6 (caps_line e)) with (e_noi e). change (cap 7 (caps_line e)) with (e_pwr e).
  destruct (parse_float (e_frq e)); [|discriminate]. cbn [bind Nat.leb].
  destruct (parse_float (e_slo e)) as [x|]; [|discriminate]. cbn [bind].
  destruct x as [s| | |]; cbn [inverse];
  destruct (parse_float (e_azi e)), (parse_float (e_ell e)), (parse_float (e_noi e)), (parse_float (e_pwr e));
    try (cbn; destruct (Qceqb s 0%Qc); discriminate); try (cbn; discriminate).
  destruct (Qceqb_spec s 0%Qc); [discriminate|]. cbn [bind]. intros _. cbn [r_frq r_vel r_azi r_ell r_noi r_pwr].
  repeat split; auto. exists s. auto.
Qed.
Definition fixed_b (a b : nat) (t : text) : bool :=
  match split_digits t with
  | (x, p :: y) => (is p "." && forallb digit y && Nat.eqb (List.length x) a && Nat.eqb (List.length y) b)%bool
  | _ => false
  end.
Lemma fixed_check a b t : fixed_b a b t = true -> fixed_point a b t.
Proof.
  unfold fixed_b. destruct (split_digits_spec t) as [E D]. destruct (split_digits t) as [x [|p y]]; [discriminate|]. cbn [fst snd] in *.
  rewrite !andb_true_iff. intros (((P & R) & X) & Y). unfold is in P. apply Ascii.eqb_eq in P. subst p.
  apply Nat.eqb_eq in X, Y. exists x, y. auto.
Qed.
Lemma forall_check {A} (P : A -> Prop) (b : A -> bool) l : (forall a, b a = true -> P a) -> forallb b l = true -> forall a, In a l -> P a.
Proof. intros H F a I. rewrite forallb_forall in F. auto. Qed.
