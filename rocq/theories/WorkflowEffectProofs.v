(* More proofs about whole workflow runs: refusals, settings, window arguments. *)
From Verif Require Import HeaderFileProofs WorkflowModel WorkflowSpec WorkflowProofs WorkflowGridProofs ArraySpec ArrayProofs
  SeriesSpec SeriesProofs PyFacts NumFacts.
From Coq Require Import Permutation Sorting.Sorted.
Local Open Scope string_scope.
Local Open Scope nat_scope.
Local Open Scope list_scope.
Local Open Scope py_scope.

(** * A source inside the array *)
Lemma time_domain_refuses E f st a : load E f = Ok a -> surrounded a -> run_time_domain E f st = (st, Err ValueError).
Proof.
  intros L S. apply (loaded_inside E f a L) in S. unfold run_time_domain. rewrite L. cbn [bind]. unfold check. cbn [started w_array].
  rewrite S. reflexivity.
Qed.
Lemma file_loop_checked E c ex l : forall st w run st' r, file_loop E c ex st w run l = (st', Ok r) ->
  forall f, In f l -> exists a, load E (Name f) = Ok a /\ array_similar a ex = true /\ source_inside a = false.
Proof.
  induction l as [|x l IH]; intros st w run st' r H f I; [destruct I|]. cbn [file_loop] in H.
  destruct (one_file E st ex w x) as [w'|] eqn:O; cbn [bind or_stop] in H; [|discriminate].
  destruct (item st "processing") as [proc|]; cbn [bind or_stop] in H; [|discriminate].
  destruct (c (w_array w') proc) as [proc' t]. destruct (bind t _) as [run'|]; cbn [or_stop] in H; [|discriminate].
  destruct I as [<-|I]; [|eapply IH; eauto].
  unfold one_file in O. apply bind_ok in O as (a & La & O). exists a. split; auto.
  destruct (array_similar a ex); cbn [negb] in O; [|discriminate]. split; auto.
  apply bind_ok in O as (w1 & C & _). unfold check in C. cbn [set_array w_array] in C. now destruct (source_inside a).
Qed.
Lemma frequency_checked E f st st' o : run_frequency_domain E f st = (st', Ok o) ->
  exists x l ex, iterate f = x :: l /\ example_array E st x = Ok ex /\
    forall y, In y (iterate f) -> exists a, load E (Name y) = Ok a /\ array_similar a ex = true /\ source_inside a = false.
Proof.
  unfold run_frequency_domain. intros H. destruct (iterate f) as [|x l]; [discriminate|].
  change (pyget (x :: l) 0) with (Ok x) in H. cbn [bind] in H.
  destruct (example_array E st x) as [ex|] eqn:Ex; cbn [bind or_stop] in H; [|discriminate]. exists x, l, ex. split; auto. split; auto.
  destruct (lookup "empty" (e_transforms E)) as [c|]; cbn [or_stop] in H; [|discriminate].
  destruct (item st "processing") as [proc|]; cbn [bind or_stop] in H; [|discriminate].
  destruct (c ex proc) as [proc' r]. destruct (bind r _) as [[run c']|]; cbn [or_stop] in H; [|discriminate].
  destruct (file_loop E c' ex (put_processing st proc') (started ex) run (x :: l)) as [st1 [[w t]|]] eqn:F; [|discriminate].
  eapply file_loop_checked; eauto.
Qed.
Lemma frequency_refuses E f st x l a ex c proc proc' running j n c' :
  iterate f = x :: l -> load E (Name x) = Ok a -> surrounded a ->
  example_array E st x = Ok ex -> lookup "empty" (e_transforms E) = Some c -> item st "processing" = Ok proc ->
  c ex proc = (proc', Ok running) -> item proc' "transform" = Ok j -> str j = Ok n -> lookup n (e_transforms E) = Some c' ->
  snd (run_frequency_domain E f st) = Err ValueError.
Proof.
  intros If L S Ex He Ip Hc Ij Hn Hc'. apply (loaded_inside E _ a L) in S. unfold run_frequency_domain. rewrite If.
  change (pyget (x :: l) 0) with (Ok x). cbn [bind]. rewrite Ex. cbn [bind]. rewrite He, Ip. cbn [bind or_stop]. rewrite Hc.
  assert (P : item (put_processing st proc') "processing" = Ok proc').
  { destruct st as [| | | | |d]; try discriminate. cbn. now rewrite lookup_update. }
  rewrite P. cbn [bind]. rewrite Ij. cbn [bind]. rewrite Hn. cbn [bind]. rewrite Hc'. cbn [or_stop file_loop].
  unfold one_file. rewrite L. cbn [bind]. destruct (array_similar a ex); cbn [negb]; [|reflexivity].
  unfold check. cbn [set_array w_array]. rewrite S. reflexivity.
Qed.

(** The cross-correlation workflow. *)
Lemma first_last_time s : (0 < dt s)%Qc -> amp s <> [] -> last_time s = Ok (time_at s (List.length (amp s) - 1)).
Proof.
  intros D N. unfold last_time. destruct (time s) as [|t0 ts] eqn:T.
  - apply (f_equal (@List.length Qc)) in T. rewrite length_time in T. destruct (amp s); [congruence|discriminate].
  - cbn. now destruct (time_min_max s t0 ts D T) as [_ ->].
Qed.
Lemma xcorr_begin_inside E f a b b' t0 t1 : load E f = Ok a -> surrounded a -> new_array (sensors a) (src a) = Ok b ->
  changed (array_trim b t0 t1) = Ok b' -> source_inside b' = true.
Proof.
  intros L S Nb H. destruct (load_sorted E f a L) as [N I].
  assert (B : b = mkArray (sort_sensors (sensors a)) (src a)).
  { unfold new_array in Nb. destruct (sensors a); [discriminate|]. apply bind_ok in Nb as (u & _ & Nb). now inversion Nb. }
  apply changed_ok in H. unfold array_trim in H. destruct (for_each _ _) as [k r] eqn:F. inversion H; subst b' r. clear H.
  apply for_each_ok in F.
  assert (P : map sx k = map sx (sort_sensors (sensors a))).
  { subst b. cbn [sensors] in F. clear -F. induction F as [|x y l1 l2 Q F IH]; auto. cbn. rewrite IH. f_equal.
    pose proof (sensor_trim_sx t0 t1 x) as (R & _). rewrite Q in R. exact R. }
  assert (Nk : sensors (set_sensors b k) <> []).
  { cbn. intros ->. apply N. destruct (sensors a); auto. apply (f_equal (@List.length Qc)) in P. rewrite !map_length in P.
    rewrite (Permutation_length (sort_perm _)) in P. discriminate. }
  apply inside_surrounded; auto.
  - cbn. rewrite P. apply sort_sorted. clear -I. unfold increasing in I. induction I as [|x l J IH K]; constructor; auto.
    rewrite Forall_forall in K. intros Q. specialize (K x Q). eapply Qclt_not_eq; eauto.
  - destruct S as (s & t & Is & It & Hs & Ht).
    assert (X : forall u, In u (sensors a) -> exists v, In v k /\ sx v = sx u).
    { intros u Iu. assert (Q : In (sx u) (map sx k)).
      { rewrite P. apply in_map. eapply Permutation_in; [apply Permutation_sym, sort_perm|]; auto. }
      apply in_map_iff in Q as (v & Q & J). eauto. }
    destruct (X s Is) as (s' & Is' & Es), (X t It) as (t' & It' & Et). exists s', t'. subst b. cbn. rewrite Es, Et. auto.
Qed.
Lemma xcorr_refuses E f fsrc ch st a o : load E f = Ok a -> surrounded a -> snd (run_xcorr E f fsrc ch st) <> Ok o.
Proof.
  intros L S H. unfold run_xcorr in H. rewrite L in H. cbn [bind] in H.
  destruct (source_signal _ ch fsrc) as [sig|]; cbn [bind or_stop snd] in H; [|discriminate].
  destruct (new_array (sensors a) (src a)) as [b|] eqn:Nb; cbn [bind or_stop snd] in H; [|discriminate].
  destruct (pyget (sensors b) 0) as [s0|]; cbn [bind or_stop snd] in H; [|discriminate].
  destruct (last_time (ser s0)) as [tm|]; cbn [bind or_stop snd] in H; [|discriminate].
  destruct (changed (array_trim b 0%Qc tm)) as [b'|] eqn:Tb; cbn [bind or_stop snd] in H; [|discriminate].
  cbv zeta in H. destruct (last_time _) as [ts|]; cbn [bind or_stop snd] in H; [|discriminate].
  destruct (base_trim _ _ _) as [g [u|]]; cbn [bind or_stop snd] in H; [|discriminate].
  unfold check in H. cbn [started w_array] in H. rewrite (xcorr_begin_inside _ _ _ _ _ _ _ L S Nb Tb) in H. discriminate.
Qed.
Lemma xcorr_refuses_exactly E f fsrc ch st a x d : load E f = Ok a -> surrounded a ->
  source_signal (K := unit) (fun _ => e_read E) ch fsrc = Ok (x, d) -> x <> [] -> (0 < d)%Qc ->
  (forall s, In s (sensors a) -> amp (ser s) <> [] /\ (0 < dt (ser s))%Qc /\ (delay (ser s) <= 0)%Qc /\
     (0 <= time_at (ser s) (List.length (amp (ser s)) - 1))%Qc) ->
  run_xcorr E f fsrc ch st = (st, Err ValueError).
Proof.
  intros L S Hs Nx Dd G. unfold run_xcorr. rewrite L. cbn [bind]. rewrite Hs. cbn [bind].
  destruct (load_sorted E f a L) as [N I].
  destruct (new_array (sensors a) (src a)) as [b|e] eqn:Nb; cbn [bind or_stop].
  2: { unfold new_array in Nb. destruct (sensors a) as [|e0 l]; [congruence|].
       destruct (check_sensors_spec e0 l [sx e0]) as [_ [C|C]]; rewrite C in Nb; cbn in Nb; [discriminate|]. inversion Nb. reflexivity. }
  pose proof Nb as B. unfold new_array in B. destruct (sensors a) as [|e0 l0] eqn:Ea; [discriminate|]. rewrite <- Ea in *.
  apply bind_ok in B as (u & _ & B). injection B as Bb. rewrite ?Ea in Bb. rewrite <- ?Ea in Bb.
  assert (Cb : consistent b).
  { rewrite <- Bb in Nb. apply new_array_ok in Nb as (_ & A & D). split; [|split].
    - rewrite <- Bb. cbn. intros Q. apply N. apply Permutation_nil. rewrite <- Q. apply sort_perm.
    - rewrite <- Bb. now apply sort_sorted.
    - rewrite <- Bb. cbn. intros s t Is It. apply A; (eapply Permutation_in; [apply sort_perm|]; auto). }
  destruct Cb as (Nn & Ci & Ag). destruct (sensors b) as [|s0 l] eqn:Eb; [congruence|].
  change (pyget (s0 :: l) 0) with (Ok s0). cbn [bind].
  assert (G' : forall s, In s (sensors b) -> In s (sensors a)).
  { rewrite <- Bb. cbn. intros s Is. eapply Permutation_in; [apply sort_perm|]; auto. }
  destruct (G s0) as (A0 & D0 & De0 & La0); [apply G'; rewrite Eb; now left|].
  rewrite first_last_time by auto. cbn [bind].
  assert (Cb : consistent b) by (split; [congruence|]; rewrite Eb; auto).
  destruct (array_trim_cases b 0%Qc (time_at (ser s0) (List.length (amp (ser s0)) - 1)) Cb) as (s1 & l1 & Es & T).
  rewrite Eb in Es. inversion Es; subst s1 l1.
  assert (Tr : snd (sensor_trim 0%Qc (time_at (ser s0) (List.length (amp (ser s0)) - 1)) s0) = Ok tt).
  { unfold sensor_trim. destruct (trim_ok (ser s0) 0%Qc (time_at (ser s0) (List.length (amp (ser s0)) - 1))) as (i & j & _ & _ & _ & ->); auto.
    - destruct (amp (ser s0)); [congruence|cbn; lia].
    - split; [|split]; auto; [|apply Qcle_refl]. unfold time_at. replace (QcN 0) with 0%Qc by reflexivity. rewrite Qcmult_0_l, Qcplus_0_l. auto. }
  rewrite Tr in T. pose proof (f_equal changed T) as Tc. cbn [changed] in Tc. rewrite Tc. cbn [bind]. cbv zeta.
  set (sg := mkSeries (fst (x, d)) (snd (x, d)) 1 0%Qc 1).
  assert (Lt : last_time sg = Ok (time_at sg (List.length (amp sg) - 1))) by (apply first_last_time; auto). rewrite Lt. cbn [bind].
  assert (Ts : snd (base_trim sg 0%Qc (time_at sg (List.length (amp sg) - 1))) = Ok tt).
  { destruct (trim_ok sg 0%Qc (time_at sg (List.length (amp sg) - 1))) as (i & j & _ & _ & _ & H); auto.
    - cbn. destruct x; [congruence|cbn; lia].
    - split; [|split]; [| |apply Qcle_refl].
      + unfold time_at. cbn. replace (QcN 0) with 0%Qc by reflexivity. rewrite Qcmult_0_l, Qcplus_0_l. apply Qcle_refl.
      + unfold time_at. cbn. rewrite Qcplus_0_r. rewrite <- (Qcmult_0_l d). apply Qcmult_le_compat_r; [apply QcN_nonneg|now apply Qclt_le_weak].
    - unfold trim in H. destruct (base_trim sg _ _) as [g [[]|]]; cbn; auto. discriminate. }
  destruct (base_trim sg 0%Qc _) as [g [u'|]]; [|discriminate]. cbn [bind].
  unfold check. cbn [started w_array]. rewrite (xcorr_begin_inside _ _ _ _ _ _ _ L S Nb Tc). reflexivity.
Qed.

(** * window_kwargs has no effect *)
Lemma finish_window E p k w : snd (finish E (create_settings_dict (with_window p k)) w) = snd (finish E (create_settings_dict p) w).
Proof.
  unfold finish. rewrite !settings_created, !item_processing. cbn [bind].
  change (processing (with_window p k)) with (processing p).
  destruct (bind (item (processing p) "transform") _) as [[proc c]|]; [|reflexivity].
  destruct (c (w_array w) proc) as [proc' r]. cbn [snd]. rewrite !put_settings. reflexivity.
Qed.
Lemma file_loop_window E c ex p k l : forall proc w run, exists proc' r,
  file_loop E c ex (settings p proc) w run l = (settings p proc', r) /\
  file_loop E c ex (settings (with_window p k) proc) w run l = (settings (with_window p k) proc', r).
Proof.
  induction l as [|x l IH]; intros proc w run; [exists proc, (Ok (w, run)); split; reflexivity|]. cbn [file_loop].
  rewrite !file_act. change (preparation (with_window p k)) with (preparation p). change (padding (with_window p k)) with (padding p).
  rewrite !item_processing.
  match goal with |- context [or_stop _ (bind ?r _) _] => destruct r as [w'|e] end; cbn [bind or_stop]; [|exists proc, (Err e); split; reflexivity].
  destruct (c (w_array w') proc) as [proc1 t]. rewrite !put_settings.
  destruct (bind t _) as [run'|e]; cbn [or_stop]; [apply IH|]. exists proc1, (Err e); split; reflexivity.
Qed.
Lemma example_window E p k proc x : example_array E (settings (with_window p k) proc) x = example_array E (settings p proc) x.
Proof. reflexivity. Qed.
Lemma window_ignored E f p k : snd (masw_run E f (create_settings_dict (with_window p k))) = snd (masw_run E f (create_settings_dict p)).
Proof.
  assert (T : forall g, snd (run_time_domain E g (create_settings_dict (with_window p k))) = snd (run_time_domain E g (create_settings_dict p))).
  { intros g. rewrite !time_domain_act. change (plan (with_window p k)) with (plan p).
    destruct (bind (load E g) _) as [w|]; cbn [or_stop]; [apply finish_window|reflexivity]. }
  assert (F : snd (run_frequency_domain E f (create_settings_dict (with_window p k))) = snd (run_frequency_domain E f (create_settings_dict p))).
  { unfold run_frequency_domain. rewrite !settings_created. change (processing (with_window p k)) with (processing p).
    destruct (pyget (iterate f) 0) as [x|]; cbn [bind or_stop]; [|reflexivity]. rewrite example_window.
    destruct (example_array E (settings p (processing p)) x) as [ex|]; cbn [bind or_stop]; [|reflexivity].
    destruct (lookup "empty" (e_transforms E)) as [c|]; [|reflexivity]. rewrite !item_processing. cbn [bind or_stop].
    destruct (c ex (processing p)) as [proc' r]. rewrite !put_settings, !item_processing.
    destruct (bind r _) as [[run c']|]; cbn [or_stop]; [|reflexivity].
    destruct (file_loop_window E c' ex p k (iterate f) proc' (started ex) run) as (proc2 & r2 & A & B). rewrite A, B.
    destruct r2 as [[w t]|]; reflexivity. }
  unfold masw_run. 
  replace (item (create_settings_dict (with_window p k)) "workflow") with (item (create_settings_dict p) "workflow") by reflexivity.
  destruct (bind (item (create_settings_dict p) "workflow") _) as [[]|]; cbn [or_stop]; auto.
  unfold run_single. destruct f as [s|[|s [|s' l]]]; auto.
Qed.

(** * Settings afterwards *)
Lemma update_same {A} k (v : A) d : lookup k d = Some v -> update k v d = d.
Proof.
  induction d as [|[k' w] t IH]; [discriminate|]. cbn. destruct (String.eqb_spec k k') as [->|N]; intros H; [congruence|]. now rewrite IH.
Qed.
Lemma put_same st proc : item st "processing" = Ok proc -> put_processing st proc = st.
Proof.
  destruct st as [| | | | |d]; try discriminate. cbn. destruct (lookup "processing" d) as [v|] eqn:L; [|discriminate].
  intros H; inversion H; subst. now rewrite update_same.
Qed.
Definition only_reads (c : transform_class) : Prop := forall a st, fst (c a st) = st.
Section Unchanged.
  Variables (E : environment) (st : json).
  Hypothesis Hempty : forall c, lookup "empty" (e_transforms E) = Some c -> only_reads c.
  Hypothesis Hclass : forall n c, at_path st ["processing"; "transform"] = Some (JStr n) -> lookup n (e_transforms E) = Some c -> only_reads c.
  Lemma named proc j n : item st "processing" = Ok proc -> item proc "transform" = Ok j -> str j = Ok n ->
    at_path st ["processing"; "transform"] = Some (JStr n).
  Proof.
    destruct st as [| | | | |d]; try discriminate. cbn. destruct (lookup "processing" d) as [v|]; [|discriminate].
    intros H; inversion H; subst. destruct proc as [| | | | |d']; try discriminate. cbn. destruct (lookup "transform" d') as [v|]; [|discriminate].
    intros H'; inversion H'; subst. destruct j; try discriminate. cbn. intros Hs; now inversion Hs.
  Qed.
  Lemma finish_unchanged w : fst (finish E st w) = st.
  Proof.
    unfold finish. destruct (item st "processing") as [proc|] eqn:P; cbn [bind]; [|reflexivity].
    destruct (item proc "transform") as [j|] eqn:J; cbn [bind]; [|reflexivity]. destruct (str j) as [n|] eqn:N; cbn [bind]; [|reflexivity].
    destruct (lookup n (e_transforms E)) as [c|] eqn:C; [|reflexivity].
    pose proof (Hclass n c (named proc j n P J N) C (w_array w) proc) as R. destruct (c (w_array w) proc) as [proc' r]. cbn [fst] in *. subst proc'.
    now apply put_same.
  Qed.
  Lemma or_stop_fst {A} (r : result A) (g : A -> json * result outcome) : (forall a, fst (g a) = st) -> fst (or_stop st r g) = st.
  Proof. intros H. destruct r; cbn; auto. Qed.
  Lemma time_domain_unchanged f : fst (run_time_domain E f st) = st.
  Proof. apply or_stop_fst. apply finish_unchanged. Qed.
  Lemma xcorr_unchanged f fsrc ch : fst (run_xcorr E f fsrc ch st) = st.
  Proof. apply or_stop_fst. apply finish_unchanged. Qed.
  Lemma file_loop_unchanged c ex l : only_reads c -> forall w run, fst (file_loop E c ex st w run l) = st.
  Proof.
    intros Hc. induction l as [|x l IH]; intros w run; cbn [file_loop]; auto.
    destruct (one_file E st ex w x) as [w'|]; cbn [bind or_stop]; auto. destruct (item st "processing") as [proc|] eqn:P; cbn [bind or_stop]; auto.
    pose proof (Hc (w_array w') proc) as R. destruct (c (w_array w') proc) as [proc' t]. cbn [fst] in R. subst proc'. rewrite (put_same st proc P).
    destruct (bind t _); cbn [or_stop]; auto.
  Qed.
  Lemma frequency_unchanged f : fst (run_frequency_domain E f st) = st.
  Proof.
    unfold run_frequency_domain. destruct (bind (pyget (iterate f) 0) _) as [[[ex c] proc]|] eqn:B; cbn [or_stop]; auto.
    apply bind_ok in B as (x & _ & B). apply bind_ok in B as (ex' & _ & B).
    destruct (lookup "empty" (e_transforms E)) as [c'|] eqn:C; [|discriminate]. apply bind_ok in B as (proc1 & P & B). inversion B; subst.
    pose proof (Hempty c eq_refl ex proc) as R. destruct (c ex proc) as [proc' r]. cbn [fst] in R. subst proc'. rewrite (put_same st proc P), P.
    cbn [bind]. destruct r as [run|]; cbn [bind or_stop]; auto.
    destruct (item proc "transform") as [j|] eqn:J; cbn [bind or_stop]; auto. destruct (str j) as [n|] eqn:N; cbn [bind or_stop]; auto.
    destruct (lookup n (e_transforms E)) as [c'|] eqn:C'; cbn [or_stop]; auto.
    pose proof (file_loop_unchanged c' ex (iterate f) (Hclass n c' (named proc j n P J N) C') (started ex) run) as F.
    destruct (file_loop E c' ex st (started ex) run (iterate f)) as [st1 [[w t]|]]; cbn [fst] in *; auto.
  Qed.
  Lemma masw_unchanged f : fst (masw_run E f st) = st.
  Proof.
    apply or_stop_fst. intros [].
    - unfold run_single. destruct f as [s|[|s [|s' l]]]; try apply time_domain_unchanged. reflexivity.
    - apply time_domain_unchanged.
    - reflexivity.
    - apply frequency_unchanged.
  Qed.
  Lemma xcorr_run_unchanged f fsrc ch : fst (xcorr_run E f fsrc ch st) = st.
  Proof. apply or_stop_fst. intros _. apply xcorr_unchanged. Qed.
End Unchanged.
