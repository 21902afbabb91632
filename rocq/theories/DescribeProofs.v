(* Proofs about the printed descriptions of the workflows. *)
From Verif Require Import HeaderFileProofs WorkflowModel WorkflowSpec WorkflowProofs WorkflowEffectProofs WorkflowSnrProofs
  DescribeModel DescribeSpec SeriesSpec SeriesProofs PyFacts NumFacts.
Local Open Scope string_scope.
Local Open Scope nat_scope.
Local Open Scope list_scope.
Local Open Scope py_scope.

Lemma lines_single : lines (workflow_str Single) =
  [""; "MaswWorkflow: single"; "  - Create Array1D from file (ignore if multiple)."; "  - Check array is acceptable.";
   "  - Perform trim in space (if desired)."; "  - Perform linear detrend on each trace.";
   "  - Perform trim in time (if desired)."; "  - Perform mute (if desired)."; "  - Perform pad  (if desired)."; "  - Perform transform."].
Proof. vm_compute. reflexivity. Qed.
Lemma lines_time_domain : lines (workflow_str TimeDomain) =
  [""; "MaswWorkflow: time-domain"; "  - Create Array1D from files."; "  - Check array is acceptable.";
   "  - Perform trim in space (if desired)."; "  - Perform linear detrend on each trace.";
   "  - Perform trim in time (if desired)."; "  - Perform mute (if desired)."; "  - Perform pad  (if desired)."; "  - Perform transform."].
Proof. vm_compute. reflexivity. Qed.
Lemma lines_frequency_domain : lines (workflow_str FrequencyDomain) =
  [""; "MaswWorkflow: frequency-domain"; "  - Create Array1D from file."; "  - Check array is acceptable.";
   "  - Perform trim in space (if desired)."; "  - Perform linear detrend on each trace.";
   "  - Perform trim in time (if desired)."; "  - Perform mute (if desired)."; "  - Perform pad  (if desired)."; "  - Perform transform.";
   "  - Repeat steps for remaining files, stacking in frequency-domain."; ""].
Proof. vm_compute. reflexivity. Qed.
Lemma lines_xcorr : lines (workflow_str TimeDomainXcorr) =
  [""; "MaswWorkflow: time-domain"; "  - Create Array1D from files."; "  - Check array is acceptable.";
   "  - Perform trim in space (if desired)."; "  - Perform linear detrend on each trace."; "  - Cross-correlate traces with source.";
   "  - Perform trim in time (if desired)."; "  - Perform mute (if desired)."; "  - Perform pad  (if desired)."; "  - Perform transform."].
Proof. vm_compute. reflexivity. Qed.

Lemma announced_plain p sg d c : c <> TimeDomainXcorr ->
  announced p sg d (workflow_str c) = filter (fun o => negb (of_ratio o)) (plan p).
Proof.
  intros N. unfold announced, plan, preparation, ratio, padding.
  assert (L : exists u v w r, lines (workflow_str c) = u :: v :: w :: "  - Check array is acceptable." ::
     "  - Perform trim in space (if desired)." :: "  - Perform linear detrend on each trace." ::
     "  - Perform trim in time (if desired)." :: "  - Perform mute (if desired)." :: "  - Perform pad  (if desired)." ::
     "  - Perform transform." :: r /\ says p sg d u = [] /\ says p sg d v = [] /\ says p sg d w = [] /\
     List.concat (map (says p sg d) r) = []).
  { destruct c; [rewrite lines_single|rewrite lines_time_domain|now elim N|rewrite lines_frequency_domain];
      do 4 eexists; (split; [reflexivity|]); repeat split; reflexivity. }
  destruct L as (u & v & w & r & -> & Su & Sv & Sw & Sr). cbn [map List.concat]. rewrite Su, Sv, Sw, Sr.
  cbn [says app].
  destruct (given false (a_trim p)), (given false (a_mute p)), (given false (a_pad p)), (given false (a_snr p)); reflexivity.
Qed.
Lemma no_ratio p : given false (a_snr p) = false -> filter (fun o => negb (of_ratio o)) (plan p) = plan p.
Proof.
  intros S. unfold plan, preparation, ratio, padding. rewrite S.
  destruct (given false (a_trim p)), (given false (a_mute p)), (given false (a_pad p)); reflexivity.
Qed.
Lemma no_ratio_file p : given false (a_snr p) = false -> plan p = preparation p ++ padding p.
Proof. intros S. unfold plan, ratio. rewrite S. reflexivity. Qed.

Lemma described_time_domain E f p sg d : given false (a_snr p) = false ->
  run_time_domain E f (create_settings_dict p) =
  then_transform E p (do a <- load E f; perform E (announced p sg d (workflow_str TimeDomain)) (started a)).
Proof. intros S. rewrite announced_plain by discriminate. rewrite no_ratio by auto. apply time_domain_result. Qed.
Lemma described_single E x p sg d : given false (a_snr p) = false -> forall f, f = Name x \/ (exists l, f = Names (x :: l)) ->
  run_single E f (create_settings_dict p) =
  then_transform E p (do a <- load E (Name x); perform E (announced p sg d (workflow_str Single)) (started a)).
Proof.
  intros S f If. rewrite announced_plain by discriminate. rewrite no_ratio by auto.
  assert (R : run_single E f (create_settings_dict p) = run_time_domain E (Name x) (create_settings_dict p)).
  { destruct If as [->|[l ->]]; [reflexivity|]. destruct l; reflexivity. }
  rewrite R. apply time_domain_result.
Qed.

(** * Frequency domain *)
Lemma loop_described E c ex p : forall l proc w run st' r, file_loop E c ex (settings p proc) w run l = (st', Ok r) ->
  exists ws, file_by_file E (preparation p ++ padding p) w l ws /\ fst r = last ws w.
Proof.
  induction l as [|x l IH]; intros proc w run st' r H; cbn [file_loop] in H.
  - inversion H; subst. exists []. split; [exact I|reflexivity].
  - rewrite file_act in H. destruct (load E (Name x)) as [a|] eqn:La; cbn [bind or_stop] in H; [|discriminate].
    destruct (negb (array_similar a ex)); cbn [bind or_stop] in H; [discriminate|].
    destruct (perform E (preparation p ++ padding p) (set_array w a)) as [w'|] eqn:P; cbn [bind or_stop] in H; [|discriminate].
    rewrite item_processing in H. cbn [bind or_stop] in H. destruct (c (w_array w') proc) as [proc' t].
    rewrite put_settings in H. destruct (bind t _) as [run'|]; cbn [or_stop] in H; [|discriminate].
    destruct (IH _ _ _ _ _ H) as (ws & F & R). exists (w' :: ws). split; [split; [exists a; auto|exact F]|].
    rewrite R. destruct ws as [|y ws]; [reflexivity|]. cbn [last]. clear. revert y. induction ws; intros y; cbn; auto.
Qed.
Lemma described_frequency E f p sg d st' o : given false (a_snr p) = false ->
  run_frequency_domain E f (create_settings_dict p) = (st', Ok o) ->
  exists ex ws, file_by_file E (announced p sg d (workflow_str FrequencyDomain)) (started ex) (iterate f) ws /\
    r_array o = w_array (last ws (started ex)).
Proof.
  intros S H. rewrite announced_plain by discriminate. rewrite no_ratio, no_ratio_file by auto.
  unfold run_frequency_domain in H. destruct (iterate f) as [|x l]; [discriminate|].
  change (pyget (x :: l) 0) with (Ok x) in H. cbn [bind] in H.
  destruct (example_array E _ x) as [ex|]; cbn [bind or_stop] in H; [|discriminate].
  destruct (lookup "empty" (e_transforms E)) as [c|]; cbn [or_stop] in H; [|discriminate].
  rewrite settings_created, item_processing in H. cbn [bind or_stop] in H.
  destruct (c ex (processing p)) as [proc' r]. rewrite put_settings in H.
  destruct (bind r _) as [[run c']|]; cbn [or_stop] in H; [|discriminate].
  destruct (file_loop E c' ex (settings p proc') (started ex) run (x :: l)) as [st1 [[w t]|]] eqn:F; [|discriminate].
  destruct (loop_described _ _ _ _ _ _ _ _ _ _ F) as (ws & B & R). cbn [fst] in R. exists ex, ws. split; [exact B|]. rewrite <- R.
  injection H as _ H. apply bind_ok in H as (sn & Hs & H). apply bind_ok in H as (pf & Hp & H). destruct (truth pf).
  - apply bind_ok in H as (w1 & Hw & H). apply bind_ok in H as (s & _ & H). inversion H; subst o. cbn.
    unfold snr_step in Hw. rewrite Hs in Hw. cbn [bind] in Hw. rewrite Hp in Hw. cbn [bind] in Hw.
    destruct (item st1 "processing") as [pr|]; cbn [bind] in Hw; [|discriminate].
    destruct (truth pf); [|inversion Hw; reflexivity].
    repeat (match type of Hw with bind ?r _ = Ok _ => destruct r; cbn [bind] in Hw; [|discriminate] end).
    destruct (w_signal w), (w_noise w); try (destruct (truth _); discriminate).
    all: try (destruct (snr_from_arrays _ _ _ _ _ _ _) as [[s' n'] [rr|]]; [|discriminate]; inversion Hw; reflexivity).
    all: try discriminate.
  - inversion H; reflexivity.
Qed.

(** * Cross-correlation *)
Lemma nearest_exact s i : (0 < dt s)%Qc -> i < List.length (amp s) -> nearest_sample s (time_at s i) i.
Proof.
  intros D L. split; [exact L|]. assert (Z : Qcabs (time_at s i - time_at s i) = 0%Qc).
  { replace (time_at s i - time_at s i)%Qc with 0%Qc by ring. reflexivity. }
  rewrite Z. split.
  - intros k K. apply Qcabs_nonneg.
  - intros k K. pose proof (time_at_smono s k i D K) as M.
    destruct (Qcle_lt_or_eq _ _ (Qcabs_nonneg (time_at s k - time_at s i)%Qc)) as [X|X]; [exact X|].
    exfalso. symmetry in X. apply (proj1 (Qcabs_0 _)) in X.
    assert (Q : time_at s k = time_at s i) by (replace (time_at s k) with ((time_at s k - time_at s i) + time_at s i)%Qc by ring; rewrite X; ring).
    rewrite Q in M. exact (Qclt_not_eq _ _ M eq_refl).
Qed.
Lemma whole_signal x d : x <> [] -> (0 < d)%Qc -> let s := mkSeries x d 1 0%Qc 1 in
  exists t, last_time s = Ok t /\ base_trim s 0%Qc t = (s, Ok tt).
Proof.
  intros N D s. assert (L : 0 < List.length x) by (destruct x; [congruence|cbn; lia]).
  exists (time_at s (List.length x - 1)). split; [apply (first_last_time s); auto|].
  assert (Z0 : time_at s 0 = 0%Qc) by (unfold time_at; cbn; replace (QcN 0) with 0%Qc by reflexivity; ring).
  destruct (trim_ok s 0%Qc (time_at s (List.length x - 1))) as (i & j & Hi & Hj & _ & H); auto.
  - split; [|split].
    + rewrite Z0. apply Qcle_refl.
    + rewrite <- Z0 at 1. apply time_at_mono; auto. lia.
    + apply Qcle_refl.
  - assert (i = 0) by (apply (nearest_unique s 0%Qc); auto; rewrite <- Z0 at 1; apply nearest_exact; auto).
    assert (j = List.length x - 1) by (apply (nearest_unique s (time_at s (List.length x - 1))); auto; apply nearest_exact; auto; cbn; lia).
    subst i j. unfold trim in H. destruct (base_trim s 0%Qc _) as [s' [u|]] eqn:B; [|inversion H]. destruct u. f_equal.
    unfold base_trim in B. destruct (time s); [inversion B|]. destruct (_ || _ || _); [inversion B|].
    destruct (argmin _) as [i|]; [|inversion B]. destruct (argmin _) as [j|]; inversion B; subst s'. cbn in *.
    inversion H as [Q]. rewrite Q. unfold set_amp, s. cbn. f_equal. replace (List.length x - 1 + 1 - 0) with (List.length x) by lia.
    apply firstn_all.
Qed.
Lemma xcorr_act E f fsrc ch p x d : source_signal (K := unit) (fun _ => e_read E) ch fsrc = Ok (x, d) -> x <> [] -> (0 < d)%Qc ->
  run_xcorr E f fsrc ch (create_settings_dict p) =
  or_stop (create_settings_dict p)
    (do a <- load E f; do b <- from_zero a;
     perform E (preparation p ++ ratio p ++ [Correlate x d (given (QcZ 100) (a_vmin p)) (given (QcZ 1000) (a_vmax p))] ++ padding p) (started b))
    (finish E (create_settings_dict p)).
Proof.
  intros Hs N D. unfold run_xcorr. f_equal. apply bind_ext; intros a. rewrite Hs. cbn [bind]. unfold from_zero. rewrite bind_assoc.
  apply bind_ext; intros b. unfold pyget. destruct (sensors b) as [|s0 l]; [reflexivity|].
  assert (P : pyget (s0 :: l) 0 = Ok s0) by reflexivity. unfold pyget in P. rewrite P. cbn [bind]. unfold last_time. rewrite bind_assoc.
  apply bind_ext; intros tm. apply bind_ext; intros b'. cbv zeta.
  destruct (whole_signal x d N D) as (t & Lt & Bt). cbn [fst snd]. unfold last_time in Lt. rewrite Lt. cbn [bind]. rewrite Bt. cbn [bind].
  rewrite perform_app. rewrite <- (preparation_act E p (processing p)), <- settings_created. rewrite !bind_assoc.
  apply bind_ext; intros w1. rewrite !bind_assoc. apply bind_ext; intros w2. rewrite !bind_assoc. apply bind_ext; intros w3.
  rewrite !bind_assoc. apply bind_ext; intros w4. rewrite !bind_assoc. apply bind_ext; intros w5. rewrite !bind_assoc.
  apply bind_ext; intros w6. rewrite ?bind_assoc. apply bind_ext; intros w7. rewrite perform_app, snr_act.
  apply bind_ext; intros w8. rewrite perform_app. 
  assert (C : perform E [Correlate x d (given (QcZ 100) (a_vmin p)) (given (QcZ 1000) (a_vmax p))] w8 =
    act E (Correlate x d (given (QcZ 100) (a_vmin p)) (given (QcZ 1000) (a_vmax p))) w8) by (cbn [perform]; apply bind_id).
  rewrite C.
  change (bind (item (create_settings_dict p) "processing") ?F) with (F (processing p)). cbv beta.
  change (item (processing p) "vmin") with (Ok (jnum (QcZ 100) (a_vmin p))).
  change (item (processing p) "vmax") with (Ok (jnum (QcZ 1000) (a_vmax p))). cbn [bind].
  change (WorkflowModel.num (jnum (QcZ 100) (a_vmin p))) with (Ok (given (QcZ 100) (a_vmin p))).
  change (WorkflowModel.num (jnum (QcZ 1000) (a_vmax p))) with (Ok (given (QcZ 1000) (a_vmax p))). cbn [bind act amp dt].
  apply bind_ext; intros w9. rewrite settings_created. apply pad_act.
Qed.
Lemma xcorr_result E f fsrc ch p x d : source_signal (K := unit) (fun _ => e_read E) ch fsrc = Ok (x, d) -> x <> [] -> (0 < d)%Qc ->
  run_xcorr E f fsrc ch (create_settings_dict p) =
  then_transform E p
    (do a <- load E f; do b <- from_zero a;
     perform E (preparation p ++ ratio p ++ [Correlate x d (given (QcZ 100) (a_vmin p)) (given (QcZ 1000) (a_vmax p))] ++ padding p) (started b)).
Proof.
  intros Hs N D. rewrite (xcorr_act E f fsrc ch p x d Hs N D). unfold then_transform.
  destruct (bind (load E f) _) as [w|e] eqn:P; cbn [or_stop]; [|reflexivity].
  apply bind_ok in P as (a & _ & P). apply bind_ok in P as (b & _ & P).
  assert (R : if given false (a_snr p) then exists r, w_snr w = Some r else w_snr w = None).
  { rewrite app_assoc, perform_app in P. apply bind_ok in P as (w2 & P & H).
    assert (F : Forall array_only ([Correlate x d (given (QcZ 100) (a_vmin p)) (given (QcZ 1000) (a_vmax p))] ++ padding p)).
    { apply Forall_app. split; [repeat constructor|apply padding_array_only]. }
    destruct (perform_array_only E _ w2 w F H) as (_ & _ & ->).
    rewrite perform_app in P. apply bind_ok in P as (w1 & H1 & H2).
    apply perform_keeps_snr in H1; [|apply preparation_no_ratio]. unfold ratio in H2. destruct (given false (a_snr p)); cbn [when perform] in H2.
    - rewrite bind_id in H2. cbn [act] in H2. destruct (w_signal w1), (w_noise w1); try discriminate.
      destruct (snr_from_arrays _ _ _ _ _ _ _) as [[s' n'] [r|]]; inversion H2. cbn. eauto.
    - inversion H2; subst. rewrite H1. reflexivity. }
  unfold finish. rewrite !settings_created, item_processing. cbn [bind].
  replace (item (processing p) "transform") with (Ok (JStr (given "fdbf" (a_transform p)))) by reflexivity. cbn [bind str].
  destruct (lookup _ (e_transforms E)) as [c|]; [|reflexivity]. destruct (c (w_array w) (processing p)) as [proc' r]. rewrite put_settings.
  replace (replace_entry (settings p (processing p)) ["processing"] proc') with (settings p proc') by reflexivity.
  f_equal. apply bind_ext; intros t. unfold reported_snr.
  replace (item (settings p proc') "signal-to-noise") with (item (create_settings_dict p) "signal-to-noise") by reflexivity.
  cbn [create_settings_dict item lookup String.eqb Ascii.eqb Bool.eqb bind jbool truth].
  destruct (given false (a_snr p)); [destruct R as [y ->]|rewrite R]; reflexivity.
Qed.
Lemma described_xcorr E f fsrc ch p x d :
  source_signal (K := unit) (fun _ => e_read E) ch fsrc = Ok (x, d) -> x <> [] -> (0 < d)%Qc ->
  given false (a_snr p) = false -> given false (a_trim p) = false -> given false (a_mute p) = false ->
  run_xcorr E f fsrc ch (create_settings_dict p) =
  then_transform E p (do a <- load E f; do b <- from_zero a; perform E (announced p x d (workflow_str TimeDomainXcorr)) (started b)).
Proof.
  intros Hs N D S T M. rewrite (xcorr_result E f fsrc ch p x d Hs N D). unfold announced. rewrite lines_xcorr. cbn [map List.concat].
  replace (_ ++ ratio p ++ _) with
    ([] ++ [] ++ [] ++ [RefuseInside] ++ [KeepOffsets (given f0 (a_min_offset p)) (given PInf (a_max_offset p))] ++ [RemoveTrend] ++
     [Correlate x d (given (QcZ 100) (a_vmin p)) (given (QcZ 1000) (a_vmax p))] ++ when (given false (a_trim p)) [TrimTime (given 0%Qc (a_trim_begin p)) (given 1%Qc (a_trim_end p))] ++
     when (given false (a_mute p)) [MutePicked (given "interactive" (a_method p))] ++ when (given false (a_pad p)) [PadRecords (given 1%Qc (a_df p))] ++ [] ++ []).
  - reflexivity.
  - unfold preparation, ratio, padding. rewrite S, T, M. cbn [when app]. now rewrite app_nil_r.
Qed.
