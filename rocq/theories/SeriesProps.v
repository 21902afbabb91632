(* Properties C01-C11 (single records). *)
From Verif Require Import NumFacts SeriesModel SeriesSpec SeriesProofs.
From Coq Require Import Sorting.Permutation.

Local Notation q n d := (Q2Qc (n # d)).
Local Definition show (r : result Qc) : option Q := match r with Ok x => Some (this x) | Err _ => None end.

(** ** C01 *)
Theorem C01_stack_is_weighted_mean : forall s ts,
  (0 < nstacks s)%Z ->
  Forall (fun t => (0 < nstacks t)%Z /\ compatible s t) ts ->
  exists s', stack_all s ts = (s', Ok tt) /\
    nstacks s' = total_stacks (s :: ts) /\
    dt s' = dt s /\ delay s' = delay s /\ multiple s' = multiple s /\
    length (amp s') = length (amp s) /\
    forall i, i < length (amp s) ->
      nth i (amp s') 0%Qc =
      weighted_mean (map (fun t => (nstacks t, nth i (amp t) 0%Qc)) (s :: ts)).
Proof. exact stack_all_weighted_mean. Qed.
Print Assumptions C01_stack_is_weighted_mean.

Theorem C01_stack_order_irrelevant : forall s ts ts2,
  (0 < nstacks s)%Z ->
  Forall (fun t => (0 < nstacks t)%Z /\ compatible s t) ts ->
  Permutation ts ts2 -> stack_all s ts = stack_all s ts2.
Proof. exact stack_all_order_irrelevant. Qed.
Print Assumptions C01_stack_order_irrelevant.

(** Even the record everything is stacked onto may be exchanged. *)
Theorem C01_stack_base_irrelevant : forall s ts s2 ts2,
  (0 < nstacks s)%Z ->
  Forall (fun t => (0 < nstacks t)%Z /\ compatible s t) ts ->
  Permutation (s :: ts) (s2 :: ts2) ->
  exists a b, stack_all s ts = (a, Ok tt) /\ stack_all s2 ts2 = (b, Ok tt) /\
    amp a = amp b /\ nstacks a = nstacks b /\ dt a = dt b /\ delay a = delay b.
Proof. exact stack_all_perm. Qed.
Print Assumptions C01_stack_base_irrelevant.

Local Definition r1 := mkSeries [q 1 1; q 2 1; q 3 1] (q 1 10) 1 0 1.
Local Definition r2 := mkSeries [q 4 1; q 0 1; q 6 1] (q 1 10) 3 0 1.
Local Definition r3 := mkSeries [q 0 1; q (-8) 1; q 1 1] (q 1 10) 4 0 1.
Example C01_example :
  (0 < nstacks r1)%Z /\ Forall (fun t => (0 < nstacks t)%Z /\ compatible r1 t) [r2; r3] /\
  map this (amp (fst (stack_all r1 [r2; r3]))) = [13 # 8; - (15 # 4); 25 # 8]%Q /\
  nstacks (fst (stack_all r1 [r3; r2])) = 8%Z.
Proof.
  split; [reflexivity|]. split; [|split; vm_compute; reflexivity].
  repeat constructor.
Qed.

(** ** C02 *)
Theorem C02_incompatible_stack_refused : forall s o,
  (snd (stack_append s o) = Ok tt <-> compatible_obj s o) /\
  (~ compatible_obj s o -> stack_append s o = (s, Err ValueError)).
Proof. exact stack_append_refuses. Qed.
Print Assumptions C02_incompatible_stack_refused.

Theorem C02_incompatible_sensor_stack_refused : forall s o,
  (snd (sensor_stack_append s o) = Ok tt <-> compatible_sensor_obj s o) /\
  (~ compatible_sensor_obj s o -> sensor_stack_append s o = (s, Err ValueError)).
Proof. exact sensor_stack_append_refuses. Qed.
Print Assumptions C02_incompatible_sensor_stack_refused.

Example C02_example :
  compatible_obj r1 (ObjSeries r2) /\
  ~ compatible_obj r1 (ObjSeries (mkSeries [q 1 1; q 2 1] (q 1 10) 1 0 1)) /\
  ~ compatible_sensor_obj (mkSensor r1 0 0 0) (ObjSensor (mkSensor r2 1 0 0)) /\
  compatible_sensor_obj (mkSensor r1 1 0 0) (ObjSensor (mkSensor r2 1 0 0)).
Proof.
  split; [repeat constructor|]. split; [intros (_ & _ & H); discriminate H|].
  split; [|repeat constructor]. intros (H & _). apply (f_equal this) in H. discriminate H.
Qed.

(** ** C03 *)
Theorem C03_zero_pad_reaches_grid : forall s df,
  (0 < dt s)%Qc -> (0 < df)%Qc -> (df * dt s < Q2Qc 2)%Qc ->
  exists s' N,
    zero_pad s df = (s', Ok tt) /\
    (0 < N)%Z /\ (Qcabs (1 / (df * dt s) - QcZ N) <= half)%Qc /\
    (1 <= multiple s')%Z /\
    Z.of_nat (length (amp s')) = (multiple s' * N)%Z /\
    (forall k, (1 <= k)%Z -> (Z.of_nat (length (amp s)) <= k * N)%Z ->
               (Z.of_nat (length (amp s')) <= k * N)%Z) /\
    user_df s' = Ok (1 / (QcZ N * dt s))%Qc /\
    (forall M, (0 < M)%Z -> (1 / (df * dt s))%Qc = QcZ M -> user_df s' = Ok df).
Proof. exact zero_pad_grid. Qed.
Print Assumptions C03_zero_pad_reaches_grid.

(** All remaining cases with a non-negative time step. *)
Theorem C03_zero_pad_error_cases : forall s df,
  ((df <= 0)%Qc -> zero_pad s df = (set_multiple s 1, Err ValueError)) /\
  ((0 < df)%Qc -> (0 < dt s)%Qc -> (Q2Qc 2 <= df * dt s)%Qc ->
     zero_pad s df = (set_multiple s 1,
                      if Nat.eqb (length (amp s)) 0 then Ok tt else Err ZeroDivisionError)) /\
  ((0 < df)%Qc -> dt s = 0%Qc -> zero_pad s df = (set_multiple s 1, Err ZeroDivisionError)).
Proof. exact zero_pad_errors. Qed.
Print Assumptions C03_zero_pad_error_cases.

(** Three samples at dt=1/10 s; a 5 Hz step needs blocks of two samples. *)
Example C03_example :
  (0 < dt r1)%Qc /\ (0 < q 5 1)%Qc /\ (q 5 1 * dt r1 < Q2Qc 2)%Qc /\
  map this (amp (fst (zero_pad r1 (q 5 1)))) = [1; 2; 3; 0]%Q /\
  multiple (fst (zero_pad r1 (q 5 1))) = 2%Z /\
  show (user_df (fst (zero_pad r1 (q 5 1)))) = Some (5 # 1)%Q /\
  show (user_df (fst (zero_pad r1 (q 1 1)))) = Some (1 # 1)%Q.
Proof. repeat split; vm_compute; reflexivity. Qed.

(** ** C04 *)
Theorem C04_padding_history_appends_zeros : forall dfs s, exists k m,
  pads s dfs = mkSeries (amp s ++ repeat 0%Qc k) (dt s) (nstacks s) (delay s) m.
Proof. exact pads_prefix. Qed.
Print Assumptions C04_padding_history_appends_zeros.

Theorem C04_last_request_wins : forall s dfs df,
  (0 < dt s)%Qc -> (0 < df)%Qc -> (df * dt s < Q2Qc 2)%Qc ->
  user_df (pads s (dfs ++ [df])) =
  Ok (1 / (QcZ (round_half_even (1 / (df * dt s))) * dt s))%Qc.
Proof. exact pads_last. Qed.
Print Assumptions C04_last_request_wins.

Theorem C04_zero_pad_idempotent : forall s df s',
  (0 < dt s)%Qc -> zero_pad s df = (s', Ok tt) -> zero_pad s' df = (s', Ok tt).
Proof. exact zero_pad_idem. Qed.
Print Assumptions C04_zero_pad_idempotent.

Example C04_example :
  show (user_df (pads r1 [q 1 1; q 0 1; q 3 1; q 5 2])) = Some (5 # 2)%Q /\
  snd (zero_pad r1 (q 3 1)) = Ok tt /\
  length (amp (pads r1 [q 1 1; q 0 1; q 3 1; q 5 2])) = 12.
Proof. repeat split; vm_compute; reflexivity. Qed.

(** ** C05 *)
(** Full property: [zero_pad s df = (s', Err e) -> s' = s].  It is false:
    `_multiple` is reset before the argument is checked. *)
Theorem C05_failed_zero_pad_refuted : exists s df s' e,
  reachable s /\ zero_pad s df = (s', Err e) /\ user_df s' <> user_df s.
Proof.
  exists (pads (mkSeries [q 1 1; q 2 1; q 3 1; q 4 1] 1 1 0 1) [q 1 2]), 0%Qc.
  eexists _, _. split; [|split; [vm_compute; reflexivity|]].
  - exists [q 1 1; q 2 1; q 3 1; q 4 1], 1%Qc, 1%Z, 0%Qc. eexists _, [OpPad (q 1 2)].
    split; [vm_compute; reflexivity|]. split; [reflexivity|].
    split; [repeat constructor|]. vm_compute. reflexivity.
  - intro H. apply (f_equal show) in H. vm_compute in H. discriminate H.
Qed.
Print Assumptions C05_failed_zero_pad_refuted.

(** What does hold: only `multiple` (hence the reported frequency step) is
    lost; missing from the full property: that one attribute. *)
Theorem C05_failed_zero_pad_partial : forall s df s' e,
  (0 < dt s)%Qc -> zero_pad s df = (s', Err e) -> s' = set_multiple s 1.
Proof. exact zero_pad_fail_state. Qed.
Print Assumptions C05_failed_zero_pad_partial.

Example C05_example : (0 < dt r1)%Qc /\ snd (zero_pad r1 (q (-1) 1)) = Err ValueError
  /\ snd (zero_pad r1 (q 30 1)) = Err ZeroDivisionError.
Proof. repeat split; vm_compute; reflexivity. Qed.

(** ** C06 *)
Theorem C06_trim_keeps_interval : forall s st en,
  (0 < dt s)%Qc -> 0 < length (amp s) -> in_span s st en ->
  exists i j, nearest_sample s st i /\ nearest_sample s en j /\ i <= j /\
    trim s st en =
    (mkSeries (firstn (j + 1 - i) (skipn i (amp s))) (dt s) (nstacks s) st (multiple s), Ok tt).
Proof. exact trim_ok. Qed.
Print Assumptions C06_trim_keeps_interval.

Theorem C06_trim_refuses : forall s st en,
  (0 < dt s)%Qc -> 0 < length (amp s) -> ~ in_span s st en ->
  trim s st en = (s, Err IndexError).
Proof. exact trim_refused. Qed.
Print Assumptions C06_trim_refuses.

Theorem C06_failed_trim_changes_nothing : forall s st en s' e,
  trim s st en = (s', Err e) -> s' = s.
Proof. exact trim_fail_state. Qed.
Print Assumptions C06_failed_trim_changes_nothing.

Local Definition r5 := mkSeries [q 1 1; q 2 1; q 3 1; q 4 1; q 5 1] (q 1 2) 1 (q (-1) 1) 1.
Example C06_example :
  (0 < dt r5)%Qc /\ 0 < length (amp r5) /\ in_span r5 (q (-3) 5) (q 2 5) /\
  map this (amp (fst (trim r5 (q (-3) 5) (q 2 5)))) = [2; 3; 4]%Q /\
  ~ in_span r5 (q (-3) 5) (q 6 5).
Proof.
  split; [reflexivity|]. split; [simpl; lia|].
  split; [unfold in_span; repeat split; vm_compute; congruence|].
  split; [vm_compute; reflexivity|]. intros (_ & _ & H). vm_compute in H. congruence.
Qed.

(** ** C07 *)
(** Full property: a retained sample keeps its time.  False off the grid. *)
Theorem C07_trim_moves_samples_refuted : exists s st en s' i k,
  trim s st en = (s', Ok tt) /\ nearest_sample s st i /\ k < length (amp s') /\
  nth k (amp s') 0%Qc = nth (i + k) (amp s) 0%Qc /\ time_at s' k <> time_at s (i + k).
Proof.
  exists r5, (q (-3) 5), (q 2 5). eexists _, 1, 0.
  split; [vm_compute; reflexivity|]. split; [|split; [|split]].
  - apply argmin_dist. vm_compute. reflexivity.
  - vm_compute; lia.
  - vm_compute; reflexivity.
  - intro H. apply (f_equal this) in H. vm_compute in H. discriminate H.
Qed.
Print Assumptions C07_trim_moves_samples_refuted.

(** Start on the sampling grid: every retained sample keeps its time. *)
Theorem C07_trim_on_grid_partial : forall s en s' i,
  (0 < dt s)%Qc -> i < length (amp s) -> trim s (time_at s i) en = (s', Ok tt) ->
  forall k, k < length (amp s') ->
    nth k (amp s') 0%Qc = nth (i + k) (amp s) 0%Qc /\ time_at s' k = time_at s (i + k).
Proof. exact trim_on_grid. Qed.
Print Assumptions C07_trim_on_grid_partial.

(** In general: all labels move by the same amount, at most half a time step. *)
Theorem C07_trim_label_error_partial : forall s st en s',
  (0 < dt s)%Qc -> trim s st en = (s', Ok tt) ->
  exists i, nearest_sample s st i /\ 0 < length (amp s') /\
    (forall k, k < length (amp s') -> nth k (amp s') 0%Qc = nth (i + k) (amp s) 0%Qc) /\
    (forall k, (time_at s' k - time_at s (i + k) = st - time_at s i)%Qc) /\
    (Qcabs (st - time_at s i) <= half * dt s)%Qc.
Proof. exact trim_times. Qed.
Print Assumptions C07_trim_label_error_partial.

Example C07_example :
  (0 < dt r5)%Qc /\ 2 < length (amp r5) /\ snd (trim r5 (time_at r5 2) (q 1 1)) = Ok tt /\
  map this (amp (fst (trim r5 (time_at r5 2) (q 1 1)))) = [3; 4; 5]%Q.
Proof. repeat split; vm_compute; try reflexivity; lia. Qed.

(** ** C08 *)
(** Full property: every reachable record has a faithful copy.  False: a trim
    starting after time zero leaves a positive delay, which the constructor
    refuses; and the frequency step of a padded record is lost. *)
Theorem C08_copy_after_trim_refuted : exists s, reachable s /\ copy_series s = Err ValueError.
Proof.
  exists (fst (trim (mkSeries [q 1 1; q 2 1; q 3 1] 1 1 0 1) (q 1 1) (q 2 1))).
  split; [|vm_compute; reflexivity].
  exists [q 1 1; q 2 1; q 3 1], 1%Qc, 1%Z, 0%Qc. eexists _, [OpTrim (q 1 1) (q 2 1)].
  split; [vm_compute; reflexivity|]. split; [reflexivity|].
  split; [repeat constructor|]. vm_compute. reflexivity.
Qed.
Print Assumptions C08_copy_after_trim_refuted.

Theorem C08_copy_after_pad_refuted : exists s c,
  reachable s /\ copy_series s = Ok c /\ user_df c <> user_df s.
Proof.
  exists (fst (zero_pad (mkSeries [q 1 1; q 2 1; q 3 1; q 4 1] 1 1 0 1) (q 1 2))). eexists.
  split; [|split; [vm_compute; reflexivity|]].
  - exists [q 1 1; q 2 1; q 3 1; q 4 1], 1%Qc, 1%Z, 0%Qc. eexists _, [OpPad (q 1 2)].
    split; [vm_compute; reflexivity|]. split; [reflexivity|].
    split; [repeat constructor|]. vm_compute. reflexivity.
  - intro H. apply (f_equal show) in H. vm_compute in H. discriminate H.
Qed.
Print Assumptions C08_copy_after_pad_refuted.

(** Copies are faithful for every reachable record with a non-positive delay
    and no pending frequency multiple; otherwise exactly these two things go
    wrong. *)
Theorem C08_copy_partial : forall s, reachable s ->
  (((delay s <= 0)%Qc -> multiple s = 1%Z ->
     exists c, copy_series s = Ok c /\ faithful_copy s c /\ series_eq c (ObjSeries s) = true)) /\
  ((delay s <= 0)%Qc -> copy_series s = Ok (set_multiple s 1)) /\
  ((0 < delay s)%Qc -> copy_series s = Err ValueError).
Proof. exact copy_reachable. Qed.
Print Assumptions C08_copy_partial.

Example C08_example : reachable r1 /\ (delay r1 <= 0)%Qc /\ multiple r1 = 1%Z.
Proof.
  split; [|split; [vm_compute; congruence|reflexivity]].
  exists (amp r1), (dt r1), 1%Z, 0%Qc, r1, []. repeat split; try constructor; vm_compute; reflexivity.
Qed.

(** ** C09 *)
Theorem C09_best_lag : forall ex a b,
  series_similar ex a b = true -> length (amp a) = length (amp b) -> 0 < length (amp b) ->
  exists k out, crosscorr_shift ex a b = Ok (k, out) /\
    (Z.abs k < Z.of_nat (length (amp b)))%Z /\
    length out = length (amp b) /\
    (forall i, i < length (amp b) -> nth i out 0%Qc = delayed k (amp b) i) /\
    (forall k', (Z.abs k' < Z.of_nat (length (amp b)))%Z ->
        (similarity (amp a) (amp b) k' <= similarity (amp a) (amp b) k)%Qc) /\
    (forall k', (Z.abs k' < Z.of_nat (length (amp b)))%Z -> (k' < k)%Z ->
        (similarity (amp a) (amp b) k' < similarity (amp a) (amp b) k)%Qc).
Proof. exact crosscorr_shift_best. Qed.
Print Assumptions C09_best_lag.

Theorem C09_dissimilar_refused : forall ex a b,
  series_similar ex a b = false -> crosscorr_shift ex a b = Err ValueError.
Proof. exact crosscorr_shift_refused. Qed.
Print Assumptions C09_dissimilar_refused.

Local Definition w1 := mkSeries [q 0 1; q 1 1; q 5 1; q 1 1; q 0 1; q 0 1] 1 1 0 1.
Local Definition w2 := mkSeries [q 0 1; q 0 1; q 0 1; q 1 1; q 5 1; q 1 1] 1 1 0 1.
Example C09_example : series_similar [] w1 w2 = true /\ length (amp w1) = length (amp w2) /\
  match crosscorr_shift [] w1 w2 with
  | Ok (k, out) => k = (-2)%Z /\ map this out = [0; 1; 5; 1; 0; 0]%Q
  | Err _ => False
  end.
Proof. repeat split; vm_compute; reflexivity. Qed.

(** ** C10 *)
Theorem C10_cross_stack_averages_aligned : forall a b,
  (1 <= nstacks a)%Z -> (1 <= nstacks b)%Z -> compatible a b -> (delay a <= 0)%Qc ->
  0 < length (amp a) ->
  exists r k, from_cross_stack a b = Ok r /\
    (Z.abs k < Z.of_nat (length (amp b)))%Z /\
    (forall k', (Z.abs k' < Z.of_nat (length (amp b)))%Z ->
        (similarity (amp a) (amp b) k' <= similarity (amp a) (amp b) k)%Qc) /\
    nstacks r = (nstacks a + nstacks b)%Z /\ dt r = dt a /\ delay r = delay a /\
    length (amp r) = length (amp a) /\
    forall i, i < length (amp a) ->
      nth i (amp r) 0%Qc =
      weighted_mean [(nstacks a, nth i (amp a) 0%Qc); (nstacks b, delayed k (amp b) i)].
Proof. exact from_cross_stack_ok. Qed.
Print Assumptions C10_cross_stack_averages_aligned.

Theorem C10_cross_stack_refuses_otherwise : forall a b,
  (1 <= nstacks a)%Z -> (1 <= nstacks b)%Z ->
  ~ (compatible a b /\ (delay a <= 0)%Qc /\ 0 < length (amp a)) ->
  from_cross_stack a b = Err ValueError.
Proof. exact from_cross_stack_refused. Qed.
Print Assumptions C10_cross_stack_refuses_otherwise.

Example C10_example :
  compatible w1 w2 /\ (delay w1 <= 0)%Qc /\
  match from_cross_stack w1 w2 with
  | Ok r => nstacks r = 2%Z /\ map this (amp r) = [0; 1; 5; 1; 0; 0]%Q
  | Err _ => False
  end /\
  ~ (compatible r1 r5 /\ (delay r1 <= 0)%Qc /\ 0 < length (amp r1)).
Proof.
  split; [repeat constructor|]. split; [vm_compute; congruence|].
  split; [vm_compute; auto|]. intros [[_ [_ H]] _]. discriminate H.
Qed.

(** ** C11 *)
Theorem C11_equality_reflexive_partial : forall s, series_eq s (ObjSeries s) = true.
Proof. exact series_eq_refl. Qed.
Print Assumptions C11_equality_reflexive_partial.
Theorem C11_sensor_equality_reflexive_partial : forall s, sensor_eq s (ObjSensor s) = true.
Proof. exact sensor_eq_refl. Qed.
Print Assumptions C11_sensor_equality_reflexive_partial.
Theorem C11_equality_characterised_partial : forall s t,
  series_eq s (ObjSeries t) = true <->
  dt s = dt t /\ nstacks s = nstacks t /\ delay s = delay t /\ length (amp s) = length (amp t) /\
  forall i, i < length (amp s) ->
    (Qcabs (nth i (amp s) 0 - nth i (amp t) 0) <= atol + rtol * Qcabs (nth i (amp t) 0))%Qc.
Proof. exact series_eq_spec. Qed.
Print Assumptions C11_equality_characterised_partial.

(** Symmetry fails: the tolerance is relative to the right operand. *)
Theorem C11_equality_symmetric_refuted : exists s t,
  reachable s /\ reachable t /\
  series_eq s (ObjSeries t) = true /\ series_eq t (ObjSeries s) = false.
Proof.
  exists (mkSeries [1%Qc] 1 1 0 1), (mkSeries [(1 + q 10010000005 1000000000000000)%Qc] 1 1 0 1).
  split; [|split; [|split; vm_compute; reflexivity]].
  - exists [1%Qc], 1%Qc, 1%Z, 0%Qc. eexists _, []. repeat split; vm_compute; try reflexivity; constructor.
  - exists [(1 + q 10010000005 1000000000000000)%Qc], 1%Qc, 1%Z, 0%Qc. eexists _, [].
    split; [cbv [new_series]; reflexivity|]. split; [reflexivity|]. split; [constructor|reflexivity].
Qed.
Print Assumptions C11_equality_symmetric_refuted.

(** Transitivity fails too. *)
Theorem C11_equality_transitive_refuted : exists s t u,
  series_eq s (ObjSeries t) = true /\ series_eq t (ObjSeries u) = true /\
  series_eq s (ObjSeries u) = false.
Proof.
  exists (mkSeries [q 0 1] 1 1 0 1), (mkSeries [q 1 100000000] 1 1 0 1), (mkSeries [q 2 100000000] 1 1 0 1).
  repeat split; vm_compute; reflexivity.
Qed.
Print Assumptions C11_equality_transitive_refuted.

(** ** Every reachable record is well formed (used by several properties). *)
Theorem C02_reachable_records_have_positive_stack_count : forall s,
  reachable s -> (1 <= nstacks s)%Z /\ (0 < dt s)%Qc.
Proof. exact reachable_valid. Qed.
Print Assumptions C02_reachable_records_have_positive_stack_count.
