(* Properties C05, C08, C11 (arrays), C15-C18, C21-C24, C69, C70, C72. *)
From Verif Require Import NumFacts SeriesModel SeriesSpec SeriesProofs.
From Verif Require Import ArrayModel ArraySpec ArrayProofs ArrayMuteProofs ArrayMatrixProofs DetrendProofs.

Local Notation q n d := (Q2Qc (n # d)).
Local Notation z n := (Q2Qc (n # 1)).
Local Definition rec (l : list Z) : list Qc := map QcZ l.
Local Definition sen (x : Z) (l : list Z) : sensor := mkSensor (mkSeries (rec l) (q 1 10) 1 0 1) (QcZ x) 0 0.
Local Definition src0 (x : Z) : source := mkSource (QcZ x) 0 0.

(** ** C15 *)
Theorem C15_array_construction : forall l s,
  ((exists a, new_array l s = Ok a) <->
     l <> [] /\ (forall u v, In u l -> In v l -> agree u v) /\ NoDup (map sx l)) /\
  (forall a, new_array l s = Ok a ->
     Permutation (sensors a) l /\ increasing (map sx (sensors a)) /\ src a = s).
Proof.
  intros l s. split; [exact (new_array_iff l s)|].
  intros a H. destruct (new_array_spec l s a H) as ((_ & S & _) & P & E). auto.
Qed.
Print Assumptions C15_array_construction.

Theorem C15_order_irrelevant : forall l m s a,
  Permutation l m -> new_array l s = Ok a -> new_array m s = Ok a.
Proof. exact new_array_order. Qed.
Print Assumptions C15_order_irrelevant.

(** Which exception: IndexError without sensors, ValueError otherwise. *)
Theorem C15_refusal : forall l s,
  ~ (l <> [] /\ (forall u v, In u l -> In v l -> agree u v) /\ NoDup (map sx l)) ->
  new_array l s = Err (match l with [] => IndexError | _ => ValueError end).
Proof. exact new_array_err. Qed.
Print Assumptions C15_refusal.

Example C15_example :
  match new_array [sen 4 [1; 2]%Z; sen 0 [3; 4]%Z; sen 2 [5; 6]%Z] (src0 (-5)) with
  | Ok a => map (fun s => this (sx s)) (sensors a) = [0; 2; 4]%Q
  | Err _ => False
  end /\
  new_array [sen 4 [1; 2]%Z; sen 4 [3; 4]%Z] (src0 0) = Err ValueError /\
  new_array [sen 4 [1; 2]%Z; sen 5 [3]%Z] (src0 0) = Err ValueError.
Proof. vm_compute. auto. Qed.

(** ** C16 *)
(** Proved for every history, failed calls included; what is missing is the
    agreement of the frequency steps after a failed zero_pad (refuted below). *)
Theorem C16_array_consistency_partial : forall l s a0 ops,
  new_array l s = Ok a0 -> consistent (array_run a0 ops) /\ src (array_run a0 ops) = s.
Proof.
  intros l s a0 ops H. destruct (new_array_spec l s a0 H) as (C & _ & <-).
  exact (array_run_consistent ops a0 C).
Qed.
Print Assumptions C16_array_consistency_partial.

Theorem C16_frequency_step_partial : forall l s a0 ops,
  Forall sensor_ok l -> new_array l s = Ok a0 -> pads_succeed a0 ops -> same_step (array_run a0 ops).
Proof. exact constructed_same_step. Qed.
Print Assumptions C16_frequency_step_partial.

(** zero_pad resets `_multiple` of the first sensor before checking df. *)
Local Definition a16 : array := mkArray [sen 0 [1; 2; 3; 4]%Z; sen 2 [5; 6; 7; 8]%Z] (src0 (-5)).
Local Definition ops16 : list array_op := [ArrPad (z 5); ArrPad 0].
Theorem C16_frequency_step_refuted : exists l s a0 ops,
  Forall sensor_ok l /\ new_array l s = Ok a0 /\ ~ same_step (array_run a0 ops).
Proof.
  exists [sen 0 [1; 2; 3; 4]%Z; sen 2 [5; 6; 7; 8]%Z], (src0 (-5)), a16, ops16.
  split; [|split].
  - repeat constructor; try (vm_compute; reflexivity); try (vm_compute; discriminate).
  - reflexivity.
  - intros H.
    assert (K := H (hd (sen 0 []) (sensors (array_run a16 ops16))) (last (sensors (array_run a16 ops16)) (sen 0 []))).
    assert (E : user_df (ser (hd (sen 0 []) (sensors (array_run a16 ops16)))) =
                user_df (ser (last (sensors (array_run a16 ops16)) (sen 0 []))))
      by (apply K; vm_compute; auto).
    vm_compute in E. discriminate E.
Qed.
Print Assumptions C16_frequency_step_refuted.

Example C16_example :
  pads_succeed a16 [ArrPad (z 5); ArrTrim 0 (q 2 10); ArrOffsets 0 (z 6); ArrDetrend] /\
  length (sensors (array_run a16 [ArrPad (z 5); ArrTrim 0 (q 2 10); ArrOffsets 0 (z 6); ArrDetrend])) = 1%nat.
Proof. vm_compute. auto 10. Qed.

(** ** C17 *)
(** Missing: a source exactly at the last receiver (refuted below).  Sources
    strictly inside the array are refused by the workflows (C58). *)
Theorem C17_near_to_far_partial : forall a m offs, consistent a ->
  (src_x (src a) <= first_x a)%Qc \/ (last_x a < src_x (src a))%Qc ->
  flipped a = (m, offs) ->
  exists order, Permutation order (sensors a) /\
    m = map (fun s => amp (ser s)) order /\ offs = map (dist a) order /\ increasing offs.
Proof. exact flipped_spec. Qed.
Print Assumptions C17_near_to_far_partial.

Theorem C17_source_at_last_receiver_refuted : exists a,
  consistent a /\ source_inside a = false /\ ~ increasing (snd (flipped a)).
Proof.
  exists (mkArray [sen 0 [1; 2]%Z; sen 2 [5; 6]%Z; sen 4 [7; 8]%Z] (src0 4)).
  split; [|split; [reflexivity|]].
  - apply (new_array_spec [sen 0 [1; 2]%Z; sen 2 [5; 6]%Z; sen 4 [7; 8]%Z] (src0 4)). reflexivity.
  - intros H. inversion H as [|? ? _ F]; subst. inversion F as [|? ? L _]; subst.
    vm_compute in L. discriminate L.
Qed.
Print Assumptions C17_source_at_last_receiver_refuted.

Example C17_example :
  map this (snd (flipped (mkArray [sen 0 [1; 2]%Z; sen 2 [5; 6]%Z] (src0 9)))) = [7; 9]%Q /\
  map (map this) (fst (flipped (mkArray [sen 0 [1; 2]%Z; sen 2 [5; 6]%Z] (src0 9)))) = [[5; 6]; [1; 2]]%Q.
Proof. vm_compute. auto. Qed.

(** ** C18 *)
(** Proved for sources at or left of the first receiver and for maxima that
    exceed no receiver, with exclusive bounds; the inclusive bounds and the
    other source positions are refuted below. *)
Theorem C18_trim_offsets_partial : forall a mn mx, consistent a ->
  (src_x (src a) <= first_x a)%Qc \/ Forall (fun s => (dist a s <= mx)%Qc) (sensors a) ->
  trim_offsets a mn mx =
  match filter (fun s => Qcltb mn (dist a s) && Qcltb (dist a s) mx) (sensors a) with
  | [] => (a, Err ValueError)
  | l => (mkArray l (src a), Ok tt)
  end.
Proof. exact trim_offsets_spec. Qed.
Print Assumptions C18_trim_offsets_partial.

(** Whatever the source position: a sub-sequence of the receivers, untouched. *)
Theorem C18_only_removes_partial : forall a mn mx, exists keep,
  length keep = length (sensors a) /\
  trim_offsets a mn mx =
  match select keep (sensors a) with
  | [] => (a, Err ValueError)
  | l => (mkArray l (src a), Ok tt)
  end.
Proof. exact trim_offsets_sub. Qed.
Print Assumptions C18_only_removes_partial.

(** With the source on the right the first receiver is the farthest one and the
    loop stops there: receivers in range are lost. *)
Theorem C18_source_right_refuted : exists a mn mx s,
  consistent a /\ source_inside a = false /\ In s (sensors a) /\
  (mn < dist a s)%Qc /\ (dist a s < mx)%Qc /\ trim_offsets a mn mx = (a, Err ValueError).
Proof.
  exists (mkArray [sen 0 [1; 2]%Z; sen 2 [5; 6]%Z; sen 4 [7; 8]%Z] (src0 9)), (z 1), (z 8), (sen 4 [7; 8]%Z).
  split; [|split; [reflexivity|split; [cbn; auto|split; [reflexivity|split; reflexivity]]]].
  apply (new_array_spec [sen 0 [1; 2]%Z; sen 2 [5; 6]%Z; sen 4 [7; 8]%Z] (src0 9)). reflexivity.
Qed.
Print Assumptions C18_source_right_refuted.

(** Receivers exactly at the minimum or maximum are removed. *)
Theorem C18_inclusive_bounds_refuted : exists a mn mx s,
  consistent a /\ (src_x (src a) <= first_x a)%Qc /\ In s (sensors a) /\
  (mn <= dist a s)%Qc /\ (dist a s <= mx)%Qc /\
  ~ In s (sensors (fst (trim_offsets a mn mx))) /\ snd (trim_offsets a mn mx) = Ok tt.
Proof.
  exists (mkArray [sen 0 [1; 2]%Z; sen 2 [5; 6]%Z; sen 4 [7; 8]%Z] (src0 0)), 0%Qc, (z 4), (sen 0 [1; 2]%Z).
  split; [|split; [|split; [cbn; auto|split; [|split; [|split; [|reflexivity]]]]]].
  - apply (new_array_spec [sen 0 [1; 2]%Z; sen 2 [5; 6]%Z; sen 4 [7; 8]%Z] (src0 0)). reflexivity.
  - vm_compute. discriminate.
  - vm_compute. discriminate.
  - vm_compute. discriminate.
  - intros H. apply (in_map (fun s => this (sx s))) in H. vm_compute in H.
    destruct H as [H|[]]. discriminate H.
Qed.
Print Assumptions C18_inclusive_bounds_refuted.

Example C18_example :
  map (fun s => this (sx s)) (sensors (fst (trim_offsets
    (mkArray [sen 0 [1; 2]%Z; sen 2 [5; 6]%Z; sen 4 [7; 8]%Z; sen 6 [7; 8]%Z] (src0 (-1))) (z 1) (z 6)))) = [2; 4]%Q.
Proof. reflexivity. Qed.

(** ** C21 *)
(** Proved for windows inside the record and non-positive delays; the window
    begins with the sample interval containing the start line.  Missing: a
    record trimmed to a positive start time and the last sample when no end
    line is given (both refuted below). *)
Theorem C21_mute_partial : forall a taper ss se,
  consistent a -> (forall M, length (taper M) = M) -> lines_slanted ss se ->
  (forall s, In s (sensors a) -> (0 < dt (ser s))%Qc /\ (delay (ser s) <= 0)%Qc /\ amp (ser s) <> [] /\
     exists ts te, mute_window ss se s ts te /\ window_fits s ts te) ->
  exists a', mute a taper ss se = (a', Ok tt) /\ src a' = src a /\
    Forall2 (fun s s' => only_samples_change s s' /\
       forall ts te i, mute_window ss se s ts te -> i < length (amp (ser s)) ->
         ((time_at (ser s) i + dt (ser s) <= ts)%Qc -> nth i (amp (ser s')) 0%Qc = 0%Qc) /\
         ((te <= time_at (ser s) i)%Qc -> nth i (amp (ser s')) 0%Qc = 0%Qc) /\
         ((forall M v, In v (taper M) -> (0 <= v)%Qc /\ (v <= 1)%Qc) ->
            (Qcabs (nth i (amp (ser s')) 0) <= Qcabs (nth i (amp (ser s)) 0))%Qc) /\
         ((forall M v, In v (taper M) -> v = 1%Qc) ->
            (ts <= time_at (ser s) i)%Qc -> (time_at (ser s) i + dt (ser s) <= te)%Qc ->
            nth i (amp (ser s')) 0%Qc = nth i (amp (ser s)) 0%Qc)) (sensors a) (sensors a').
Proof. exact mute_observable. Qed.
Print Assumptions C21_mute_partial.

(** The exact effect: the taper is laid between the two sample intervals. *)
Theorem C21_mute_exact_partial : forall a taper ss se,
  consistent a -> (forall M, length (taper M) = M) -> lines_slanted ss se ->
  (forall s, In s (sensors a) -> (0 < dt (ser s))%Qc /\ (delay (ser s) <= 0)%Qc /\ amp (ser s) <> [] /\
     exists ts te, mute_window ss se s ts te /\ window_fits s ts te) ->
  exists a', mute a taper ss se = (a', Ok tt) /\ src a' = src a /\
    Forall2 (fun s s' => only_samples_change s s' /\
       forall ts te, mute_window ss se s ts te ->
         exists i0 i1, at_sample s ts i0 /\ at_sample s te i1 /\ i0 <= i1 <= length (amp (ser s)) /\
           muted taper s s' i0 i1) (sensors a) (sensors a').
Proof. exact mute_exact. Qed.
Print Assumptions C21_mute_exact_partial.

Local Definition box (M : nat) : list Qc := repeat 1%Qc M.
Local Definition a21 : array := mkArray [sen 0 [1; 2; 3; 4; 5; 6]%Z; sen 2 [5; 6; 7; 8; 9; 10]%Z] (src0 (-5)).
Local Definition l21 : line := ((0%Qc, q 1 10), (z 2, q 2 10)).
Local Definition e21 : line := ((0%Qc, q 4 10), (z 2, q 5 10)).
Local Definition samples (a : array) : list (list Q) := map (fun s => map this (amp (ser s))) (sensors a).
Example C21_example :
  consistent a21 /\ lines_slanted (Some l21) (Some e21) /\
  (forall s, In s (sensors a21) -> (0 < dt (ser s))%Qc /\ (delay (ser s) <= 0)%Qc /\ amp (ser s) <> [] /\
     exists ts te, mute_window (Some l21) (Some e21) s ts te /\ window_fits s ts te) /\
  samples (fst (mute a21 box (Some l21) (Some e21))) = [[0; 2; 3; 4; 0; 0]; [0; 0; 7; 8; 9; 0]]%Q.
Proof.
  assert (S1 : slanted l21) by (intros H; apply (f_equal this) in H; discriminate H).
  assert (S2 : slanted e21) by (intros H; apply (f_equal this) in H; discriminate H).
  split; [|split; [split; assumption|split]].
  - apply (new_array_spec [sen 0 [1; 2; 3; 4; 5; 6]%Z; sen 2 [5; 6; 7; 8; 9; 10]%Z] (src0 (-5))). reflexivity.
  - intros s [<-|[<-|[]]]; (split; [reflexivity|split; [vm_compute; discriminate|split; [discriminate|]]]).
    + exists (q 1 10), (q 4 10). repeat split; auto; try (apply Qc_is_canon; reflexivity); vm_compute; discriminate.
    + exists (q 2 10), (q 5 10). repeat split; auto; try (apply Qc_is_canon; reflexivity); vm_compute; discriminate.
  - vm_compute. reflexivity.
Qed.

(** Only a start line: the last sample, which is after the line, is zeroed. *)
Theorem C21_last_sample_refuted : exists a taper ss s s',
  consistent a /\ (forall M, length (taper M) = M) /\ (forall M v, In v (taper M) -> v = 1%Qc) /\
  snd (mute a taper (Some ss) None) = Ok tt /\
  nth_error (sensors a) 0 = Some s /\ nth_error (sensors (fst (mute a taper (Some ss) None))) 0 = Some s' /\
  (exists ts, on_line ss (sx s) ts /\ (ts <= time_at (ser s) 5)%Qc) /\ 5 < length (amp (ser s)) /\
  nth 5 (amp (ser s)) 0%Qc <> 0%Qc /\ nth 5 (amp (ser s')) 0%Qc = 0%Qc.
Proof.
  exists a21, box, l21. eexists. eexists.
  split; [|split; [|split; [|split; [|split; [reflexivity|split; [reflexivity|split; [|split; [|split]]]]]]]].
  - apply (new_array_spec [sen 0 [1; 2; 3; 4; 5; 6]%Z; sen 2 [5; 6; 7; 8; 9; 10]%Z] (src0 (-5))). reflexivity.
  - intros M. apply repeat_length.
  - intros M v H. now apply repeat_spec in H.
  - vm_compute. reflexivity.
  - exists (q 1 10). split; [apply Qc_is_canon; reflexivity|vm_compute; discriminate].
  - cbn; lia.
  - intros H. apply (f_equal this) in H. vm_compute in H. discriminate H.
  - apply Qc_is_canon. vm_compute. reflexivity.
Qed.
Print Assumptions C21_last_sample_refuted.

(** A record that was trimmed to start at 0.2 s: the start line at 0.3 s and the
    end line at 0.5 s silence the sample at 0.4 s, which is inside, and keep the
    one at 0.7 s, which is outside: |delay| is added where it must be
    subtracted. *)
Local Definition a21b : array := fst (array_trim (mkArray [sen 0 [1; 2; 3; 4; 5; 6; 7; 8; 9; 10]%Z;
   sen 2 [1; 2; 3; 4; 5; 6; 7; 8; 9; 10]%Z] (src0 (-5))) (q 2 10) (q 9 10)).
Local Definition flat (t : Qc) : line := ((0%Qc, t), (z 2, t)).
Theorem C21_positive_delay_refuted : exists a taper ts te s s',
  array_reachable a /\ (forall M, length (taper M) = M) /\ (forall M v, In v (taper M) -> v = 1%Qc) /\
  snd (mute a taper (Some (flat ts)) (Some (flat te))) = Ok tt /\
  nth_error (sensors a) 0 = Some s /\
  nth_error (sensors (fst (mute a taper (Some (flat ts)) (Some (flat te))))) 0 = Some s' /\
  (exists i, i < length (amp (ser s)) /\ (ts <= time_at (ser s) i)%Qc /\ (time_at (ser s) i + dt (ser s) <= te)%Qc /\
     nth i (amp (ser s)) 0%Qc <> 0%Qc /\ nth i (amp (ser s')) 0%Qc = 0%Qc) /\
  (exists i, i < length (amp (ser s)) /\ (te <= time_at (ser s) i)%Qc /\ nth i (amp (ser s')) 0%Qc <> 0%Qc).
Proof.
  exists a21b, box, (q 3 10), (q 5 10). eexists. eexists.
  split; [|split; [|split; [|split; [reflexivity|split; [reflexivity|split; [reflexivity|split]]]]]].
  - exists (sensors (mkArray [sen 0 [1; 2; 3; 4; 5; 6; 7; 8; 9; 10]%Z; sen 2 [1; 2; 3; 4; 5; 6; 7; 8; 9; 10]%Z] (src0 (-5)))),
      (src0 (-5)), (mkArray [sen 0 [1; 2; 3; 4; 5; 6; 7; 8; 9; 10]%Z; sen 2 [1; 2; 3; 4; 5; 6; 7; 8; 9; 10]%Z] (src0 (-5))),
      [ArrTrim (q 2 10) (q 9 10)].
    split; [|split; [reflexivity|reflexivity]].
    repeat constructor; try (vm_compute; reflexivity); try (vm_compute; discriminate).
  - intros M. apply repeat_length.
  - intros M v H. now apply repeat_spec in H.
  - exists 2%nat. split; [vm_compute; lia|]. split; [vm_compute; discriminate|]. split; [vm_compute; discriminate|].
    split; [intros H; apply (f_equal this) in H; vm_compute in H; discriminate H|].
    apply Qc_is_canon; vm_compute; reflexivity.
  - exists 5%nat. split; [vm_compute; lia|]. split; [vm_compute; discriminate|].
    intros H; apply (f_equal this) in H; vm_compute in H; discriminate H.
Qed.
Print Assumptions C21_positive_delay_refuted.

(** Error branches: a vertical line divides by zero and changes nothing. *)
Theorem C21_vertical_line : forall a taper se l s0 t,
  sensors a = s0 :: t -> dt (ser s0) <> 0%Qc -> ~ slanted l ->
  mute a taper (Some l) se = (a, Err ZeroDivisionError) /\
  (match se with Some m => slanted m | None => True end ->
   mute a taper se (Some l) = (a, Err ZeroDivisionError)).
Proof. exact mute_vertical. Qed.
Print Assumptions C21_vertical_line.

(** ** C22 *)
Theorem C22_matrix_plain : forall a dtr, sensors a <> [] ->
  timeseriesmatrix a dtr NormNone =
  Ok (map (fun s => map Fin (if dtr then detrend (amp (ser s)) else amp (ser s))) (sensors a)).
Proof. exact matrix_none. Qed.
Print Assumptions C22_matrix_plain.

(** Rows whose largest magnitude is zero become NaN. *)
Theorem C22_matrix_each : forall a dtr, sensors a <> [] ->
  (forall s, In s (sensors a) -> amp (ser s) <> []) ->
  exists rows, timeseriesmatrix a dtr NormEach = Ok rows /\
    Forall2 (fun s row => exists m,
      let d := if dtr then detrend (amp (ser s)) else amp (ser s) in
      largest_magnitude d m /\
      ((0 < m)%Qc -> row = map (fun v => Fin (v / m)%Qc) d) /\
      (m = 0%Qc -> row = map (fun _ => NaN) d)) (sensors a) rows.
Proof. exact matrix_each. Qed.
Print Assumptions C22_matrix_each.

Theorem C22_scaled_row_has_unit_maximum : forall l m, largest_magnitude l m -> (0 < m)%Qc ->
  largest_magnitude (map (fun v => (v / m)%Qc) l) 1%Qc.
Proof. exact scaled_max. Qed.
Print Assumptions C22_scaled_row_has_unit_maximum.

(** One divisor for the whole matrix: relative amplitudes are preserved. *)
Theorem C22_matrix_all : forall a dtr, sensors a <> [] ->
  (forall s, In s (sensors a) -> amp (ser s) <> []) ->
  exists m rows, timeseriesmatrix a dtr NormAll = Ok rows /\
    let d s := if dtr then detrend (amp (ser s)) else amp (ser s) in
    largest_magnitude (concat (map d (sensors a))) m /\
    ((0 < m)%Qc -> rows = map (fun s => map (fun v => Fin (v / m)%Qc) (d s)) (sensors a)) /\
    (m = 0%Qc -> rows = map (fun s => map (fun _ => NaN) (d s)) (sensors a)).
Proof. exact matrix_all. Qed.
Print Assumptions C22_matrix_all.

Example C22_example :
  match timeseriesmatrix (mkArray [sen 0 [1; -2]%Z; sen 2 [5; 10]%Z] (src0 9)) false NormEach with
  | Ok m => map (map show_flt) m = [[ShFin (1#2); ShFin (-1)]; [ShFin (1#2); ShFin 1]]
  | Err _ => False end /\
  match timeseriesmatrix (mkArray [sen 0 [1; -2]%Z; sen 2 [5; 10]%Z] (src0 9)) false NormAll with
  | Ok m => map (map show_flt) m = [[ShFin (1#10); ShFin (-1#5)]; [ShFin (1#2); ShFin 1]]
  | Err _ => False end.
Proof. vm_compute. auto. Qed.

(** Records without samples cannot be scaled. *)
Local Lemma tsm_rows_empty l s : In s l -> amp (ser s) = [] -> mapM (tsm_row false NormEach) l = Err ValueError.
Proof.
  intros H E. induction l as [|x l IH]; [destruct H|]. cbn [mapM].
  unfold tsm_row at 1. destruct (amp (ser x)) as [|v w] eqn:Ex; [reflexivity|].
  destruct H as [->|H]; [congruence|]. cbn [absmax bind]. now rewrite (IH H).
Qed.
Theorem C22_no_samples : forall a,
  ((exists s, In s (sensors a) /\ amp (ser s) = []) -> timeseriesmatrix a false NormEach = Err ValueError) /\
  (sensors a <> [] -> (forall s, In s (sensors a) -> amp (ser s) = []) ->
     timeseriesmatrix a false NormAll = Err ValueError).
Proof.
  intros a. unfold timeseriesmatrix. split.
  - intros (s & Hs & E). destruct (sensors a) as [|x l]; [destruct Hs|].
    now rewrite (tsm_rows_empty _ s Hs E).
  - intros N E. assert (M : mapM (tsm_row false NormAll) (sensors a) = Ok (map (fun _ => []) (sensors a))).
    { induction (sensors a) as [|x l IH]; [reflexivity|]. cbn [mapM map]. unfold tsm_row at 1.
      rewrite (E x (or_introl eq_refl)). cbn [bind map].
      destruct l as [|y l']; [reflexivity|].
      rewrite IH; [reflexivity|discriminate|]. intros t Ht. apply E. now right. }
    destruct (sensors a) as [|x l]; [congruence|]. rewrite M. cbn [bind].
    replace (concat (map (map fabs) (map (fun _ => []) (x :: l)))) with (@nil flt); [reflexivity|].
    clear. induction (x :: l) as [|y t IH]; cbn; auto.
Qed.
Print Assumptions C22_no_samples.
Example C22_no_samples_example :
  timeseriesmatrix (mkArray [sen 0 []; sen 2 []] (src0 9)) false NormEach = Err ValueError /\
  timeseriesmatrix (mkArray [sen 0 []; sen 2 []] (src0 9)) false NormAll = Err ValueError.
Proof. split; reflexivity. Qed.

(** ** C23 *)
(** Proved: contiguous lags, same sensors.  The lags are one sample later than
    intended and only correct as a slice when the source signal is long enough
    (both refuted below). *)
Theorem C23_xcorrelate_partial : forall a srcamp srcdt vmin vmax mn mx,
  sensors a <> [] -> nearest_offset a mn -> farthest_offset a mx ->
  (0 < srcdt)%Qc -> (0 < vmin)%Qc -> (0 < vmax)%Qc -> srcamp <> [] ->
  (forall s, In s (sensors a) -> amp (ser s) <> [] /\ (1 <= nstacks (ser s))%Z) ->
  let lo := intended_first_lag srcdt mn vmax in
  let hi := intended_end_lag srcdt mx vmin in
  (0 <= Z.of_nat (length srcamp) + lo)%Z -> (0 <= hi)%Z ->
  exists a', xcorrelate a srcamp srcdt vmin vmax = (a', Ok tt) /\ src a' = src a /\
    Forall2 (fun s s' =>
       sx s' = sx s /\ sy s' = sy s /\ sz s' = sz s /\ dt (ser s') = dt (ser s) /\
       nstacks (ser s') = nstacks (ser s) /\ delay (ser s') = 0%Qc /\
       (Z.of_nat (length (amp (ser s'))) =
          Z.max 0 (Z.min (hi - lo) (Z.of_nat (length (amp (ser s))) - 1 - lo)))%Z /\
       forall k, k < length (amp (ser s')) ->
         nth k (amp (ser s')) 0%Qc = similarity (amp (ser s)) srcamp (lo + 1 + Z.of_nat k))
      (sensors a) (sensors a').
Proof. exact xcorrelate_spec. Qed.
Print Assumptions C23_xcorrelate_partial.

Local Definition sen2 (x : Z) (d : Qc) (l : list Z) : sensor := mkSensor (mkSeries (rec l) d 1 0 1) (QcZ x) 0 0.
(** Record identical to the source pulse, zero offset: the intended first lag is
    -1, the sample stored first is the one at lag 0. *)
(** A zero velocity, or a source record without a time step, is refused and nothing changes. *)
Theorem C23_zero_divisor : forall a srcamp srcdt vmin vmax, sensors a <> [] ->
  vmin = 0%Qc \/ vmax = 0%Qc \/ srcdt = 0%Qc ->
  xcorrelate a srcamp srcdt vmin vmax = (a, Err ZeroDivisionError).
Proof.
  intros a srcamp srcdt vmin vmax N H. unfold xcorrelate.
  assert (O : exists o os, offsets a = o :: os).
  { unfold offsets. destruct (sensors a); [congruence|]. cbn. eauto. }
  destruct O as (o & os & ->). unfold xcorr_bounds.
  replace (Qceqb vmax 0%Qc || Qceqb vmin 0%Qc || Qceqb srcdt 0%Qc)%bool with true; [reflexivity|]. symmetry.
  destruct H as [-> |[-> | ->]]; rewrite (proj2 (Qceqb_eq 0 0) eq_refl), ?orb_true_r; reflexivity.
Qed.
Print Assumptions C23_zero_divisor.
Theorem C23_first_lag_refuted : exists a srcamp srcdt mn s',
  nearest_offset a mn /\
  snd (xcorrelate a srcamp srcdt xcorr_default_vmin xcorr_default_vmax) = Ok tt /\
  sensors (fst (xcorrelate a srcamp srcdt xcorr_default_vmin xcorr_default_vmax)) = [s'] /\
  exists s, sensors a = [s] /\
    nth 0 (amp (ser s')) 0%Qc <> similarity (amp (ser s)) srcamp (intended_first_lag srcdt mn xcorr_default_vmax).
Proof.
  exists (mkArray [sen2 100 (q 1 2) [1; 0; 0]%Z] (src0 100)), (rec [1; 0; 0]%Z), (q 1 2), 0%Qc. eexists.
  split; [|split; [reflexivity|split; [reflexivity|]]].
  - split; [eexists; split; [left; reflexivity|apply Qc_is_canon; reflexivity]|].
    intros s [<-|[]]. vm_compute. discriminate.
  - eexists. split; [reflexivity|]. intros H. apply (f_equal this) in H. vm_compute in H. discriminate H.
Qed.
Print Assumptions C23_first_lag_refuted.

(** A source signal shorter than the half second that is subtracted: the slice
    start is negative and counts from the end of the correlation. *)
Theorem C23_short_source_refuted : exists a srcamp srcdt mn s',
  nearest_offset a mn /\
  (Z.of_nat (length srcamp) + intended_first_lag srcdt mn xcorr_default_vmax < 0)%Z /\
  snd (xcorrelate a srcamp srcdt xcorr_default_vmin xcorr_default_vmax) = Ok tt /\
  sensors (fst (xcorrelate a srcamp srcdt xcorr_default_vmin xcorr_default_vmax)) = [s'] /\
  exists s, sensors a = [s] /\ 0 < length (amp (ser s')) /\
    nth 0 (amp (ser s')) 0%Qc = similarity (amp (ser s)) srcamp 5 /\
    nth 0 (amp (ser s')) 0%Qc <> 0%Qc /\
    forall lag, (lag < 0)%Z -> (-3 < lag)%Z -> similarity (amp (ser s)) srcamp lag = 0%Qc.
Proof.
  exists (mkArray [sen2 200 (q 1 10) [0; 0; 0; 0; 0; 7]%Z] (src0 100)), (rec [1; 0; 0]%Z), (q 1 10), (z 100). eexists.
  split; [|split; [reflexivity|split; [reflexivity|split; [reflexivity|]]]].
  - split; [eexists; split; [left; reflexivity|apply Qc_is_canon; reflexivity]|].
    intros s [<-|[]]. vm_compute. discriminate.
  - eexists. split; [reflexivity|]. split; [vm_compute; lia|]. split; [apply Qc_is_canon; vm_compute; reflexivity|].
    split; [intros H; apply (f_equal this) in H; vm_compute in H; discriminate H|].
    intros lag H1 H2. assert (E : lag = (-1)%Z \/ lag = (-2)%Z) by lia.
    destruct E as [-> | ->]; apply Qc_is_canon; vm_compute; reflexivity.
Qed.
Print Assumptions C23_short_source_refuted.

Example C23_example : exists a (srcamp : list Qc) srcdt mn mx,
  sensors a <> [] /\ nearest_offset a mn /\ farthest_offset a mx /\
  (0 <= Z.of_nat (length srcamp) + intended_first_lag srcdt mn xcorr_default_vmax)%Z /\
  (0 <= intended_end_lag srcdt mx xcorr_default_vmin)%Z.
Proof.
  exists (mkArray [sen2 100 (q 1 2) [1; 0; 0]%Z; sen2 110 (q 1 2) [1; 0; 0]%Z] (src0 40)), (rec [1; 0; 0]%Z), (q 1 2), (z 60), (z 70).
  split; [discriminate|]. split; [|split; [|split; vm_compute; discriminate]].
  - split; [eexists; split; [left; reflexivity|apply Qc_is_canon; reflexivity]|].
    intros s [<-|[<-|[]]]; vm_compute; discriminate.
  - split; [eexists; split; [right; left; reflexivity|apply Qc_is_canon; reflexivity]|].
    intros s [<-|[<-|[]]]; vm_compute; discriminate.
Qed.

(** ** C24 *)
Theorem C24_array_trim_atomic : forall a st en, array_reachable a ->
  (exists a', array_trim a st en = (a', Ok tt) /\ src a' = src a /\
     Forall2 (fun s s' => in_span (ser s) st en /\ trim (ser s) st en = (ser s', Ok tt) /\
                          sx s' = sx s /\ sy s' = sy s /\ sz s' = sz s) (sensors a) (sensors a')) \/
  (array_trim a st en = (a, Err IndexError) /\ Forall (fun s => ~ in_span (ser s) st en) (sensors a)).
Proof. exact array_trim_errors. Qed.
Print Assumptions C24_array_trim_atomic.

Example C24_example :
  array_reachable a16 /\ snd (array_trim a16 0 (q 2 10)) = Ok tt /\
  samples (fst (array_trim a16 0 (q 2 10))) = [[1; 2; 3]; [5; 6; 7]]%Q /\
  array_trim a16 0 (q 5 10) = (a16, Err IndexError).
Proof.
  split; [|vm_compute; auto].
  exists (sensors a16), (src a16), a16, []. split; [|split; reflexivity].
  repeat constructor; try (vm_compute; reflexivity); try (vm_compute; discriminate).
Qed.

(** ** C05, C08, C11 for arrays *)
(** Missing: the frequency step of the first sensor is reset (C16). *)
Theorem C05_failed_array_pad_keeps_data_partial : forall a df e a',
  consistent a -> array_zero_pad a df = (a', Err e) ->
  src a' = src a /\
  Forall2 (fun s s' => sx s' = sx s /\ sy s' = sy s /\ sz s' = sz s /\ amp (ser s') = amp (ser s) /\
     dt (ser s') = dt (ser s) /\ nstacks (ser s') = nstacks (ser s) /\ delay (ser s') = delay (ser s))
    (sensors a) (sensors a').
Proof. exact array_pad_fail. Qed.
Print Assumptions C05_failed_array_pad_keeps_data_partial.

Theorem C05_failed_array_pad_refuted : exists a df a' e,
  array_reachable a /\ array_zero_pad a df = (a', Err e) /\ same_step a /\ ~ same_step a'.
Proof.
  exists (fst (array_zero_pad a16 (z 5))), 0%Qc. eexists. exists ValueError.
  split; [|split; [reflexivity|split]].
  - exists (sensors a16), (src a16), a16, [ArrPad (z 5)]. split; [|split; reflexivity].
    repeat constructor; try (vm_compute; reflexivity); try (vm_compute; discriminate).
  - intros s t Hs Ht. cbn in Hs, Ht. destruct Hs as [<-|[<-|[]]], Ht as [<-|[<-|[]]]; reflexivity.
  - intros H.
    match type of H with same_step ?a =>
      assert (E : user_df (ser (hd (sen 0 []) (sensors a))) = user_df (ser (last (sensors a) (sen 0 []))))
        by (apply H; vm_compute; auto)
    end.
    vm_compute in E. discriminate E.
Qed.
Print Assumptions C05_failed_array_pad_refuted.

(** Missing: records trimmed to a positive start cannot be copied at all (second
    half), and copies of padded arrays lose their frequency step unless
    `multiple` is one (refuted for single records in SeriesProps.v). *)
Theorem C08_array_copy_partial : forall a, array_reachable a ->
  ((forall s, In s (sensors a) -> (delay (ser s) <= 0)%Qc) ->
     exists c, copy_array a = Ok c /\ array_eq c a = true /\ src c = src a /\
       Forall2 (fun s s' => sx s' = sx s /\ sy s' = sy s /\ sz s' = sz s /\ amp (ser s') = amp (ser s) /\
         dt (ser s') = dt (ser s) /\ nstacks (ser s') = nstacks (ser s) /\ delay (ser s') = delay (ser s) /\
         (multiple (ser s) = 1%Z -> s' = s)) (sensors a) (sensors c)) /\
  ((exists s, In s (sensors a) /\ (0 < delay (ser s))%Qc) -> copy_array a = Err ValueError).
Proof. exact reachable_copy. Qed.
Print Assumptions C08_array_copy_partial.

Theorem C08_trimmed_array_copy_refuted : exists a, array_reachable a /\ copy_array a = Err ValueError.
Proof.
  exists (fst (array_trim a16 (q 1 10) (q 2 10))). split; [|reflexivity].
  exists (sensors a16), (src a16), a16, [ArrTrim (q 1 10) (q 2 10)]. split; [|split; reflexivity].
  repeat constructor; try (vm_compute; reflexivity); try (vm_compute; discriminate).
Qed.
Print Assumptions C08_trimmed_array_copy_refuted.

Theorem C11_array_equality : forall a b,
  array_eq a a = true /\
  (array_eq a b = true ->
   src a = src b /\
   Forall2 (fun s t => agree s t /\ sx s = sx t /\ sy s = sy t /\ sz s = sz t) (sensors a) (sensors b)).
Proof. intros a b. split; [exact (array_eq_refl a)|exact (array_eq_meta a b)]. Qed.
Print Assumptions C11_array_equality.

(** ** C69 *)
Theorem C69_detrend_removes_line : forall l,
  length (detrend l) = length l /\
  Qcsum (detrend l) = 0%Qc /\
  Qcsum (map (fun i => QcN i * nth i (detrend l) 0)%Qc (seq 0 (length l))) = 0%Qc /\
  exists c k, forall i, i < length l -> nth i (detrend l) 0%Qc = (nth i l 0 - (c + k * QcN i))%Qc.
Proof.
  intros l. split; [apply length_detrend|]. split; [apply detrend_sum|].
  split; [exact (detrend_no_trend l)|exact (detrend_minus_line l)].
Qed.
Print Assumptions C69_detrend_removes_line.

Theorem C69_detrend_lines_vanish : forall n c k,
  detrend (map (fun i => (c + k * QcN i)%Qc) (seq 0 n)) = repeat 0%Qc n.
Proof. exact detrend_line. Qed.
Print Assumptions C69_detrend_lines_vanish.

Theorem C69_detrend_idempotent : forall l, detrend (detrend l) = detrend l.
Proof. exact detrend_idem. Qed.
Print Assumptions C69_detrend_idempotent.

Theorem C69_detrend_linear : forall c l m, length l = length m ->
  detrend (map (Qcmult c) l) = map (Qcmult c) (detrend l) /\
  detrend (map2 Qcplus l m) = map2 Qcplus (detrend l) (detrend m).
Proof. intros c l m H. split; [apply detrend_scale|exact (detrend_add l m H)]. Qed.
Print Assumptions C69_detrend_linear.

Theorem C69_detrend_least_squares : forall l c k,
  (Qcsum (map (fun i => nth i (detrend l) 0 * nth i (detrend l) 0) (seq 0 (length l))) <=
   Qcsum (map (fun i => (nth i l 0 - (c + k * QcN i)) * (nth i l 0 - (c + k * QcN i))) (seq 0 (length l))))%Qc.
Proof. exact detrend_least. Qed.
Print Assumptions C69_detrend_least_squares.

Example C69_example : map this (detrend (rec [1; 2; 6]%Z)) = [1 # 2; -1; 1 # 2]%Q /\
  map this (detrend (rec [7]%Z)) = [0]%Q.
Proof. vm_compute. auto. Qed.

(** ** C70 *)
(** Missing: the samples of the sensors processed before the failure are already
    muted (refuted below). *)
Theorem C70_mute_keeps_metadata_partial : forall a taper ss se, consistent a ->
  src (fst (mute a taper ss se)) = src a /\
  Forall2 only_samples_change (sensors a) (sensors (fst (mute a taper ss se))).
Proof. exact mute_keeps. Qed.
Print Assumptions C70_mute_keeps_metadata_partial.

Theorem C70_failed_mute_refuted : exists a taper ss se e,
  array_reachable a /\ (forall M, length (taper M) = M) /\
  snd (mute a taper ss se) = Err e /\ samples (fst (mute a taper ss se)) <> samples a.
Proof.
  exists a21, box, (Some l21), (Some ((0%Qc, q 4 10), (z 2, 0%Qc))), ValueError.
  split; [|split; [intros M; apply repeat_length|split; [reflexivity|vm_compute; discriminate]]].
  exists (sensors a21), (src a21), a21, []. split; [|split; reflexivity].
  repeat constructor; try (vm_compute; reflexivity); try (vm_compute; discriminate).
Qed.
Print Assumptions C70_failed_mute_refuted.

(** ** C72 *)
Theorem C72_first_arrival_picks : forall a thr pos ts, consistent a ->
  (forall s, In s (sensors a) -> amp (ser s) <> []) ->
  pick_on_threshold a thr = Ok (pos, ts) ->
  pos = map sx (sensors a) /\
  Forall2 (fun s t => forall m, largest_magnitude (detrend (amp (ser s))) m ->
     (0 < m)%Qc /\ exists i, first_exceeding (detrend (amp (ser s))) m thr i /\ t = time_at (ser s) i)
    (sensors a) ts.
Proof. exact pick_spec. Qed.
Print Assumptions C72_first_arrival_picks.

Theorem C72_one_trace : forall thr d m, d <> [] -> (0 < m)%Qc ->
  (forall i, pick_trace thr (map (fun v => Fin (v / m)%Qc) d) = Ok i <-> first_exceeding d m thr i) /\
  (pick_trace thr (map (fun v => Fin (v / m)%Qc) d) = Err IndexError <-> forall i, i < length d -> ~ exceeds d m thr i).
Proof. exact pick_trace_spec. Qed.
Print Assumptions C72_one_trace.

Example C72_example :
  match pick_on_threshold (mkArray [sen 0 [0; 0; 0; 0; 0; 0; 0; 0; 0; 0; 0; 9; -9; 0]%Z] (src0 0)) (q 1 2) with
  | Ok (_, ts) => map this ts = [11 # 10]%Q
  | Err _ => False
  end.
Proof. vm_compute. reflexivity. Qed.
