(* C132: the unit of time does not matter, if velocities and frequencies use it too. *)
From Verif Require Import NumFacts PyFacts ArrayModel ArraySpec TransformModel SpectrumModel BeamModel GainSpec ClockSpec ClockProofs.
Local Open Scope nat_scope.
Local Open Scope list_scope.

(** Every preparation of the records, with its times and frequencies in the same unit. *)
Theorem C132_operations : forall w a, (0 < w)%Qc -> array_detrend (timed w a) = timed w (array_detrend a) /\
  (forall b e, array_trim (timed w a) (w * b) (w * e) = timed_result w (array_trim a b e)) /\
  (forall df, array_zero_pad (timed w a) (/ w * df) = timed_result w (array_zero_pad a df)) /\
  (forall mn mx, trim_offsets (timed w a) mn mx = timed_result w (trim_offsets a mn mx)) /\
  (forall taper ss se, mute (timed w a) taper (option_map (timed_line w) ss) (option_map (timed_line w) se) = timed_result w (mute a taper ss se)).
Proof. intros w a P. repeat split; intros; [apply array_detrend_timed|now apply array_trim_timed|now apply array_pad_timed|apply trim_offsets_timed|now apply mute_timed]. Qed.
Print Assumptions C132_operations.

(** The same arrays are built or refused. *)
Theorem C132_constructor : forall w l s, (0 < w)%Qc -> new_array (map (timed_sensor w) l) s = outcome_map (timed w) (new_array l s).
Proof. intros w l s P. now apply new_array_timed. Qed.
Print Assumptions C132_constructor.

(** First arrivals are picked at the same times, in the new unit. *)
Theorem C132_arrivals : forall w a thr, pick_on_threshold (timed w a) thr = outcome_map (fun r => (fst r, map (Qcmult w) (snd r))) (pick_on_threshold a thr).
Proof. intros w a thr. apply pick_timed. Qed.
Print Assumptions C132_arrivals.

(** The signal-to-noise ratio is the same, at the same frequencies in the new unit. *)
Theorem C132_snr : forall w spectrum s n fmin fmax pad df, (0 < w)%Qc ->
  snd (snr_from_arrays spectrum (timed w s) (timed w n) (/ w * fmin) (/ w * fmax) pad (option_map (Qcmult (/ w)) df)) =
  outcome_map (fun r => (map (Qcmult (/ w)) (fst r), snd r)) (snd (snr_from_arrays spectrum s n fmin fmax pad df)).
Proof. intros. now apply snr_timed. Qed.
Print Assumptions C132_snr.

(** Every image is the same, at the same frequencies in the new unit. *)
Theorem C132_slant_stack : forall w a vels fmin fmax, (0 < w)%Qc -> slant_transform (timed w a) (map (Qcmult (/ w)) vels) (/ w * fmin) (/ w * fmax) =
  outcome_map (fun r => (map (Qcmult (/ w)) (fst r), snd r)) (slant_transform a vels fmin fmax).
Proof. intros. now apply image_timed. Qed.
Print Assumptions C132_slant_stack.
Theorem C132_phase_shift : forall w a vels fmin fmax, (0 < w)%Qc -> phase_shift (timed w a) (map (Qcmult (/ w)) vels) (/ w * fmin) (/ w * fmax) =
  outcome_map (fun r => (map (Qcmult (/ w)) (fst r), snd r)) (phase_shift a vels fmin fmax).
Proof. intros. now apply phase_timed. Qed.
Print Assumptions C132_phase_shift.
Theorem C132_beamforming : forall angle weighting steering w a vels fmin fmax, (0 < w)%Qc ->
  fdbf angle weighting steering (timed w a) (map (Qcmult (/ w)) vels) (/ w * fmin) (/ w * fmax) =
  outcome_map (fun r => (map (Qcmult (/ w)) (fst r), snd r)) (fdbf angle weighting steering a vels fmin fmax).
Proof. intros. now apply beam_timed. Qed.
Print Assumptions C132_beamforming.

(** * Concrete cases *)
Local Definition rec (x : Z) : sensor := mkSensor (mkSeries (map QcZ [0; 1; 4; 2; 5; 3; 7; 1; 2; 9; 4; 0; 3; 2; 8; 1]%Z) (Q2Qc (1 # 10)) 1%Z 0%Qc 1%Z) (QcZ x) 0%Qc 0%Qc.
Local Definition shot : array := mkArray [rec 0; rec 1; rec 3] (mkSource (QcZ (-1)) 0%Qc 0%Qc).
Local Definition left_over (r : array * result unit) : list nat := match r with (a, Ok _) => map (fun s => List.length (amp (ser s))) (sensors a) | _ => [] end.

(** Correlation with the source starts 0.5 early in whatever unit of time is used: timed in another unit the same
    survey keeps other samples. *)
Theorem C132_xcorrelate_refuted : exists a srcamp srcdt vmin vmax w, (0 < w)%Qc /\
  left_over (xcorrelate a srcamp srcdt vmin vmax) = [5; 5; 5]%nat /\
  left_over (xcorrelate (timed w a) srcamp (w * srcdt) (/ w * vmin) (/ w * vmax)) = [1; 1; 1]%nat.
Proof.
  exists shot, [1%Qc; QcZ 2], (Q2Qc (1 # 10)), (QcZ 4), 1%Qc, (QcZ 10). split; [reflexivity|split; vm_compute; reflexivity].
Qed.
Print Assumptions C132_xcorrelate_refuted.
Example C132_trim_example : left_over (array_trim (timed (QcZ 1000) shot) (QcZ 200) (QcZ 500)) = [4; 4; 4]%nat /\ left_over (array_trim shot (Q2Qc (2 # 10)) (Q2Qc (5 # 10))) = [4; 4; 4]%nat /\
  left_over (array_trim (timed (QcZ 1000) shot) (Q2Qc (2 # 10)) (Q2Qc (5 # 10))) = [1; 1; 1]%nat.
Proof. repeat split; vm_compute; reflexivity. Qed.
Example C132_slant_example : match slant_stack (timed (QcZ 1000) shot) [Q2Qc (5 # 1000); Q2Qc (3 # 1000)] with Ok (r :: _) => negb (Nat.eqb (List.length r) 0) && existsb (fun x => negb (Qceqb x 0)) r | _ => false end = true.
Proof. vm_compute. reflexivity. Qed.
