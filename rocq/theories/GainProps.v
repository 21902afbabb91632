(* C130: the gain of the recorder does not matter. *)
From Verif Require Import NumFacts PyFacts ArrayModel ArraySpec TransformModel SpectrumModel BeamModel GainSpec GainProofs GainImageProofs GainPeakProofs GainBeamProofs.
Local Open Scope nat_scope.
Local Open Scope list_scope.

(** Preparing a louder survey gives the louder prepared survey; what is refused is refused with the same exception. *)
Theorem C130_operations : forall c a, array_detrend (louder c a) = louder c (array_detrend a) /\
  (forall b e, array_trim (louder c a) b e = louder_result c (array_trim a b e)) /\
  (forall df, array_zero_pad_opt (louder c a) df = louder_result c (array_zero_pad_opt a df)) /\
  (forall mn mx, trim_offsets (louder c a) mn mx = louder_result c (trim_offsets a mn mx)) /\
  (forall taper ss se, mute (louder c a) taper ss se = louder_result c (mute a taper ss se)) /\
  (forall srcamp srcdt vmin vmax, xcorrelate (louder c a) srcamp srcdt vmin vmax = louder_result c (xcorrelate a srcamp srcdt vmin vmax)).
Proof. intros c a. repeat split; intros; [apply array_detrend_louder|apply array_trim_louder|apply pad_opt_louder|apply trim_offsets_louder|apply mute_louder|apply xcorrelate_louder]. Qed.
Print Assumptions C130_operations.

(** Normalised records are the same, by trace or together, detrended or not. *)
Theorem C130_normalised : forall c a dtr, (0 < c)%Qc -> timeseriesmatrix (louder c a) dtr NormEach = timeseriesmatrix a dtr NormEach /\
  timeseriesmatrix (louder c a) dtr NormAll = timeseriesmatrix a dtr NormAll.
Proof. intros c a dtr P. split; [now apply each_louder|now apply all_louder]. Qed.
Print Assumptions C130_normalised.

(** First arrivals are picked at the same times. *)
Theorem C130_arrivals : forall c a thr, (0 < c)%Qc -> pick_on_threshold (louder c a) thr = pick_on_threshold a thr.
Proof. intros c a thr P. now apply pick_louder. Qed.
Print Assumptions C130_arrivals.

(** The signal-to-noise ratio is the same when signal and noise are recorded with the same gain. *)
Theorem C130_snr : forall c spectrum s n fmin fmax pad df, (0 < c)%Qc -> magnitude spectrum ->
  snd (snr_from_arrays spectrum (louder c s) (louder c n) fmin fmax pad df) = snd (snr_from_arrays spectrum s n fmin fmax pad df).
Proof. intros. now rewrite snr_louder. Qed.
Print Assumptions C130_snr.

(** The slant stack grows with the gain, and so does the image, at the same frequencies. *)
Theorem C130_slant_stack : forall c a vels, slant_stack (louder c a) vels = outcome_map (map (map (Qcmult c))) (slant_stack a vels).
Proof. exact slant_louder. Qed.
Print Assumptions C130_slant_stack.
Theorem C130_image : forall c a vels fmin fmax, slant_transform (louder c a) vels fmin fmax =
  outcome_map (fun r => (fst r, map (map (Cmul (RtoC (toR c)))) (snd r))) (slant_transform a vels fmin fmax).
Proof. exact image_louder. Qed.
Print Assumptions C130_image.

(** The phase-shift image is the same. *)
Theorem C130_phase_shift : forall c a vels fmin fmax, (0 < c)%Qc -> phase_shift (louder c a) vels fmin fmax = phase_shift a vels fmin fmax.
Proof. intros. now apply phase_louder. Qed.
Print Assumptions C130_phase_shift.
(** The beamformer's image is the same when amplitudes are removed, and grows with the square of the gain otherwise. *)
Theorem C130_beamforming : forall angle weighting steering c a vels fmin fmax, (0 < c)%Qc ->
  fdbf angle weighting steering (louder c a) vels fmin fmax =
  outcome_map (fun r => (fst r, if match weighting with Some w => String.eqb w "invamp" | None => false end then snd r
                                else map (map (option_map (Cmul (RtoC (toR c * toR c))))) (snd r))) (fdbf angle weighting steering a vels fmin fmax).
Proof.
  intros angle weighting steering c a vels fmin fmax P. destruct weighting as [w|]; [destruct (String.eqb_spec w "invamp") as [->|N]|].
  - rewrite invamp_image by exact P. destruct (fdbf _ _ _ _ _ _ _) as [[fs p]|]; reflexivity.
  - apply beam_image; congruence.
  - apply beam_image; congruence.
Qed.
Print Assumptions C130_beamforming.

(** A louder image has the same peaks, and is the same once normalised. *)
Theorem C130_peaks : forall c w by_, (0 < c)%Qc -> find_peak_real (louder_image c w) by_ = find_peak_real w by_.
Proof. intros c w by_ P. now apply peaks_louder. Qed.
Print Assumptions C130_peaks.
Theorem C130_normalised_image : forall c w by_, (0 < c)%Qc -> by_ <> "none"%string ->
  snd (normalize_real (louder_image c w) by_) = snd (normalize_real w by_) /\
  (snd (normalize_real w by_) = Ok tt -> power (fst (normalize_real (louder_image c w) by_)) = power (fst (normalize_real w by_))).
Proof. intros c w by_ P N. now apply normalize_louder. Qed.
Print Assumptions C130_normalised_image.

(** * Concrete cases *)
Local Definition rec (l : list Z) (x : Z) : sensor := mkSensor (mkSeries (map QcZ l) 1%Qc 1%Z 0%Qc 1%Z) (QcZ x) 0%Qc 0%Qc.
Local Definition shot : array := mkArray [rec [0; 1; 4; 2; 5; 3]%Z 0; rec [2; 0; 1; 7; 1; 8]%Z 2; rec [3; 1; 0; 4; 1; 5]%Z 5] (mkSource (QcZ (-2)) 0%Qc 0%Qc).
Local Definition same (r1 r2 : result (list (list flt))) : bool := match r1, r2 with
  | Ok l, Ok m => Nat.eqb (List.length l) (List.length m) && forallb (fun p => Nat.eqb (List.length (fst p)) (List.length (snd p)) && forallb (fun q => flt_eq (fst q) (snd q)) (combine (fst p) (snd p))) (combine l m)
  | _, _ => false end.
Example C130_records_example : same (timeseriesmatrix (louder (QcZ 3) shot) false NormEach) (timeseriesmatrix shot false NormEach) = true /\
  same (timeseriesmatrix (louder (QcZ 3) shot) false NormNone) (timeseriesmatrix shot false NormNone) = false.
Proof. split; vm_compute; reflexivity. Qed.
(** Turning the gain off, or changing the polarity, is something else. *)
Example C130_gain_example : same (timeseriesmatrix (louder 0%Qc shot) false NormEach) (timeseriesmatrix shot false NormEach) = false /\
  same (timeseriesmatrix (louder (QcZ (-1)) shot) false NormEach) (timeseriesmatrix shot false NormEach) = false.
Proof. split; vm_compute; reflexivity. Qed.
Example C130_slant_example : match slant_stack shot [QcZ 5; QcZ 3] with Ok (r :: _) => existsb (fun x => negb (Qceqb x 0)) r | _ => false end = true.
Proof. vm_compute. reflexivity. Qed.
(** A spectrum that meets the hypothesis. *)
Example C130_spectrum_example : magnitude (map Qcabs).
Proof. intros c l P. rewrite !map_map. apply map_ext. intros x. now apply abs_louder. Qed.
Local Definition picture : transform flt := mkTransform 1 [1%Qc; QcZ 2] [QcZ 100; QcZ 200] [[Fin (QcZ 3); Fin (QcZ (-1))]; [Fin (QcZ 2); Fin (QcZ 5)]] (Scalar f1).
Example C130_peaks_example : match find_peak_real (louder_image (QcZ 3) picture) "frequency-maximum" with Ok [a; b] => Qceqb a (QcZ 100) && Qceqb b (QcZ 200) | _ => false end = true /\
  snd (normalize_real picture "frequency-maximum") = Ok tt.
Proof. split; vm_compute; reflexivity. Qed.
