(* C131: the unit of length does not matter, if velocities use it too. *)
From Verif Require Import NumFacts PyFacts ArrayModel ArraySpec TransformModel SpectrumModel BeamModel GainSpec UnitSpec UnitProofs UnitImageProofs.
Local Open Scope nat_scope.
Local Open Scope list_scope.

(** Offsets are measured in the same unit; where the source stands does not depend on it. *)
Theorem C131_geometry : forall u a, (0 < u)%Qc -> offsets (measured u a) = map (Qcmult u) (offsets a) /\ source_inside (measured u a) = source_inside a /\
  (forall dtr norm, timeseriesmatrix (measured u a) dtr norm = timeseriesmatrix a dtr norm) /\
  (forall thr, pick_on_threshold (measured u a) thr = outcome_map (fun r => (map (Qcmult u) (fst r), snd r)) (pick_on_threshold a thr)).
Proof. intros u a P. repeat split; intros; [now apply offsets_units|now apply inside_units|apply matrix_units|apply pick_units]. Qed.
Print Assumptions C131_geometry.

(** The same arrays are built or refused. *)
Theorem C131_constructor : forall u l s, (0 < u)%Qc -> new_array (map (measured_sensor u) l) (measured_source u s) = outcome_map (measured u) (new_array l s).
Proof. intros u l s P. now apply new_array_units. Qed.
Print Assumptions C131_constructor.

(** Every preparation of the records, with its lengths and velocities in the same unit. *)
Theorem C131_operations : forall u a, (0 < u)%Qc -> array_detrend (measured u a) = measured u (array_detrend a) /\
  (forall b e, array_trim (measured u a) b e = measured_result u (array_trim a b e)) /\
  (forall df, array_zero_pad (measured u a) df = measured_result u (array_zero_pad a df)) /\
  (forall mn mx, trim_offsets (measured u a) (u * mn) (u * mx) = measured_result u (trim_offsets a mn mx)) /\
  (forall taper ss se, mute (measured u a) taper (option_map (measured_line u) ss) (option_map (measured_line u) se) = measured_result u (mute a taper ss se)) /\
  (forall srcamp srcdt vmin vmax, xcorrelate (measured u a) srcamp srcdt (u * vmin) (u * vmax) = measured_result u (xcorrelate a srcamp srcdt vmin vmax)).
Proof. intros u a P. repeat split; intros; [apply detrend_units|apply trim_units|apply pad_units|now apply trim_offsets_units|now apply mute_units|now apply xcorrelate_units]. Qed.
Print Assumptions C131_operations.

(** Slant-stack images at the same frequencies: an integral over offset has the unit of length. *)
Theorem C131_slant_stack : forall u a vels, (0 < u)%Qc -> slant_stack (measured u a) (map (Qcmult u) vels) = outcome_map (map (map (Qcmult u))) (slant_stack a vels).
Proof. intros u a vels P. now apply slant_units. Qed.
Print Assumptions C131_slant_stack.
Theorem C131_image : forall u a vels fmin fmax, (0 < u)%Qc -> slant_transform (measured u a) (map (Qcmult u) vels) fmin fmax =
  outcome_map (fun r => (fst r, map (map (Cmul (RtoC (toR u)))) (snd r))) (slant_transform a vels fmin fmax).
Proof. intros u a vels fmin fmax P. now apply image_units. Qed.
Print Assumptions C131_image.
(** So has phase shift; beamforming has no unit, or the unit of an area with "sqrt" weighting. *)
Theorem C131_phase_shift : forall u a vels fmin fmax, (0 < u)%Qc -> phase_shift (measured u a) (map (Qcmult u) vels) fmin fmax =
  outcome_map (fun r => (fst r, map (map (option_map (Rmult (toR u)))) (snd r))) (phase_shift a vels fmin fmax).
Proof. intros u a vels fmin fmax P. now apply phase_units. Qed.
Print Assumptions C131_phase_shift.
Theorem C131_beamforming : forall angle weighting steering u a vels fmin fmax, (0 < u)%Qc ->
  fdbf angle weighting steering (measured u a) (map (Qcmult u) vels) fmin fmax =
  outcome_map (fun r => (fst r, if match weighting with Some w => String.eqb w "sqrt" | None => false end
                                then map (map (option_map (Cmul (RtoC (toR u * toR u))))) (snd r) else snd r)) (fdbf angle weighting steering a vels fmin fmax).
Proof. intros angle weighting steering u a vels fmin fmax P. now apply beam_units. Qed.
Print Assumptions C131_beamforming.
(** The velocities of the peaks are in the unit of the trial velocities. *)
Theorem C131_peaks : forall u (w : transform flt) by_, find_peak_real (mkTransform (wn w) (wfrq w) (map (Qcmult u) (wvel w)) (power w) (to_abs w)) by_ = outcome_map (map (Qcmult u)) (find_peak_real w by_).
Proof. intros u w by_. apply peaks_units. Qed.
Print Assumptions C131_peaks.

(** * Concrete cases *)
Local Definition rec (x : Qc) : sensor := mkSensor (mkSeries (map QcZ [0; 1; 4; 2; 5; 3]%Z) 1%Qc 1%Z 0%Qc 1%Z) x 0%Qc 0%Qc.
Local Definition line_of (l : list Qc) : array := mkArray (map rec l) (mkSource (QcZ (-2)) 0%Qc 0%Qc).
Local Definition is (r : result Qc) (x : Qc) : bool := match r with Ok y => Qceqb y x | Err _ => false end.

(** Equal spacing is judged to a hundredth of the unit, and rounded to it: an array with a spacing in metres has none in
    centimetres, and receivers four metres apart are not apart in kilometres. *)
Theorem C131_spacing_refuted :
  (exists a u, (0 < u)%Qc /\ spacing a = Ok 1%Qc /\ spacing (measured u a) = Err ValueError) /\
  (exists a u, (0 < u)%Qc /\ spacing a = Ok (QcZ 4) /\ spacing (measured u a) = Ok 0%Qc).
Proof.
  assert (E : forall r x, is r x = true -> r = Ok x) by (intros [y|] x; [intros H; apply Qceqb_eq in H; now subst|discriminate]). split.
  - exists (line_of [0%Qc; 1%Qc; Q2Qc (2005 # 1000)]), (QcZ 100). split; [reflexivity|split; [apply E; vm_compute; reflexivity|vm_compute; reflexivity]].
  - exists (line_of [0%Qc; QcZ 4; QcZ 8]), (Q2Qc (1 # 1000)). split; [reflexivity|split; apply E; vm_compute; reflexivity].
Qed.
Print Assumptions C131_spacing_refuted.
Local Definition agrees (l m : list (list Qc)) : bool :=
  Nat.eqb (List.length l) (List.length m) && forallb (fun p => Nat.eqb (List.length (fst p)) (List.length (snd p)) && forallb (fun q => Qceqb (fst q) (snd q)) (combine (fst p) (snd p))) (combine l m).
Local Definition shot : array := line_of [0%Qc; QcZ 2; QcZ 5].
Example C131_slant_example : match slant_stack shot [QcZ 5; QcZ 3], slant_stack (measured (QcZ 3) shot) [QcZ 15; QcZ 9], slant_stack (measured (QcZ 3) shot) [QcZ 5; QcZ 3] with
  | Ok l, Ok m, r => negb (agrees l (map (map (fun _ => 0%Qc)) l)) && agrees (map (map (Qcmult (QcZ 3))) l) m && negb (match r with Ok n => agrees n m | Err _ => false end) | _, _, _ => false end = true.
Proof. vm_compute. reflexivity. Qed.
Example C131_operations_example : match trim_offsets (measured (QcZ 3) shot) (QcZ 9) (QcZ 30) with (a, Ok _) => Nat.eqb (nchannels a) 2 | _ => false end = true.
Proof. vm_compute. reflexivity. Qed.
