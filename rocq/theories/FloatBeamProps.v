(* Property C121: the power of the frequency-domain beamformer in double precision. *)
From Coq Require Import Lra Lia String.
From Verif Require Import FloatModel FloatSpec FloatProofs FloatStatModel FloatNormModel FloatNormProofs FloatPhaseModel FloatPhaseSpec FloatPhaseProofs FloatPhaseProps FloatBeamModel FloatBeamSpec
  FloatBeamProofs.
Local Notation double := FloatModel.double.

(** The computed power is |sum of exp(2 pi i f x / v) c|^2, with c the weighted spectra, up to a few rounding errors per
    receiver and per radian, relative to the power of waves in phase; its imaginary part is of this size, and so is the
    error of its absolute value, which is what an image shows. *)
Theorem C121_power : forall cos_ sin_ hypot_ weighting T xs Fs f v p, good_cos cos_ -> good_sin sin_ -> good_hypot hypot_ -> usual xs Fs f v -> / 1000000 <= v ->
  off_source weighting xs -> INR (List.length xs) <= 500000000 -> 0 <= T <= 1000000000 -> Forall (fun x => Rabs (phase v f x) <= T) xs ->
  beam_of cos_ sin_ hypot_ weighting xs Fs f v p ->
  let e := beam_error T (List.length xs) * in_phase weighting xs Fs in
  Rabs (fst p - beam_power weighting xs Fs f v) <= e /\ Rabs (snd p) <= e /\ Rabs (hypot_ (fst p) (snd p) - beam_power weighting xs Fs f v) <= e.
Proof. exact beam_power_error. Qed.
Print Assumptions C121_power.
(** The exact power lies between zero and the power of waves in phase. *)
Theorem C121_bound : forall weighting xs Fs f v, 0 <= beam_power weighting xs Fs f v <= in_phase weighting xs Fs.
Proof. exact power_bounds. Qed.
Print Assumptions C121_bound.
(** A velocity whose exact power exceeds all others by more than twice the error is the one found. *)
Theorem C121_peak : forall cos_ sin_ hypot_ weighting T xs Fs f vs ps i, good_cos cos_ -> good_sin sin_ -> good_hypot hypot_ ->
  off_source weighting xs -> INR (List.length xs) <= 500000000 -> 0 <= T <= 1000000000 ->
  Forall (fun v => usual xs Fs f v /\ / 1000000 <= v /\ Forall (fun x => Rabs (phase v f x) <= T) xs) vs ->
  Forall2 (beam_of cos_ sin_ hypot_ weighting xs Fs f) vs ps -> (i < List.length vs)%nat ->
  (forall k, (k < List.length vs)%nat -> k <> i ->
     beam_power weighting xs Fs f (nth k vs 0) + 2 * (beam_error T (List.length xs) * in_phase weighting xs Fs) < beam_power weighting xs Fs f (nth i vs 0)) ->
  argmax (map (fun p => hypot_ (fst p) (snd p)) ps) = i.
Proof.
  intros cos_ sin_ hypot_ weighting T xs Fs f vs ps i Gc Gs Gh Ho Hn HT Hv H Hi B. assert (L : List.length ps = List.length vs) by (clear -H; induction H; cbn; congruence). unfold complex in *.
  assert (N : forall k, (k < List.length vs)%nat -> nth k (map (beam_power weighting xs Fs f) vs) 0 = beam_power weighting xs Fs f (nth k vs 0)).
  { intros k Hk. rewrite (nth_indep _ 0 (beam_power weighting xs Fs f 0)) by (rewrite map_length; lia). apply map_nth. }
  apply (peak_found (beam_error T (List.length xs) * in_phase weighting xs Fs) _ (map (beam_power weighting xs Fs f) vs)); rewrite map_length, ?L; [|lia|].
  - intros k Hk. rewrite N by lia. rewrite (nth_indep _ 0 ((fun p : R * R => hypot_ (fst p) (snd p)) (0, 0))) by (rewrite map_length; lia).
    rewrite (map_nth (fun p : R * R => hypot_ (fst p) (snd p))).
    assert (P : beam_of cos_ sin_ hypot_ weighting xs Fs f (nth k vs 0) (nth k ps (0, 0))).
    { clear -H Hk. revert k Hk. induction H as [|v p vs ps P H IH]; intros [|k] Hk; cbn in *; try lia; auto. apply IH. lia. }
    assert (Q : In (nth k vs 0) vs) by (apply nth_In; lia). rewrite Forall_forall in Hv. destruct (Hv _ Q) as (U & V & W).
    now apply (C121_power cos_ sin_ hypot_ weighting T xs Fs f (nth k vs 0) _ Gc Gs Gh U V Ho Hn HT W).
  - intros k Hk Ne. rewrite (N k), (N i) by lia. apply B; lia.
Qed.
Print Assumptions C121_peak.

(* Two receivers at 1 m and 2 m that record the same signal, weighted by their offsets: at 1 Hz the power is 9 for a wave of
   1 m/s and 1 for a wave of 2 m/s; the second of the velocities 2 and 1 is found. *)
Example C121_example : exists ps, Forall2 (beam_of (fun t => RN (cos t)) (fun t => RN (sin t)) (fun x y => RN (norm x y)) "sqrt" [1; 2] [(1, 0); (1, 0)] 1) [2; 1] ps /\
  argmax (map (fun p => RN (norm (fst p) (snd p))) ps) = 1%nat.
Proof.
  destruct rounded_cos as (Gc & Gs & Gh).
  assert (Ex : forall v, exists p, beam_of (fun t => RN (cos t)) (fun t => RN (sin t)) (fun x y => RN (norm x y)) "sqrt" [1; 2] [(1, 0); (1, 0)] 1 v p) by (intros v; now apply some_beam).
  destruct (Ex 2) as [p P]. destruct (Ex 1) as [q Q]. exists [p; q].
  assert (F : Forall2 (beam_of (fun t => RN (cos t)) (fun t => RN (sin t)) (fun x y => RN (norm x y)) "sqrt" [1; 2] [(1, 0); (1, 0)] 1) [2; 1] [p; q]) by (repeat (constructor; auto)).
  split; [exact F|]. pose proof PI_RGT_0 as P0. pose proof PI_4 as P4.
  assert (E1 : beam_power "sqrt" [1; 2] [(1, 0); (1, 0)] 1 1 = 9).
  { unfold beam_power. cbn [combine beam_re beam_im contribution String.eqb Ascii.eqb Bool.eqb fst snd]. unfold phase.
    replace (2 * PI * 1 * 1 / 1) with (2 * PI) by field. replace (2 * PI * 1 * 2 / 1) with (2 * (2 * PI)) by field. rewrite (cos_2a (2 * PI)), (sin_2a (2 * PI)), cos_2PI, sin_2PI. lra. }
  assert (E2 : beam_power "sqrt" [1; 2] [(1, 0); (1, 0)] 1 2 = 1).
  { unfold beam_power. cbn [combine beam_re beam_im contribution String.eqb Ascii.eqb Bool.eqb fst snd]. unfold phase.
    replace (2 * PI * 1 * 1 / 2) with PI by field. replace (2 * PI * 1 * 2 / 2) with (2 * PI) by field. rewrite cos_2PI, sin_2PI, cos_PI, sin_PI. lra. }
  assert (I : / IZR (2 ^ 400) <= 1 <= IZR (2 ^ 400)).
  { split; [rewrite <- Rinv_1; apply Rinv_le; [lra|]|]; apply IZR_le; intros H; discriminate H. }
  assert (N : norm 1 0 = 1) by (unfold norm; rewrite Rmult_0_l, Rplus_0_r, Rmult_1_l; apply sqrt_1).
  assert (Nx : forall x, 0 <= x -> norm (x * 1) (x * 0) = x) by (intros x Hx; rewrite norm_scale, N, Rabs_pos_eq; lra).
  assert (D2 : double 2) by (rewrite <- (RN_int 2) by (cbn; lia); apply RN_double).
  assert (U : forall v, 1 <= v -> usual [1; 2] [(1, 0); (1, 0)] 1 v /\ / 1000000 <= v /\ Forall (fun x => Rabs (phase v 1 x) <= 16) [1; 2]).
  { intros v Hv. assert (Iv : 0 < / v <= 1) by (split; [apply Rinv_0_lt_compat; lra|rewrite <- Rinv_1; apply Rinv_le; lra]). split; [|split; [lra|]].
    - split; [|split; [|split; [reflexivity|split; [|split]]]].
      + repeat apply Forall_cons; try apply Forall_nil; (split; [auto using double_1|]); rewrite Rabs_pos_eq; lra.
      + cbn; lra.
      + repeat apply Forall_cons; try apply Forall_nil; cbn [fst snd]; rewrite N; auto using double_0, double_1.
      + rewrite Rabs_R1. lra.
      + lra.
    - repeat apply Forall_cons; try apply Forall_nil; unfold phase, Rdiv.
      + assert (0 <= PI * / v <= PI * 1) by (split; [apply Rmult_le_pos|apply Rmult_le_compat_l]; lra). rewrite Rabs_pos_eq; lra.
      + assert (0 <= PI * / v <= PI * 1) by (split; [apply Rmult_le_pos|apply Rmult_le_compat_l]; lra). rewrite Rabs_pos_eq; lra. }
  apply (C121_peak _ _ (fun x y => RN (norm x y)) "sqrt" 16 [1; 2] [(1, 0); (1, 0)] 1 [2; 1] [p; q] 1 Gc Gs Gh).
  - intros _. repeat apply Forall_cons; try apply Forall_nil; rewrite Rabs_pos_eq; lra.
  - cbn. lra.
  - lra.
  - repeat apply Forall_cons; try apply Forall_nil; apply U; lra.
  - exact F.
  - cbn. lia.
  - intros [|[|k]] Hk Ne; [|congruence|cbn in Hk; lia]. cbn [nth]. rewrite E1, E2. unfold in_phase. cbn [combine strength contribution String.eqb Ascii.eqb Bool.eqb fst snd].
    rewrite !Nx by lra. unfold beam_error. cbn [List.length INR]. rewrite u_value. lra.
Qed.
