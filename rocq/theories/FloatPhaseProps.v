(* C113: the power of the phase-shift transform in double precision (/repo/swprocess/wavefieldtransforms.py:571-578). *)
From Coq Require Import Lra Lia.
From Verif Require Import FloatModel FloatSpec FloatProofs FloatStatModel FloatNormModel FloatNormProofs FloatXcorrProofs FloatPhaseModel FloatPhaseSpec FloatPhaseProofs.

(** Each entry differs from the exact power by a number of rounding errors, in proportion to the length of the array, that
    grows with the largest phase and the number of receivers, in whatever order the sum over the receivers is taken. *)
Theorem C113_power : forall cos_ sin_ hypot_ T xs Fs f v p, good_cos cos_ -> good_sin sin_ -> good_hypot hypot_ -> usual xs Fs f v ->
  0 <= T <= 1000000000 -> Forall (fun x => Rabs (phase v f x) <= T) xs -> power_of cos_ sin_ hypot_ xs Fs f v p ->
  Rabs (p - phase_power xs Fs f v) <= allowed (phase_error T) xs.
Proof. exact phase_power_error. Qed.
Print Assumptions C113_power.
(** So it exceeds the length of the array by no more than that. *)
Theorem C113_bound : forall cos_ sin_ hypot_ T xs Fs f v p, good_cos cos_ -> good_sin sin_ -> good_hypot hypot_ -> usual xs Fs f v ->
  0 <= T <= 1000000000 -> Forall (fun x => Rabs (phase v f x) <= T) xs -> power_of cos_ sin_ hypot_ xs Fs f v p ->
  - allowed (phase_error T) xs <= p <= extent xs + allowed (phase_error T) xs.
Proof.
  intros cos_ sin_ hypot_ T xs Fs f v p Gc Gs Gh Hu HT Ht H. pose proof (C113_power cos_ sin_ hypot_ T xs Fs f v p Gc Gs Gh Hu HT Ht H) as E.
  assert (B : 0 <= phase_power xs Fs f v <= extent xs).
  { split; [apply norm_nonneg|]. apply power_bound, unit_phases. destruct Hu as (_ & _ & _ & HF & _). eapply Forall_impl; [|exact HF].
    cbn. intros F (_ & _ & M & _). apply Rlt_le_trans with (2 := M). apply Rinv_0_lt_compat, IZR_lt. reflexivity. }
  apply Rabs_le_inv in E. lra.
Qed.
Print Assumptions C113_bound.
(** The velocity with the greatest exact power is the peak of the computed powers if it is ahead of the others by more than
    twice the error. *)
Theorem C113_peak : forall cos_ sin_ hypot_ T xs Fs f vs ps i, good_cos cos_ -> good_sin sin_ -> good_hypot hypot_ ->
  0 <= T <= 1000000000 -> Forall (fun v => usual xs Fs f v /\ Forall (fun x => Rabs (phase v f x) <= T) xs) vs ->
  Forall2 (power_of cos_ sin_ hypot_ xs Fs f) vs ps -> (i < length vs)%nat ->
  (forall k, (k < length vs)%nat -> k <> i -> phase_power xs Fs f (nth k vs 0) + 2 * allowed (phase_error T) xs < phase_power xs Fs f (nth i vs 0)) ->
  argmax ps = i.
Proof.
  intros cos_ sin_ hypot_ T xs Fs f vs ps i Gc Gs Gh HT Hv H Hi B. assert (L : length ps = length vs) by (clear -H; induction H; cbn; congruence).
  assert (N : forall k, (k < length ps)%nat -> nth k (map (phase_power xs Fs f) vs) 0 = phase_power xs Fs f (nth k vs 0)).
  { intros k Hk. rewrite (nth_indep _ 0 (phase_power xs Fs f 0)) by (rewrite map_length; lia). apply map_nth. }
  apply (peak_found (allowed (phase_error T) xs) ps (map (phase_power xs Fs f) vs)); [|lia|].
  - intros k Hk. rewrite (N k Hk). assert (P : power_of cos_ sin_ hypot_ xs Fs f (nth k vs 0) (nth k ps 0)).
    { clear -H Hk L. rewrite L in Hk. clear L. revert k Hk. induction H as [|v p vs ps P H IH]; intros [|k] Hk; cbn in *; try lia; auto. apply IH. lia. }
    assert (Q : In (nth k vs 0) vs) by (apply nth_In; lia). rewrite Forall_forall in Hv. destruct (Hv _ Q). now apply (C113_power cos_ sin_ hypot_).
  - intros k Hk Ne. rewrite (N k Hk), (N i) by lia. apply B; lia.
Qed.
Print Assumptions C113_peak.

(* a correctly rounded C library is good *)
Lemma rounded_cos : good_cos (fun t => RN (cos t)) /\ good_sin (fun t => RN (sin t)) /\ good_hypot (fun x y => RN (norm x y)).
Proof.
  pose proof u_pos as U0. pose proof tiny_pos as T0. assert (T1 : tiny <= u) by (pose proof tiny_small; rewrite u_value; lra).
  split; [|split].
  - intros t _. pose proof (RN_error (cos t)) as E. pose proof (COS_bound t) as C. assert (Rabs (cos t) <= 1) by (apply Rabs_le; lra).
    assert (u * Rabs (cos t) <= u * 1) by (apply Rmult_le_compat_l; lra). lra.
  - intros t _. pose proof (RN_error (sin t)) as E. pose proof (SIN_bound t) as C. assert (Rabs (sin t) <= 1) by (apply Rabs_le; lra).
    assert (u * Rabs (sin t) <= u * 1) by (apply Rmult_le_compat_l; lra). lra.
  - intros x y _ _. pose proof (RN_error (norm x y)) as E. pose proof (norm_nonneg x y) as N. rewrite (Rabs_right (norm x y)) in E by lra.
    assert (0 <= u * norm x y) by (apply Rmult_le_pos; lra). lra.
Qed.
(* Two receivers 1 m apart that record the same signal: at 1 Hz the power is the length of the array for a wave of 1 m/s and
   zero for a wave of 2 m/s; the second of the velocities 2 and 1 is found. *)
Example C113_example : exists ps, Forall2 (power_of (fun t => RN (cos t)) (fun t => RN (sin t)) (fun x y => RN (norm x y)) [0; 1] [(1, 0); (1, 0)] 1) [2; 1] ps /\
  argmax ps = 1%nat.
Proof.
  destruct rounded_cos as (Gc & Gs & Gh).
  assert (Ex : forall v, exists p, power_of (fun t => RN (cos t)) (fun t => RN (sin t)) (fun x y => RN (norm x y)) [0; 1] [(1, 0); (1, 0)] 1 v p).
  { intros v. unfold power_of, integral_of. eexists. eexists (Leaf _), (Leaf _). cbn [combine map panels leaves]. split; [reflexivity|]. split; reflexivity. }
  destruct (Ex 2) as [p P]. destruct (Ex 1) as [q Q]. exists [p; q]. assert (F : Forall2 (power_of (fun t => RN (cos t)) (fun t => RN (sin t)) (fun x y => RN (norm x y)) [0; 1] [(1, 0); (1, 0)] 1) [2; 1] [p; q]) by (repeat constructor; auto).
  split; [exact F|]. pose proof PI_RGT_0 as P0. pose proof PI_4 as P4. assert (N : norm 1 0 = 1) by (unfold norm; rewrite Rmult_0_l, Rplus_0_r, Rmult_1_l; apply sqrt_1).
  assert (E1 : phase_power [0; 1] [(1, 0); (1, 0)] 1 1 = 1).
  { unfold phase_power, exact_power, unit_re, unit_im, phase. cbn [combine map fst snd trapezoid]. rewrite N.
    replace (2 * PI * 1 * 0 / 1) with 0 by (unfold Rdiv; ring). replace (2 * PI * 1 * 1 / 1) with (2 * PI) by field. rewrite cos_0, sin_0, cos_2PI, sin_2PI.
    replace ((1 - 0) * (((1 * 1 - 0 * 0) / 1 + (1 * 1 - 0 * 0) / 1) / 2) + 0) with 1 by field. replace ((1 - 0) * (((1 * 0 + 0 * 1) / 1 + (1 * 0 + 0 * 1) / 1) / 2) + 0) with 0 by field. exact N. }
  assert (E2 : phase_power [0; 1] [(1, 0); (1, 0)] 1 2 = 0).
  { unfold phase_power, exact_power, unit_re, unit_im, phase. cbn [combine map fst snd trapezoid]. rewrite N.
    replace (2 * PI * 1 * 0 / 2) with 0 by (unfold Rdiv; ring). replace (2 * PI * 1 * 1 / 2) with PI by field. rewrite cos_0, sin_0, cos_PI, sin_PI.
    replace ((1 - 0) * (((1 * 1 - 0 * 0) / 1 + (-1 * 1 - 0 * 0) / 1) / 2) + 0) with 0 by field. replace ((1 - 0) * (((1 * 0 + 0 * 1) / 1 + (-1 * 0 + 0 * 1) / 1) / 2) + 0) with 0 by field.
    unfold norm. rewrite Rmult_0_l, Rplus_0_r. apply sqrt_0. }
  assert (I : / IZR (2 ^ 400) <= 1 <= IZR (2 ^ 400)).
  { split; [rewrite <- Rinv_1; apply Rinv_le; [lra|]|]; apply IZR_le; intros H; discriminate H. }
  assert (U : forall v, 1 <= v -> usual [0; 1] [(1, 0); (1, 0)] 1 v /\ Forall (fun x => Rabs (phase v 1 x) <= 8) [0; 1]).
  { intros v Hv. assert (Iv : 0 < / v <= 1) by (split; [apply Rinv_0_lt_compat; lra|rewrite <- Rinv_1; apply Rinv_le; lra]). split.
    - split; [|split; [|split; [reflexivity|split; [|split]]]].
      + repeat constructor; auto using double_0, double_1; rewrite ?Rabs_R0, ?Rabs_R1; lra.
      + cbn; lra.
      + assert (X : double (fst (1, 0)) /\ double (snd (1, 0)) /\ / IZR (2 ^ 400) <= norm (fst (1, 0)) (snd (1, 0)) <= IZR (2 ^ 400)) by (cbn [fst snd]; rewrite N; auto using double_0, double_1).
        constructor; [exact X|]. constructor; [exact X|constructor].
      + rewrite Rabs_R1. lra.
      + lra.
    - assert (2 * PI * / v <= 8 * 1) by (apply Rmult_le_compat; lra). assert (0 <= 2 * PI * / v) by (apply Rmult_le_pos; lra). constructor; [|constructor; [|constructor]]; unfold phase, Rdiv.
      + rewrite Rmult_0_r, Rmult_0_l, Rabs_R0. lra.
      + rewrite !Rmult_1_r. rewrite Rabs_right; lra. }
  apply (C113_peak _ _ _ 8 [0; 1] [(1, 0); (1, 0)] 1 [2; 1] [p; q] 1 Gc Gs Gh); try (cbn; lia); try lra; auto.
  - constructor; [|constructor; [|constructor]]; apply U; lra.
  - intros k Hk Ne. destruct k as [|[|k]]; [|lia|cbn in Hk; lia]. cbn [nth]. rewrite E1, E2. unfold allowed, phase_error. cbn [extent length INR].
    rewrite Rminus_0_r, Rabs_R1. pose proof tiny_small. rewrite u_value. lra.
Qed.
