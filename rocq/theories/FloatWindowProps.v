(* C114: the part of a correlation that is kept, in double precision (/repo/swprocess/array1d.py:856-866). *)
From Coq Require Import Lra Lia.
From Verif Require Import FloatModel FloatSpec FloatProofs FloatSlantProofs FloatWindowModel FloatWindowSpec FloatWindowProofs.

(** The full property, that the bounds are those of exact arithmetic, is refuted below.  Each is at most one sample away,
    and exact unless its time is within a thousandth of a sample of a sample. *)
Theorem C114_bounds_partial : forall n omin omax vmin vmax dt lo hi, usual_window omin omax vmin vmax dt -> window n omin omax vmin vmax dt = (lo, hi) ->
  let lo' := (Z.of_nat n + Ztrunc (earliest omin vmax dt))%Z in let hi' := (Z.of_nat n + Ztrunc (latest omax vmin dt))%Z in
  (Z.abs (lo - lo') <= 1)%Z /\ (Z.abs (hi - hi') <= 1)%Z /\ (between (earliest omin vmax dt) -> lo = lo') /\ (between (latest omax vmin dt) -> hi = hi').
Proof.
  intros n omin omax vmin vmax dt lo hi U E lo' hi'. injection E as <- <-. destruct (window_min _ _ _ _ _ U) as (y & E1 & B1). destruct (window_max _ _ _ _ _ U) as (z & E2 & B2).
  destruct (trunc_near _ _ B1) as [P1 Q1]. destruct (trunc_near _ _ B2) as [P2 Q2]. unfold lo', hi'. rewrite E1, E2. repeat split; [lia|lia| |]; intros H; [rewrite Q1 by exact H|rewrite Q2 by exact H]; reflexivity.
Qed.
Print Assumptions C114_bounds_partial.
(** The window is never inverted and never ends before the lag zero. *)
Theorem C114_order : forall n omin omax vmin vmax dt lo hi, usual_window omin omax vmin vmax dt -> window n omin omax vmin vmax dt = (lo, hi) ->
  (lo <= hi)%Z /\ (Z.of_nat n <= hi)%Z.
Proof.
  intros n omin omax vmin vmax dt lo hi U E. injection E as <- <-. pose proof (window_order _ _ _ _ _ U). pose proof (window_nonneg _ _ _ _ _ U). lia.
Qed.
Print Assumptions C114_order.
(** A wider range of velocities or of offsets never gives a smaller window. *)
Theorem C114_wider : forall n omin omax vmin vmax omin' omax' vmin' vmax' dt lo hi lo' hi',
  usual_window omin omax vmin vmax dt -> usual_window omin' omax' vmin' vmax' dt -> omin' <= omin -> omax <= omax' -> vmin' <= vmin -> vmax <= vmax' ->
  window n omin omax vmin vmax dt = (lo, hi) -> window n omin' omax' vmin' vmax' dt = (lo', hi') -> (lo' <= lo /\ hi <= hi')%Z.
Proof.
  intros n omin omax vmin vmax omin' omax' vmin' vmax' dt lo hi lo' hi' (A1 & A2 & A3 & A4) (B1 & B2 & B3 & _) H1 H2 H3 H4 E E'. injection E as <- <-. injection E' as <- <-.
  assert (D : 0 < / dt) by (apply Rinv_0_lt_compat; lra).
  assert (I1 : / vmax' <= / vmax) by (apply Rinv_le; lra). assert (I2 : / vmin <= / vmin') by (apply Rinv_le; lra).
  assert (0 < / vmax') by (apply Rinv_0_lt_compat; lra). assert (0 < / vmin) by (apply Rinv_0_lt_compat; lra).
  split; apply Zplus_le_compat_l, Ztrunc_le, RN_mono; unfold Rdiv; (apply Rmult_le_compat_r; [lra|]).
  - apply RN_mono. apply Rplus_le_compat_r, RN_mono, Rmult_le_compat; lra.
  - apply RN_mono, Rmult_le_compat; lra.
Qed.
Print Assumptions C114_wider.

(* the default velocities, receivers from 5 m to 51 m, 1 s: the last lag is 1.02 s, the first -0.4983 s *)
Example C114_example : exists lo hi, window 100 5 51 50 3000 1 = (lo, hi) /\ usual_window 5 51 50 3000 1 /\ (lo = 100 /\ hi = 101)%Z.
Proof.
  eexists. eexists. split; [reflexivity|]. assert (U : usual_window 5 51 50 3000 1) by (unfold usual_window; lra). split; [exact U|].
  destruct (C114_bounds_partial 100 5 51 50 3000 1 _ _ U eq_refl) as (_ & _ & A & B). unfold earliest, latest in *.
  replace ((5 / 3000 - / 2) / 1) with (- (299 / 600)) in A by field. replace (51 / 50 / 1) with (51 / 50) in B by field.
  assert (FA : Ztrunc (- (299 / 600)) = 0%Z). { rewrite Ztrunc_ceil by lra. apply Zceil_imp. cbn. lra. }
  assert (FB : Ztrunc (51 / 50) = 1%Z). { rewrite Ztrunc_floor by lra. apply Zfloor_imp. cbn. lra. }
  rewrite FA in A. rewrite FB in B. split.
  - rewrite A; [reflexivity|]. intros k. destruct (Z_le_gt_dec k (-1)) as [L|L]; [apply IZR_le in L; rewrite Rabs_right; lra|].
    assert (L' : (0 <= k)%Z) by lia. apply IZR_le in L'. rewrite Rabs_left; lra.
  - rewrite B; [reflexivity|]. intros k. destruct (Z_le_gt_dec k 1) as [L|L]; [apply IZR_le in L; rewrite Rabs_right; lra|].
    assert (L' : (2 <= k)%Z) by lia. apply IZR_le in L'. rewrite Rabs_left; lra.
Qed.

Local Ltac numbers := cbn [bpow radix_val radix2 Z.pow_pos Pos.iter Z.mul Pos.mul]; unfold Rdiv; lra.
(** An offset of 1 m, 50 m/s and the double nearest to 1 ms, which is a little more than 1 ms: the wave arrives before sample
    20, but the computed quotient is 20. *)
Theorem C114_bounds_refuted : exists n omin omax vmin vmax dt lo hi, usual_window omin omax vmin vmax dt /\ double omin /\ double omax /\ double vmin /\ double vmax /\ double dt /\
  window n omin omax vmin vmax dt = (lo, hi) /\ hi <> (Z.of_nat n + Ztrunc (latest omax vmin dt))%Z.
Proof.
  exists 100%nat, 1, 1, 50, 3000, (1152921504606847 * bpow radix2 (-60)). eexists. eexists.
  assert (K : forall z, (Z.abs z <= 2 ^ 53)%Z -> double (IZR z)) by (intros z Hz; rewrite <- (RN_int z Hz); apply RN_double).
  split; [repeat split; try lra; numbers|]. split; [apply K; lia|]. split; [apply K; lia|]. split; [apply K; lia|]. split; [apply K; lia|].
  split. { apply generic_format_FLT. exists (Float radix2 1152921504606847 (-60)); [reflexivity|cbn; lia|cbn; lia]. }
  split; [reflexivity|]. unfold lag_max, latest.
  assert (Q1 : RN (1 / 50) = 5764607523034235 * bpow radix2 (-58)) by (apply RN_concrete; [lia|split; numbers|apply Rabs_def1; numbers]).
  assert (Iv : / (1152921504606847 * bpow radix2 (-60)) = 1152921504606846976 / 1152921504606847).
  { cbn [bpow radix_val radix2 Z.pow_pos Pos.iter Z.mul Pos.mul]. field. }
  rewrite Q1. unfold Rdiv at 1 2. rewrite Iv. assert (Q2 : RN (5764607523034235 * bpow radix2 (-58) * (1152921504606846976 / 1152921504606847)) = 5629499534213120 * bpow radix2 (-48)) by (apply RN_concrete; [lia|split; numbers|apply Rabs_def1; numbers]).
  rewrite Q2. replace (5629499534213120 * bpow radix2 (-48)) with (IZR 20) by numbers. rewrite Ztrunc_IZR.
  assert (F : Ztrunc (1 / 50 * (1152921504606846976 / 1152921504606847)) = 19%Z).
  { rewrite Ztrunc_floor by numbers. apply Zfloor_imp. change (19 + 1)%Z with 20%Z; split; numbers. }
  rewrite F. lia.
Qed.
Print Assumptions C114_bounds_refuted.
