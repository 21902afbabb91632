(* Proofs about the part of a correlation that is kept. *)
From Coq Require Import Lra Lia.
From Verif Require Import FloatModel FloatSpec FloatProofs FloatMuteProofs FloatWindowModel FloatWindowSpec.

Lemma trunc_near x y : Rabs (y - x) <= / 1000 -> (Z.abs (Ztrunc y - Ztrunc x) <= 1)%Z /\ (between x -> Ztrunc y = Ztrunc x).
Proof.
  intros B. apply Rabs_le_inv in B.
  assert (Zt : forall z, IZR (Ztrunc z) = z \/ (0 <= z /\ IZR (Ztrunc z) <= z < IZR (Ztrunc z) + 1) \/ (z <= 0 /\ IZR (Ztrunc z) - 1 < z <= IZR (Ztrunc z))).
  { intros z. destruct (Rle_lt_dec 0 z) as [Hz|Hz].
    - right. left. rewrite Ztrunc_floor by exact Hz. pose proof (Zfloor_lb z). pose proof (Zfloor_ub z). lra.
    - right. right. rewrite Ztrunc_ceil by lra. pose proof (Zceil_ub z). pose proof (Zceil_lb z). lra. }
  split.
  - assert (Q : (-2 < Ztrunc y - Ztrunc x < 2)%Z); [|lia]. split; apply lt_IZR; rewrite minus_IZR; destruct (Zt x) as [X|[X|X]], (Zt y) as [Y|[Y|Y]]; lra.
  - intros H. destruct (Rle_lt_dec 0 x) as [X0|X0].
    + pose proof (H (Zfloor x)) as H0. pose proof (H (Zfloor x + 1)%Z) as H1. rewrite plus_IZR in H1. pose proof (Zfloor_lb x) as L. pose proof (Zfloor_ub x) as U.
      assert (A1 : / 1000 < x - IZR (Zfloor x)) by (rewrite Rabs_right in H0; lra). assert (A2 : / 1000 < IZR (Zfloor x) + 1 - x) by (rewrite Rabs_left in H1; lra).
      assert (A3 : 0 <= IZR (Zfloor x)) by (apply IZR_le, Zfloor_lub; exact X0).
      rewrite (Ztrunc_floor x X0), (Ztrunc_floor y) by lra. apply Zfloor_imp. rewrite plus_IZR. lra.
    + pose proof (H (Zceil x)) as H0. pose proof (H (Zceil x - 1)%Z) as H1. rewrite minus_IZR in H1. pose proof (Zceil_ub x) as L. pose proof (Zceil_lb x) as U.
      assert (A1 : / 1000 < IZR (Zceil x) - x) by (destruct (Rle_lt_or_eq_dec _ _ L) as [Q|Q]; [rewrite Rabs_left in H0; lra|replace (x - IZR (Zceil x)) with 0 in H0 by lra; rewrite Rabs_R0 in H0; lra]).
      assert (A2 : / 1000 < x - (IZR (Zceil x) - 1)) by (rewrite Rabs_right in H1; lra).
      assert (A3 : IZR (Zceil x) <= 0) by (apply IZR_le, Zceil_glb; lra).
      rewrite (Ztrunc_ceil x), (Ztrunc_ceil y) by lra. apply Zceil_imp. rewrite minus_IZR. lra.
Qed.
Lemma time_near o v : 0 <= o <= 10000 -> 1 <= v -> near 2 10000 (RN (o / v)) (o / v).
Proof.
  intros Ho Hv. assert (I : 0 < / v <= 1) by (split; [apply Rinv_0_lt_compat; lra|rewrite <- Rinv_1; apply Rinv_le; lra]).
  assert (B : 0 <= o / v <= 10000 * 1) by (unfold Rdiv; split; [apply Rmult_le_pos; lra|apply Rmult_le_compat; lra]).
  replace 2 with (0 + 2) by ring. apply near_RN; [lra|lra|]. apply near_exact. rewrite Rabs_right; lra.
Qed.
Lemma inv_dt dt : / 10000000 <= dt <= 1 -> 1 <= / dt <= 10000000.
Proof. intros H. split; [rewrite <- Rinv_1; apply Rinv_le; lra|]. rewrite <- (Rinv_inv 10000000). apply Rinv_le; lra. Qed.
Lemma near_below k A x y : near k A x y -> 0 <= k <= 10 -> 0 <= A <= 100010000000 -> Rabs (x - y) <= / 1000.
Proof.
  intros [E _] Hk HA. pose proof u_pos. eapply Rle_trans; [exact E|]. apply Rle_trans with (10 * u * A); [apply Rmult_le_compat_r; [lra|apply Rmult_le_compat_r; lra]|].
  apply Rle_trans with (10 * u * 100010000000); [apply Rmult_le_compat_l; lra|]. rewrite u_value. lra.
Qed.
Lemma window_min omin omax vmin vmax dt : usual_window omin omax vmin vmax dt ->
  exists y, lag_min omin vmax dt = Ztrunc y /\ Rabs (y - earliest omin vmax dt) <= / 1000.
Proof.
  intros (Ho & Hm & Hv & Hd). pose proof (inv_dt dt Hd) as Hi. eexists. split; [reflexivity|].
  assert (N1 : near 2 (10000 + / 2) (RN (omin / vmax) - / 2) (omin / vmax - / 2)).
  { unfold Rminus. apply near_add; [apply time_near; lra|]. apply near_more with 0; [lra|lra|]. apply near_exact. rewrite Rabs_Ropp, Rabs_right; lra. }
  apply near_RN in N1; [|lra|lra]. apply (near_div_exact _ _ dt) in N1; [|lra].
  assert (A : 1 <= (10000 + / 2) / dt <= 100010000000).
  { unfold Rdiv. split; [apply Rle_trans with (1 * 1); [lra|apply Rmult_le_compat; lra]|]. apply Rle_trans with ((10000 + / 2) * 10000000); [apply Rmult_le_compat_l; lra|lra]. }
  apply near_RN in N1; [|lra|lra]. apply (near_below _ _ _ _ N1); lra.
Qed.
Lemma window_max omin omax vmin vmax dt : usual_window omin omax vmin vmax dt ->
  exists y, lag_max omax vmin dt = Ztrunc y /\ Rabs (y - latest omax vmin dt) <= / 1000.
Proof.
  intros (Ho & Hm & Hv & Hd). pose proof (inv_dt dt Hd) as Hi. eexists. split; [reflexivity|].
  pose proof (time_near omax vmin ltac:(lra) ltac:(lra)) as N1. apply (near_div_exact _ _ dt) in N1; [|lra].
  assert (A : 1 <= 10000 / dt <= 100010000000).
  { unfold Rdiv. split; [apply Rle_trans with (1 * 1); [lra|apply Rmult_le_compat; lra]|]. apply Rle_trans with (10000 * 10000000); [apply Rmult_le_compat_l; lra|lra]. }
  apply near_RN in N1; [|lra|lra]. apply (near_below _ _ _ _ N1); lra.
Qed.
(** The window is not inverted. *)
Lemma window_order omin omax vmin vmax dt : usual_window omin omax vmin vmax dt -> (lag_min omin vmax dt <= lag_max omax vmin dt)%Z.
Proof.
  intros (Ho & Hm & Hv & Hd). apply Ztrunc_le, RN_mono. unfold Rdiv. apply Rmult_le_compat_r; [apply Rlt_le, Rinv_0_lt_compat; lra|].
  assert (I : / vmax <= / vmin) by (apply Rinv_le; lra). assert (I0 : 0 < / vmax) by (apply Rinv_0_lt_compat; lra).
  assert (M : RN (omin * / vmax) <= RN (omax * / vmin)).
  { apply RN_mono. apply Rmult_le_compat; lra. }
  apply Rle_trans with (2 := M). apply Rle_trans with (RN (RN (omin * / vmax))); [apply RN_mono; lra|]. rewrite RN_id by apply RN_double. lra.
Qed.
Lemma window_nonneg omin omax vmin vmax dt : usual_window omin omax vmin vmax dt -> (0 <= lag_max omax vmin dt)%Z.
Proof.
  intros (Ho & Hm & Hv & Hd). rewrite <- (Ztrunc_IZR 0). apply Ztrunc_le.
  assert (P : 0 <= RN (omax / vmin)).
  { rewrite <- FloatNormProofs.RN_0. apply RN_mono. unfold Rdiv. apply Rmult_le_pos; [lra|apply Rlt_le, Rinv_0_lt_compat; lra]. }
  rewrite <- FloatNormProofs.RN_0. apply RN_mono. unfold Rdiv. apply Rmult_le_pos; [exact P|apply Rlt_le, Rinv_0_lt_compat; lra].
Qed.
