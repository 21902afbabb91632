(* Proofs on the values of the slant stack in double precision. *)
From Coq Require Import Lra Lia.
From Verif Require Import FloatModel FloatSpec FloatProofs FloatSlantModel FloatSlantSpec FloatSlantProofs FloatStatModel FloatStatSpec FloatStatProofs FloatTaupModel FloatTaupSpec.
Local Open Scope R_scope.

Lemma interp_bound trace A x : (forall i, Rabs (trace i) <= A) -> Rabs (interp trace x) <= A.
Proof.
  intros H. unfold interp. set (w := x - IZR (Zfloor x)).
  assert (W : 0 <= w <= 1). { unfold w. pose proof (Zfloor_lb x). pose proof (Zfloor_ub x). lra. }
  pose proof (H (Zfloor x)) as H1. pose proof (H (Zfloor x + 1)%Z) as H2.
  eapply Rle_trans; [apply Rabs_triang|]. rewrite !Rabs_mult, (Rabs_pos_eq w), (Rabs_pos_eq (1 - w)) by lra.
  assert (P1 : Rabs (trace (Zfloor x)) * (1 - w) <= A * (1 - w)) by (apply Rmult_le_compat_r; lra).
  assert (P2 : Rabs (trace (Zfloor x + 1)%Z) * w <= A * w) by (apply Rmult_le_compat_r; lra). lra.
Qed.

Definition good (dt v A T : R) (r : receiver) : Prop := double (fst r) /\ (forall i, Rabs (snd r i) <= A) /\
  (fst r = 0 /\ 0 < dt /\ 0 < v \/ sizes_ok dt (fst r) v) /\ fst r / (v * dt) <= T.

Section Line.
Context (dt v A T : R) (tau : Z) (HT : T <= 1099511627776).
Let E := reading_error A T.
Let B := A + E.
Lemma good_A r : good dt v A T r -> 0 <= A.
Proof. intros (_ & H & _). pose proof (H 0%Z). pose proof (Rabs_pos (snd r 0%Z)). lra. Qed.
Lemma good_T r : good dt v A T r -> 0 <= fst r / (v * dt) <= T.
Proof.
  intros (_ & _ & H & HT'). split; [|exact HT']. destruct H as [(-> & _)|(H1 & H2 & H3)].
  - unfold Rdiv. lra.
  - apply Rmult_le_pos; [lra|]. apply Rlt_le, Rinv_0_lt_compat, Rmult_lt_0_compat; lra.
Qed.
Lemma read_near r : good dt v A T r -> Rabs (read dt v tau r - arrival dt v tau r) <= E.
Proof.
  intros G. pose proof (good_T r G) as [T0 T1]. pose proof (good_A r G) as A0. destruct G as (D & H & S & _).
  eapply Rle_trans; [apply (amplitude_near (snd r) A dt (fst r) v tau H S); lra|]. unfold E, reading_error.
  pose proof u_pos as U0.
  assert (P : A * (12 * u * (fst r / (v * dt)) + 8 * u) <= A * (12 * u * T + 8 * u)).
  { apply Rmult_le_compat_l; [exact A0|]. apply Rplus_le_compat_r. apply Rmult_le_compat_l; lra. }
  lra.
Qed.
Lemma piece_near r r' : good dt v A T r -> good dt v A T r' -> fst r <= fst r' ->
  let d := fst r' - fst r in
  Rabs (piece dt v tau r r' - d * ((arrival dt v tau r' + arrival dt v tau r) / 2)) <= d * (E + 5 * (u * B)) + tiny * (5 * B + 1).
Proof.
  intros G G' Hd d. pose proof u_pos as U0. pose proof tiny_pos as T0. assert (U1 : u <= / 1000000000000000) by (rewrite u_value; lra).
  pose proof (read_near r G) as R1. pose proof (read_near r' G') as R2.
  assert (E0 : 0 <= E) by (eapply Rle_trans; [apply Rabs_pos|exact R1]).
  pose proof (good_A r G) as A0. assert (B0 : 0 <= B) by (unfold B; lra).
  destruct G as (D & H & _). destruct G' as (D' & H' & _).
  assert (I1 : Rabs (arrival dt v tau r) <= A) by now apply interp_bound.
  assert (I2 : Rabs (arrival dt v tau r') <= A) by now apply interp_bound.
  set (a := read dt v tau r) in *. set (a' := read dt v tau r') in *. set (i := arrival dt v tau r) in *. set (i' := arrival dt v tau r') in *.
  assert (Da : double a) by apply RN_double. assert (Da' : double a') by apply RN_double.
  assert (d0 : 0 <= d) by (unfold d; lra).
  (* the half distance *)
  pose proof (sub_error (fst r') (fst r) D' D) as S1. fold d in S1. rewrite (Rabs_pos_eq d) in S1 by exact d0.
  set (dd := RN d) in *. pose proof (RN_error (/ 2 * dd)) as S2. set (h := RN (/ 2 * dd)) in *.
  assert (dd0 : Rabs (/ 2 * dd) <= / 2 * d * (1 + u)).
  { apply Rabs_le. apply Rabs_le_inv in S1. assert (0 <= u * d) by (apply Rmult_le_pos; lra). lra. }
  assert (S3 : Rabs (h - / 2 * d) <= 21 / 20 * (u * d) + tiny).
  { replace (h - / 2 * d) with ((h - / 2 * dd) + / 2 * (dd - d)) by ring. eapply Rle_trans; [apply Rabs_triang|].
    rewrite Rabs_mult, (Rabs_pos_eq (/ 2)) by lra.
    assert (P : u * Rabs (/ 2 * dd) <= u * (/ 2 * d * (1 + u))) by (apply Rmult_le_compat_l; lra).
    assert (Q : u * (u * d) <= / 1000000000000000 * (u * d)) by (apply Rmult_le_compat_r; [apply Rmult_le_pos; lra|exact U1]).
    assert (Q0 : 0 <= u * d) by (apply Rmult_le_pos; lra). lra. }
  (* the sum of the amplitudes *)
  pose proof (add_error a' a Da' Da) as S4. set (s := RN (a' + a)) in *.
  assert (K1 : Rabs (a' + a) <= 2 * B).
  { replace (a' + a) with ((a' - i') + (a - i) + i' + i) by ring. unfold B.
    eapply Rle_trans; [apply Rabs_triang|]. eapply Rle_trans; [apply Rplus_le_compat_r, Rabs_triang|].
    eapply Rle_trans; [apply Rplus_le_compat_r, Rplus_le_compat_r, Rabs_triang|]. lra. }
  assert (UB : u * Rabs (a' + a) <= 2 * (u * B)).
  { replace (2 * (u * B)) with (u * (2 * B)) by ring. apply Rmult_le_compat_l; lra. }
  assert (UB0 : 0 <= u * B) by (apply Rmult_le_pos; lra).
  assert (UB1 : u * B <= / 1000000000000000 * B) by (apply Rmult_le_compat_r; lra).
  assert (S5 : Rabs (s - (i' + i)) <= 2 * E + 2 * (u * B)).
  { replace (s - (i' + i)) with ((s - (a' + a)) + ((a' - i') + (a - i))) by ring. eapply Rle_trans; [apply Rabs_triang|].
    eapply Rle_trans; [apply Rplus_le_compat_l, Rabs_triang|]. lra. }
  assert (S6 : Rabs s <= 21 / 10 * B).
  { replace s with ((s - (a' + a)) + (a' + a)) by ring. eapply Rle_trans; [apply Rabs_triang|]. lra. }
  (* the product *)
  pose proof (RN_error (h * s)) as S7. unfold piece. fold a a'. fold d dd h s.
  assert (ud0 : 0 <= u * d) by (apply Rmult_le_pos; lra).
  assert (ud1 : u * d <= / 1000000000000000 * d) by (apply Rmult_le_compat_r; lra).
  assert (X1 : Rabs ((h - / 2 * d) * s) <= (21 / 20 * (u * d) + tiny) * (21 / 10 * B)).
  { rewrite Rabs_mult. apply Rmult_le_compat; auto using Rabs_pos. }
  assert (X2 : Rabs (/ 2 * d * (s - (i' + i))) <= / 2 * d * (2 * E + 2 * (u * B))).
  { rewrite Rabs_mult, (Rabs_pos_eq (/ 2 * d)) by lra. apply Rmult_le_compat_l; lra. }
  assert (X3 : Rabs h <= 51 / 100 * d + tiny).
  { replace h with ((h - / 2 * d) + / 2 * d) by ring. eapply Rle_trans; [apply Rabs_triang|]. rewrite (Rabs_pos_eq (/ 2 * d)) by lra. lra. }
  assert (X4 : Rabs (h * s) <= (51 / 100 * d + tiny) * (21 / 10 * B)).
  { rewrite Rabs_mult. apply Rmult_le_compat; auto using Rabs_pos. }
  assert (X5 : u * Rabs (h * s) <= u * ((51 / 100 * d + tiny) * (21 / 10 * B))) by (apply Rmult_le_compat_l; lra).
  replace (RN (h * s) - d * ((i' + i) / 2)) with ((RN (h * s) - h * s) + ((h - / 2 * d) * s + / 2 * d * (s - (i' + i)))) by field.
  eapply Rle_trans; [apply Rabs_triang|]. eapply Rle_trans; [apply Rplus_le_compat_l, Rabs_triang|].
  assert (Y0 : 0 <= d * (u * B)) by (apply Rmult_le_pos; lra).
  assert (Y1 : 0 <= tiny * B) by (apply Rmult_le_pos; lra).
  assert (Y2 : u * (tiny * B) <= / 1000000000000000 * (tiny * B)) by (apply Rmult_le_compat_r; lra).
  replace ((21 / 20 * (u * d) + tiny) * (21 / 10 * B)) with (441 / 200 * (d * (u * B)) + 21 / 10 * (tiny * B)) in X1 by field.
  replace (/ 2 * d * (2 * E + 2 * (u * B))) with (d * E + d * (u * B)) in X2 by field.
  replace (u * ((51 / 100 * d + tiny) * (21 / 10 * B))) with (1071 / 1000 * (d * (u * B)) + 21 / 10 * (u * (tiny * B))) in X5 by field.
  replace (d * (E + 5 * (u * B)) + tiny * (5 * B + 1)) with (d * E + 5 * (d * (u * B)) + 5 * (tiny * B) + tiny) by ring.
  lra.
Qed.
Lemma good_nonneg r : good dt v A T r -> 0 <= E /\ 0 <= B.
Proof.
  intros G. pose proof (read_near r G) as R1. assert (0 <= E) by (eapply Rle_trans; [apply Rabs_pos|exact R1]).
  pose proof (good_A r G). unfold B. lra.
Qed.
Lemma piece_size r r' : good dt v A T r -> good dt v A T r' -> fst r <= fst r' ->
  Rabs (piece dt v tau r r') <= 2 * ((fst r' - fst r) * B) + tiny * (5 * B + 1).
Proof.
  intros G G' Hd. pose proof (piece_near r r' G G' Hd) as P. cbv zeta in P. set (d := fst r' - fst r) in *.
  assert (d0 : 0 <= d) by (unfold d; lra). destruct (good_nonneg r G) as [E0 B0]. pose proof (good_A r G) as A0.
  assert (I1 : Rabs (arrival dt v tau r) <= A) by (apply interp_bound, G).
  assert (I2 : Rabs (arrival dt v tau r') <= A) by (apply interp_bound, G').
  set (m := (arrival dt v tau r' + arrival dt v tau r) / 2) in *.
  assert (M : Rabs m <= A).
  { unfold m, Rdiv. rewrite Rabs_mult, (Rabs_pos_eq (/ 2)) by lra. pose proof (Rabs_triang (arrival dt v tau r') (arrival dt v tau r)). lra. }
  assert (M2 : Rabs (d * m) <= d * A) by (rewrite Rabs_mult, (Rabs_pos_eq d) by lra; apply Rmult_le_compat_l; lra).
  replace (piece dt v tau r r') with ((piece dt v tau r r' - d * m) + d * m) by ring. eapply Rle_trans; [apply Rabs_triang|].
  pose proof u_pos as U0. assert (U1 : u <= / 1000000000000000) by (rewrite u_value; lra).
  assert (Q : d * (u * B) <= d * (/ 1000000000000000 * B)) by (apply Rmult_le_compat_l; [exact d0|]; apply Rmult_le_compat_r; lra).
  assert (Q0 : 0 <= d * B) by (apply Rmult_le_pos; lra).
  assert (Q1 : d * B = d * A + d * E) by (unfold B; ring). lra.
Qed.
Lemma pieces_near rs : ordered rs -> Forall (good dt v A T) rs -> rs <> [] ->
  0 <= aperture rs /\ Forall double (pieces dt v tau rs) /\ length (pieces dt v tau rs) = (length rs - 1)%nat /\
  Rabs (Rsum (pieces dt v tau rs) - trapezoids dt v tau rs) <= aperture rs * (E + 5 * (u * B)) + INR (length rs - 1) * (tiny * (5 * B + 1)) /\
  Rsum (map Rabs (pieces dt v tau rs)) <= 2 * (aperture rs * B) + INR (length rs - 1) * (tiny * (5 * B + 1)).
Proof.
  induction rs as [|r rs IH]; intros O F N; [easy|]. destruct rs as [|r' rs].
  - cbn. unfold aperture. cbn. rewrite !Rminus_diag_eq by reflexivity. rewrite Rabs_R0.
    split; [lra|]. split; [constructor|]. split; [reflexivity|]. split; lra.
  - destruct O as [O1 O2]. inversion F as [|? ? G F']; subst. assert (G' : good dt v A T r') by now inversion F'.
    destruct (IH O2 F' ltac:(discriminate)) as (H0 & H1 & H2 & H3 & H4).
    assert (AP : aperture (r :: r' :: rs) = (fst r' - fst r) + aperture (r' :: rs)).
    { unfold aperture. cbn [hd]. change (last (r :: r' :: rs) (0, fun _ : Z => 0)) with (last (r' :: rs) (0, fun _ : Z => 0)). ring. }
    pose proof (piece_near r r' G G' O1) as P. cbv zeta in P. pose proof (piece_size r r' G G' O1) as Q.
    change (pieces dt v tau (r :: r' :: rs)) with (piece dt v tau r r' :: pieces dt v tau (r' :: rs)).
    change (trapezoids dt v tau (r :: r' :: rs)) with ((fst r' - fst r) * ((arrival dt v tau r' + arrival dt v tau r) / 2) + trapezoids dt v tau (r' :: rs)).
    assert (L : INR (length (r :: r' :: rs) - 1) = INR (length (r' :: rs) - 1) + 1).
    { rewrite <- S_INR. f_equal. cbn. lia. }
    rewrite AP, L. cbn [map]. change (Rsum (piece dt v tau r r' :: ?l)) with (piece dt v tau r r' + Rsum l).
    change (Rsum (Rabs (piece dt v tau r r') :: ?l)) with (Rabs (piece dt v tau r r') + Rsum l).
    split; [lra|]. split; [constructor; [apply RN_double|exact H1]|]. split; [cbn in *; lia|]. split.
    + set (x := piece dt v tau r r') in *. set (y := (fst r' - fst r) * _) in *.
      replace (x + Rsum (pieces dt v tau (r' :: rs)) - (y + trapezoids dt v tau (r' :: rs)))
        with ((x - y) + (Rsum (pieces dt v tau (r' :: rs)) - trapezoids dt v tau (r' :: rs))) by ring.
      eapply Rle_trans; [apply Rabs_triang|]. lra.
    + lra.
Qed.
Lemma summation_near rs y : ordered rs -> Forall (good dt v A T) rs -> rs <> [] -> INR (length rs) <= 1073741824 -> summation dt v tau rs y ->
  Rabs (y - trapezoids dt v tau rs) <=
  aperture rs * (E + (5 + 3 * INR (length rs)) * (u * B)) + 2 * INR (length rs) * (tiny * (5 * B + 1)).
Proof.
  intros O F N L S. destruct (pieces_near rs O F N) as (H0 & H1 & H2 & H3 & H4).
  pose proof u_pos as U0. pose proof tiny_pos as T0. assert (U1 : u = / 9007199254740992) by (rewrite u_value; lra).
  assert (EB : 0 <= E /\ 0 <= B). { destruct rs as [|r rs]; [easy|]. apply (good_nonneg r). now inversion F. }
  destruct EB as [E0 B0].
  set (D := aperture rs) in *. set (n := INR (length rs)) in *. set (m := INR (length rs - 1)) in *.
  assert (n1 : 1 <= n) by (unfold n; change 1 with (INR 1); apply le_INR; destruct rs; [easy|cbn; lia]).
  assert (mn : m = n - 1) by (unfold m, n; rewrite minus_INR; [reflexivity|destruct rs; [easy|cbn; lia]]).
  set (t5 := tiny * (5 * B + 1)) in *. assert (t50 : 0 <= t5) by (apply Rmult_le_pos; lra).
  assert (DB : 0 <= D * B) by (apply Rmult_le_pos; lra). assert (uB : 0 <= u * B) by (apply Rmult_le_pos; lra).
  assert (DuB : D * (u * B) = u * (D * B)) by ring. assert (uDB : 0 <= u * (D * B)) by (apply Rmult_le_pos; lra).
  assert (nuDB : 0 <= (n - 1) * (u * (D * B))) by (apply Rmult_le_pos; lra).
  assert (nt : 0 <= (n - 1) * t5) by (apply Rmult_le_pos; lra).
  replace (D * (E + (5 + 3 * n) * (u * B)) + 2 * n * t5) with (D * (E + 5 * (u * B)) + 3 * ((n - 1) * (u * (D * B))) + 3 * (u * (D * B)) + 2 * (n - 1) * t5 + 2 * t5) by ring.
  unfold summation in S. destruct (pieces dt v tau rs) as [|x l] eqn:P.
  - subst y. cbn in H3. rewrite mn in H3. lra.
  - destruct S as (t & Lt & ->). remember (x :: l) as ps eqn:Eps.
    pose proof (perm_error t _ Lt H1) as SE. rewrite H2 in SE. fold m in SE. assert (SL : m <= 1073741824) by lra. specialize (SE SL).
    replace (fsum t - trapezoids dt v tau rs) with ((fsum t - Rsum ps) + (Rsum ps - trapezoids dt v tau rs)) by ring.
    eapply Rle_trans; [apply Rabs_triang|].
    assert (K : 1.01 * (m - 1) * u * Rsum (map Rabs ps) <= 3 * ((n - 1) * (u * (D * B))) + 3 * (u * (D * B)) + (n - 1) * t5).
    { assert (W0 : 0 <= Rsum (map Rabs ps)).
      { clear. clear; induction ps as [|z l IH]; cbn; [lra|]. pose proof (Rabs_pos z). unfold Rsum in *. lra. }
      apply Rle_trans with (1.01 * (n - 1) * u * Rsum (map Rabs ps)).
      - apply Rmult_le_compat_r; [exact W0|]. apply Rmult_le_compat_r; lra.
      - apply Rle_trans with (1.01 * (n - 1) * u * (2 * (D * B) + m * t5)).
        + apply Rmult_le_compat_l; [|exact H4]. apply Rmult_le_pos; [|lra]. apply Rmult_le_pos; lra.
        + rewrite mn. replace (1.01 * (n - 1) * u * (2 * (D * B) + (n - 1) * t5))
            with (2.02 * ((n - 1) * (u * (D * B))) + 1.01 * ((n - 1) * u) * ((n - 1) * t5)) by lra.
          assert (V : 1.01 * ((n - 1) * u) <= 1).
          { assert ((n - 1) * u <= 1073741824 * u) by (apply Rmult_le_compat_r; lra). lra. }
          assert (V2 : 1.01 * ((n - 1) * u) * ((n - 1) * t5) <= 1 * ((n - 1) * t5)) by (apply Rmult_le_compat_r; lra). lra. }
    rewrite mn in H3. lra.
Qed.
End Line.
