(* C107: mean and standard deviation of dispersion curves in double precision
   (/repo/swprocess/peakssuite.py:577-578, stats.py:413-414). *)
From Coq Require Import Lra Lia.
From Verif Require Import FloatModel FloatSpec FloatProofs FloatSlantProofs FloatStatModel FloatStatSpec FloatStatProofs.

(** The mean of the values present is exact up to two rounding errors for each curve, in whatever order numpy
    adds them. *)
Theorem C107_mean : forall l m, Forall double (present l) -> present l <> [] -> INR (length l) <= 1073741824 -> a_mean l m ->
  Rabs (m - exact_mean (present l)) <= 2 * INR (length l) * u * mean_size (present l) + tiny.
Proof. exact mean_error. Qed.
Print Assumptions C107_mean.

(** The standard deviation is exact up to five rounding errors of the values for each curve. *)
Theorem C107_std : forall l s, Forall double (present l) -> (2 <= length (present l))%nat -> INR (length l) <= 1073741824 -> a_std l s ->
  Rabs (s - exact_std (present l)) <= 5 * INR (length l) * u * (exact_std (present l) + mean_size (present l)) + speck.
Proof. exact std_error. Qed.
Print Assumptions C107_std.

(** The full property, that the mean lies between the smallest and the greatest value and that equal values have
    no spread, is refuted below; it holds up to rounding. *)
Theorem C107_between_partial : forall l m a b, Forall double (present l) -> present l <> [] -> INR (length l) <= 1073741824 -> a_mean l m ->
  0 <= a -> (forall x, In x (present l) -> a <= x <= b) ->
  a - 2 * INR (length l) * u * b - tiny <= m <= b + 2 * INR (length l) * u * b + tiny.
Proof. exact mean_between. Qed.
Print Assumptions C107_between_partial.
Theorem C107_equal_partial : forall l s x, Forall double (present l) -> (2 <= length (present l))%nat -> INR (length l) <= 1073741824 -> a_std l s ->
  (forall y, In y (present l) -> y = x) -> 0 <= s <= 5 * INR (length l) * u * Rabs x + speck.
Proof. exact equal_std. Qed.
Print Assumptions C107_equal_partial.

(** Three curves that all have the velocity 0.1: the mean is greater than each of them and the standard deviation is not zero. *)
Theorem C107_refuted : exists x, double x /\
  (forall m, a_mean [Some x; Some x; Some x] m -> x < m) /\ (forall s, a_std [Some x; Some x; Some x] s -> 0 < s).
Proof. exact equal_refuted. Qed.
Print Assumptions C107_refuted.

(* a column of 200, a missing value, 100 and 300: both are within 10^-11 of 200 and 100 *)
Example C107_example : forall m s, let l := [Some 200; None; Some 100; Some 300] in a_mean l m -> a_std l s ->
  Rabs (m - 200) <= / 100000000000 /\ Rabs (s - 100) <= / 10000000000.
Proof.
  intros m s l Hm Hs.
  assert (K : forall z, (Z.abs z <= 2 ^ 53)%Z -> double (IZR z)) by (intros z Hz; rewrite <- (RN_int z Hz); apply RN_double).
  assert (F : Forall double (present l)) by (repeat apply Forall_cons; try apply Forall_nil; apply K; lia).
  assert (L : INR (length l) = 4) by (cbn; lra).
  assert (E1 : exact_mean (present l) = 200) by (unfold exact_mean; cbn; lra).
  assert (E2 : mean_size (present l) = 200) by (unfold mean_size; cbn [present l map Rsum length INR]; rewrite !Rabs_pos_eq by lra; lra).
  assert (E3 : exact_std (present l) = 100).
  { unfold exact_std. rewrite E1. cbn [present l map Rsum length INR Nat.sub]. replace (_ / _) with (100 * 100) by lra. apply sqrt_square. lra. }
  pose proof tiny_small as T.
  assert (S : speck <= / 100000000000000) by (unfold speck; apply Rinv_le; [lra|apply IZR_le; intros H; discriminate H]).
  split.
  - eapply Rle_trans; [rewrite <- E1; apply (C107_mean l m F); [discriminate|rewrite L; lra|exact Hm]|]. rewrite L, E2, u_value. lra.
  - eapply Rle_trans; [rewrite <- E3; apply (C107_std l s F); [cbn; lia|rewrite L; lra|exact Hs]|]. rewrite L, E2, E3, u_value. lra.
Qed.
(* such a mean and standard deviation exist *)
Example C107_example_exists : exists m s, a_mean [Some 200; None; Some 100; Some 300] m /\ a_std [Some 200; None; Some 100; Some 300] s.
Proof.
  set (t4 := fun a b c d => Node (Node (Node (Leaf a) (Leaf b)) (Leaf c)) (Leaf d)).
  set (m := fmean (t4 200 0 100 300) 3).
  assert (M : a_mean [Some 200; None; Some 100; Some 300] m) by (exists (t4 200 0 100 300); split; reflexivity).
  exists m. eexists. split; [exact M|]. exists m, (t4 (RN (RN (200 - m) * RN (200 - m))) 0 (RN (RN (100 - m) * RN (100 - m))) (RN (RN (300 - m) * RN (300 - m)))).
  split; [exact M|]. split; reflexivity.
Qed.
(* interleaved partial sums are among the orders allowed *)
Example C107_interleaved : forall a b c d, a_mean [Some a; Some b; Some c; Some d] (RN (RN (RN (a + c) + RN (b + d)) / INR 4)).
Proof.
  intros a b c d. exists (Node (Node (Leaf a) (Leaf c)) (Node (Leaf b) (Leaf d))). split; [|reflexivity].
  apply perm_skip, perm_swap.
Qed.
