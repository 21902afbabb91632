(* C110: logarithmic trial velocities in double precision (/repo/swprocess/wavefieldtransforms.py:51-57). *)
From Coq Require Import Lra Lia.
From Verif Require Import FloatModel FloatSpec FloatProofs FloatAxisModel FloatGeomModel FloatGeomSpec FloatGeomProofs.

(** For every logarithm and power of the C library with a few rounding errors, the trial velocities start and end
    exactly where asked, and all are those of the geometric progression up to 2000 rounding errors (2.3e-13). *)
Theorem C110_near : forall log10_ pow10_ a b n, good_log10 log10_ -> good_pow10 pow10_ -> (2 <= n <= 2147483648)%Z ->
  / 1000000 <= a -> b <= 1000000 -> 101 / 100 * a <= b ->
  geomspace_at log10_ pow10_ a b n 0 = a /\ geomspace_at log10_ pow10_ a b n (n - 1) = b /\
  forall i, (0 <= i <= n - 1)%Z -> Rabs (geomspace_at log10_ pow10_ a b n i - geometric_at a b n i) <= 2000 * u * geometric_at a b n i.
Proof.
  intros f g a b n Gf Gg Hn Ha Hb Hab. destruct (ends f g a b n Hn) as [E1 E2]. split; [exact E1|]. split; [exact E2|].
  intros i Hi. now apply geomspace_near.
Qed.
Print Assumptions C110_near.
(** They increase strictly, hence stay between the two limits, unless the velocities asked for are so many that
    neighbours differ by less than 5000 rounding errors. *)
Theorem C110_increasing : forall log10_ pow10_ a b n, good_log10 log10_ -> good_pow10 pow10_ -> (2 <= n <= 2147483648)%Z ->
  / 1000000 <= a -> b <= 1000000 -> 101 / 100 * a <= b -> 1 + 5000 * u <= ratio a b n ->
  (forall i j, (0 <= i < j)%Z -> (j <= n - 1)%Z -> geomspace_at log10_ pow10_ a b n i < geomspace_at log10_ pow10_ a b n j) /\
  (forall i, (0 < i < n - 1)%Z -> a < geomspace_at log10_ pow10_ a b n i < b).
Proof.
  intros f g a b n Gf Gg Hn Ha Hb Hab Hr. pose proof (geomspace_increasing f g a b n Gf Gg Hn Ha Hb Hab Hr) as I. split; [exact I|].
  destruct (ends f g a b n Hn) as [E1 E2]. intros i Hi.
  pose proof (I 0%Z i ltac:(lia) ltac:(lia)) as L1. pose proof (I i (n - 1)%Z ltac:(lia) ltac:(lia)) as L2. rewrite E1 in L1. rewrite E2 in L2. now split.
Qed.
Print Assumptions C110_increasing.

(* the exact functions followed by one rounding are good ones; 400 velocities from 100 to 500 m/s *)
Lemma rounded_log : good_log10 (fun x => RN (ln x / ln 10)).
Proof.
  intros x _. pose proof u_pos. pose proof tiny_pos. pose proof (Rabs_pos (ln x / ln 10)) as P. eapply Rle_trans; [apply RN_error|].
  assert (0 <= u * Rabs (ln x / ln 10)) by (apply Rmult_le_pos; lra). lra.
Qed.
Lemma rounded_pow : good_pow10 (fun y => RN (Rpower 10 y)).
Proof.
  intros y _. pose proof u_pos. pose proof tiny_pos. assert (P : 0 < Rpower 10 y) by apply exp_pos. eapply Rle_trans; [apply RN_error|].
  rewrite Rabs_right by lra. assert (0 <= u * Rpower 10 y) by (apply Rmult_le_pos; lra). lra.
Qed.
Example C110_example : let g := geomspace_at (fun x => RN (ln x / ln 10)) (fun y => RN (Rpower 10 y)) 100 500 400 in
  g 0%Z = 100 /\ g 399%Z = 500 /\ g 7%Z < g 8%Z /\ 100 < g 200%Z < 500.
Proof.
  cbv zeta. destruct (C110_near _ _ 100 500 400 rounded_log rounded_pow ltac:(lia) ltac:(lra) ltac:(lra) ltac:(lra)) as (E1 & E2 & _).
  assert (Hr : 1 + 5000 * u <= ratio 100 500 400).
  { rewrite u_value. unfold ratio, Rpower. change (400 - 1)%Z with 399%Z. assert (L : 1 <= ln (500 / 100)).
    { rewrite <- (ln_exp 1). left. apply ln_increasing; [apply exp_pos|]. pose proof exp_le_3. lra. }
    assert (B : / 399 * 1 <= / 399 * ln (500 / 100)) by (apply Rmult_le_compat_l; lra). pose proof (exp_ineq1 (/ 399 * ln (500 / 100)) ltac:(lra)). lra. }
  destruct (C110_increasing _ _ 100 500 400 rounded_log rounded_pow ltac:(lia) ltac:(lra) ltac:(lra) ltac:(lra) Hr) as [I B].
  split; [exact E1|]. split; [exact E2|]. split; [apply I; lia|apply B; lia].
Qed.
