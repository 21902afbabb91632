(* Proofs about logarithmic spacing in double precision. *)
From Coq Require Import Lra Lia Rpower.
From Verif Require Import FloatModel FloatSpec FloatProofs FloatAxisModel FloatAxisProofs FloatGeomModel FloatGeomSpec.

Lemma ln10_pos : 1 < ln 10.
Proof. apply exp_lt_inv. rewrite exp_ln by lra. pose proof exp_le_3. lra. Qed.
Lemma ln10_le : ln 10 <= 4.
Proof.
  rewrite <- (ln_exp 4). apply Rlt_le, ln_increasing; [lra|]. replace 4 with (1 + 1 + 1 + 1) by lra. rewrite !exp_plus.
  assert (E : 2 <= exp 1) by (pose proof (exp_ineq1 1 ltac:(lra)); lra).
  assert (4 <= exp 1 * exp 1) by (replace 4 with (2 * 2) by lra; apply Rmult_le_compat; lra).
  assert (8 <= exp 1 * exp 1 * exp 1) by (replace 8 with (4 * 2) by lra; apply Rmult_le_compat; lra).
  assert (16 <= exp 1 * exp 1 * exp 1 * exp 1) by (replace 16 with (8 * 2) by lra; apply Rmult_le_compat; lra). lra.
Qed.
Lemma exp_near y : Rabs y <= / 2 -> Rabs (exp y - 1) <= 2 * Rabs y.
Proof.
  assert (Le : forall z, 1 + z <= exp z).
  { intros z. destruct (Req_dec z 0) as [->|N]; [rewrite exp_0; lra|]. left. now apply exp_ineq1. }
  intros H. pose proof (Le y) as L1. pose proof (Le (- y)) as L2. pose proof (exp_pos y) as P.
  assert (E : exp y * exp (- y) = 1) by (rewrite <- exp_plus, Rplus_opp_r; apply exp_0).
  assert (M : exp y * (1 - y) <= 1) by (rewrite <- E; apply Rmult_le_compat_l; lra).
  apply Rabs_le_inv in H. unfold Rabs at 2. destruct (Rcase_abs y) as [Y|Y].
  - apply Rabs_le. split; [lra|]. assert (exp y <= 1); [|lra]. rewrite <- exp_0. destruct (Req_dec y 0) as [->|N]; [lra|]. left. apply exp_increasing. lra.
  - assert (Q : exp y <= 1 + 2 * y).
    { apply Rmult_le_reg_r with (1 - y); [lra|]. eapply Rle_trans; [exact M|]. assert (0 <= y * (1 - 2 * y)) by (apply Rmult_le_pos; lra). lra. }
    apply Rabs_le. lra.
Qed.
Lemma power_near x d : Rabs d <= / 8 -> Rabs (Rpower 10 (x + d) - Rpower 10 x) <= 8 * Rabs d * Rpower 10 x.
Proof.
  intros H. rewrite Rpower_plus. replace (Rpower 10 x * Rpower 10 d - Rpower 10 x) with (Rpower 10 x * (Rpower 10 d - 1)) by ring.
  assert (P : 0 < Rpower 10 x) by apply exp_pos. rewrite Rabs_mult, (Rabs_right (Rpower 10 x)) by lra. rewrite Rmult_comm.
  apply Rmult_le_compat_r; [lra|]. unfold Rpower. pose proof ln10_pos as A. pose proof ln10_le as B. pose proof (Rabs_pos d) as D.
  assert (Q : Rabs (d * ln 10) <= 4 * Rabs d).
  { rewrite Rabs_mult, (Rabs_right (ln 10)) by lra. rewrite (Rmult_comm 4). apply Rmult_le_compat_l; lra. }
  eapply Rle_trans; [apply exp_near; lra|lra].
Qed.

Section Spaced.
Variables (log10_ pow10_ : R -> R) (a b : R) (n : Z).
Hypotheses (GL : good_log10 log10_) (GP : good_pow10 pow10_) (Hn : (2 <= n <= 2147483648)%Z).
Hypotheses (Ha : / 1000000 <= a) (Hb : b <= 1000000) (Hab : 101 / 100 * a <= b).
Local Notation lg x := (ln x / ln 10).
Lemma lg_bound x : / 1000000 <= x -> x <= 1000000 -> Rabs (lg x) <= 6.
Proof.
  intros H1 H2. pose proof ln10_pos as L. assert (I : 0 < / ln 10) by (apply Rinv_0_lt_compat; lra).
  assert (S : ln 1000000 = 6 * ln 10).
  { replace 1000000 with (10 ^ 6) by lra. rewrite <- Rpower_pow by lra. unfold Rpower. rewrite ln_exp. f_equal. cbn. lra. }
  assert (U : ln x <= 6 * ln 10).
  { rewrite <- S. destruct (Req_dec x 1000000) as [->|N]; [lra|]. left. apply ln_increasing; lra. }
  assert (V : - (6 * ln 10) <= ln x).
  { rewrite <- S, <- ln_Rinv by lra. destruct (Req_dec x (/ 1000000)) as [->|N]; [lra|]. left. apply ln_increasing; lra. }
  assert (E : 6 = 6 * ln 10 * / ln 10) by (rewrite Rmult_assoc, Rinv_r by lra; lra).
  apply Rabs_le. rewrite E. unfold Rdiv. split.
  - rewrite Ropp_mult_distr_l. apply Rmult_le_compat_r; lra.
  - apply Rmult_le_compat_r; lra.
Qed.
Lemma lg_inv x : 0 < x -> Rpower 10 (lg x) = x.
Proof.
  intros H. pose proof ln10_pos. unfold Rpower. replace (ln x / ln 10 * ln 10) with (ln x) by (field; lra). now apply exp_ln.
Qed.
Lemma lg_ratio : 2 / 1000 <= lg b - lg a.
Proof.
  pose proof ln10_pos as L. pose proof ln10_le as L'. assert (A : 0 < a) by lra. assert (B : 0 < b) by lra.
  assert (D : ln b - ln a = - ln (a / b)) by (unfold Rdiv; rewrite ln_mult, ln_Rinv; [ring|lra|lra|now apply Rinv_0_lt_compat]).
  assert (Q : 0 < a / b <= 100 / 101).
  { split; [now apply Rdiv_lt_0_compat|]. apply Rmult_le_reg_r with b; [exact B|]. unfold Rdiv at 1. rewrite Rmult_assoc, Rinv_l by lra. lra. }
  assert (E : ln (a / b) <= - (9 / 1000)).
  { pose proof (exp_ineq1 (ln (a / b))) as X. rewrite exp_ln in X by tauto. destruct (Req_dec (ln (a / b)) 0) as [Z|Z].
    - exfalso. assert (Y : a / b = 1) by (rewrite <- (exp_ln (a / b)), Z by tauto; apply exp_0). lra.
    - specialize (X Z). lra. }
  replace (lg b - lg a) with ((ln b - ln a) / ln 10) by (field; lra). rewrite D.
  apply Rmult_le_reg_r with (ln 10); [lra|]. unfold Rdiv at 2. rewrite Rmult_assoc, Rinv_l by lra. lra.
Qed.
Lemma log_near x : / 1000000 <= x -> x <= 1000000 -> Rabs (log10_ x - lg x) <= 25 * u /\ Rabs (log10_ x) <= 7.
Proof.
  intros H1 H2. pose proof (lg_bound x H1 H2) as B. pose proof (GL x ltac:(lra)) as G. pose proof u_value as U. pose proof tiny_small as T. pose proof u_pos as U0.
  assert (E : 4 * u * Rabs (lg x) <= 4 * u * 6) by (apply Rmult_le_compat_l; lra).
  assert (Q : Rabs (log10_ x - lg x) <= 25 * u) by (apply Rle_trans with (1 := G); lra).
  split; [exact Q|]. apply Rabs_le_inv in Q. apply Rabs_le_inv in B. apply Rabs_le. lra.
Qed.
Lemma exact_power i : geometric_at a b n i = Rpower 10 (lg a + IZR i * ((lg b - lg a) / IZR (n - 1))).
Proof.
  pose proof ln10_pos as L. assert (A : 0 < a) by lra. assert (B : 0 < b) by lra. assert (N0 : IZR (n - 1) <> 0) by (apply not_0_IZR; lia).
  unfold geometric_at, ratio. rewrite Rpower_mult, Rpower_plus, lg_inv by exact A. f_equal. unfold Rpower. f_equal.
  unfold Rdiv at 1. rewrite ln_mult, ln_Rinv by (try lra; now apply Rinv_0_lt_compat). field. lra.
Qed.
Lemma inner_near i : (0 <= i <= n - 1)%Z -> 
  Rabs (pow10_ (linspace_at (log10_ a) (log10_ b) n i) - geometric_at a b n i) <= 2000 * u * geometric_at a b n i.
Proof.
  intros Hi. destruct (log_near a ltac:(lra) ltac:(lra)) as [A1 A2]. destruct (log_near b ltac:(lra) ltac:(lra)) as [B1 B2].
  pose proof lg_ratio as Rt. pose proof u_value as U. pose proof tiny_small as T. pose proof u_pos as U0. pose proof tiny_pos as T0.
  assert (HD : 1 / 1000 <= log10_ b - log10_ a) by (apply Rabs_le_inv in A1; apply Rabs_le_inv in B1; lra).
  pose proof (linspace_near (log10_ a) (log10_ b) n Hn HD i 7 Hi A2 B2) as Nr. set (y := linspace_at (log10_ a) (log10_ b) n i) in *.
  set (N := IZR (n - 1)) in *. assert (N1 : 1 <= N) by (apply IZR_le; lia).
  assert (K0 : 0 <= IZR i <= N) by (split; apply IZR_le; lia). set (t := IZR i / N).
  assert (T1 : 0 <= t <= 1).
  { unfold t. split; [apply Rmult_le_pos; [lra|left; apply Rinv_0_lt_compat; lra]|]. apply Rmult_le_reg_r with N; [lra|]. unfold Rdiv. rewrite Rmult_assoc, Rinv_l; lra. }
  rewrite exact_power. fold N. set (x := lg a + IZR i * ((lg b - lg a) / N)).
  assert (Ex : x = (1 - t) * lg a + t * lg b) by (unfold x, t; field; pose proof ln10_pos; lra).
  assert (Ey : log10_ a + IZR i * ((log10_ b - log10_ a) / N) = (1 - t) * log10_ a + t * log10_ b) by (unfold t; field; lra).
  rewrite Ey in Nr. assert (Dxy : Rabs (y - x) <= 165 * u).
  { replace (y - x) with ((y - ((1 - t) * log10_ a + t * log10_ b)) + ((1 - t) * (log10_ a - lg a) + t * (log10_ b - lg b))) by (rewrite Ex; ring).
    apply Rle_trans with (1 := Rabs_triang _ _). apply Rabs_le_inv in A1. apply Rabs_le_inv in B1.
    assert (Q : Rabs ((1 - t) * (log10_ a - lg a) + t * (log10_ b - lg b)) <= 25 * u).
    { assert (P1 : (1 - t) * (log10_ a - lg a) <= (1 - t) * (25 * u)) by (apply Rmult_le_compat_l; lra).
      assert (P2 : (1 - t) * (- (25 * u)) <= (1 - t) * (log10_ a - lg a)) by (apply Rmult_le_compat_l; lra).
      assert (P3 : t * (log10_ b - lg b) <= t * (25 * u)) by (apply Rmult_le_compat_l; lra).
      assert (P4 : t * (- (25 * u)) <= t * (log10_ b - lg b)) by (apply Rmult_le_compat_l; lra).
      apply Rabs_le. lra. }
    lra. }
  assert (X6 : Rabs x <= 6).
  { pose proof (lg_bound a ltac:(lra) ltac:(lra)) as Ba. pose proof (lg_bound b ltac:(lra) ltac:(lra)) as Bb. apply Rabs_le_inv in Ba. apply Rabs_le_inv in Bb. rewrite Ex.
    assert (P1 : (1 - t) * lg a <= (1 - t) * 6) by (apply Rmult_le_compat_l; lra).
    assert (P2 : (1 - t) * (- 6) <= (1 - t) * lg a) by (apply Rmult_le_compat_l; lra).
    assert (P3 : t * lg b <= t * 6) by (apply Rmult_le_compat_l; lra).
    assert (P4 : t * (- 6) <= t * lg b) by (apply Rmult_le_compat_l; lra).
    apply Rabs_le. lra. }
  assert (Y3 : Rabs y <= 300) by (apply Rabs_le_inv in X6; apply Rabs_le_inv in Dxy; apply Rabs_le; lra).
  pose proof (GP y Y3) as Gy. pose proof (power_near x (y - x) ltac:(lra)) as Pn. replace (x + (y - x)) with y in Pn by ring.
  assert (P0 : 0 < Rpower 10 x) by apply exp_pos.
  assert (Small : / 1000000 <= Rpower 10 x).
  { replace (/ 1000000) with (Rpower 10 (- 6)).
    - destruct (Req_dec (-6) x) as [<-|Ne]; [lra|]. left. apply Rabs_le_inv in X6. apply Rpower_lt; lra.
    - change (Rpower 10 (Ropp (IZR 6)) = / 1000000). rewrite Rpower_Ropp. f_equal. replace (IZR 6) with (INR 6) by (cbn; lra). rewrite Rpower_pow by lra. lra. }
  assert (P1 : 8 * Rabs (y - x) * Rpower 10 x <= 8 * (165 * u) * Rpower 10 x) by (apply Rmult_le_compat_r; lra).
  assert (Q : Rpower 10 y <= 2 * Rpower 10 x).
  { apply Rabs_le_inv in Pn. assert (8 * (165 * u) * Rpower 10 x <= 1 * Rpower 10 x) by (apply Rmult_le_compat_r; lra). lra. }
  assert (P2 : 4 * u * Rpower 10 y <= 4 * u * (2 * Rpower 10 x)) by (apply Rmult_le_compat_l; lra).
  assert (P3 : tiny <= u * Rpower 10 x).
  { apply Rle_trans with (u * (/ 1000000)); [lra|]. apply Rmult_le_compat_l; lra. }
  replace (pow10_ y - Rpower 10 x) with ((pow10_ y - Rpower 10 y) + (Rpower 10 y - Rpower 10 x)) by ring.
  apply Rle_trans with (1 := Rabs_triang _ _). assert (P4 : 0 < u * Rpower 10 x) by (apply Rmult_lt_0_compat; lra). lra.
Qed.
Lemma ends : geomspace_at log10_ pow10_ a b n 0 = a /\ geomspace_at log10_ pow10_ a b n (n - 1) = b.
Proof.
  unfold geomspace_at. split; [reflexivity|]. rewrite Z.eqb_refl. destruct (Z.eqb_spec (n - 1) 0); [lia|reflexivity].
Qed.
Lemma geometric_first : geometric_at a b n 0 = a.
Proof. unfold geometric_at. rewrite Rpower_O; [ring|]. apply exp_pos. Qed.
Lemma geometric_last : geometric_at a b n (n - 1) = b.
Proof.
  assert (A : 0 < a) by lra. assert (B : 0 < b) by lra. unfold geometric_at, ratio. rewrite Rpower_mult, Rinv_l by (apply not_0_IZR; lia).
  rewrite Rpower_1 by now apply Rdiv_lt_0_compat. field. lra.
Qed.
Lemma geometric_pos i : 0 < geometric_at a b n i.
Proof. unfold geometric_at. apply Rmult_lt_0_compat; [lra|apply exp_pos]. Qed.
Lemma geomspace_near i : (0 <= i <= n - 1)%Z ->
  Rabs (geomspace_at log10_ pow10_ a b n i - geometric_at a b n i) <= 2000 * u * geometric_at a b n i.
Proof.
  intros Hi. pose proof u_pos as U0. pose proof (geometric_pos i) as P. assert (Z : 0 <= 2000 * u * geometric_at a b n i) by (apply Rmult_le_pos; lra).
  unfold geomspace_at. destruct (Z.eqb_spec i 0) as [->|N0].
  - rewrite geometric_first in *. rewrite Rminus_eq_0, Rabs_R0. exact Z.
  - destruct (Z.eqb_spec i (n - 1)) as [->|N1]; [|now apply inner_near].
    rewrite geometric_last in *. rewrite Rminus_eq_0, Rabs_R0. exact Z.
Qed.
Lemma geometric_next i : geometric_at a b n (i + 1) = geometric_at a b n i * ratio a b n.
Proof. unfold geometric_at. rewrite plus_IZR, Rpower_plus, Rpower_1 by apply exp_pos. ring. Qed.
Lemma geomspace_next i : 1 + 5000 * u <= ratio a b n -> (0 <= i < n - 1)%Z -> geomspace_at log10_ pow10_ a b n i < geomspace_at log10_ pow10_ a b n (i + 1).
Proof.
  intros Hr Hi. pose proof u_pos as U0. pose proof u_value as U.
  pose proof (geomspace_near i ltac:(lia)) as A. pose proof (geomspace_near (i + 1) ltac:(lia)) as B. rewrite geometric_next in B.
  pose proof (geometric_pos i) as P. set (g := geometric_at a b n i) in *. set (r := ratio a b n) in *.
  apply Rabs_le_inv in A. apply Rabs_le_inv in B.
  assert (C : g * (1 + 5000 * u) <= g * r) by (apply Rmult_le_compat_l; lra).
  assert (D : (1 - 2000 * u) * (g * (1 + 5000 * u)) <= (1 - 2000 * u) * (g * r)) by (apply Rmult_le_compat_l; lra).
  assert (E : 0 < g * (u * (1000 - 10000000 * u))) by (apply Rmult_lt_0_compat; [exact P|apply Rmult_lt_0_compat; lra]). lra.
Qed.
Lemma geomspace_increasing : 1 + 5000 * u <= ratio a b n ->
  forall i j, (0 <= i < j)%Z -> (j <= n - 1)%Z -> geomspace_at log10_ pow10_ a b n i < geomspace_at log10_ pow10_ a b n j.
Proof.
  intros Hr i j Hi Hj. replace j with (i + 1 + Z.of_nat (Z.to_nat (j - i - 1)))%Z in * by lia. set (d := Z.to_nat (j - i - 1)) in *. clearbody d.
  induction d as [|d IH]; [rewrite Z.add_0_r; apply geomspace_next; [exact Hr|lia]|].
  eapply Rlt_trans; [apply IH; lia|]. replace (i + 1 + Z.of_nat (S d))%Z with (i + 1 + Z.of_nat d + 1)%Z by lia. apply geomspace_next; [exact Hr|lia].
Qed.
End Spaced.
