(* Lemmas on padding and trimming in double precision. *)
From Coq Require Import Lra Lia Psatz.
From Verif Require Import FloatModel FloatSpec FloatProofs FloatPadModel.

(** ** The number of samples asked for *)
Lemma new_count_nearest df dt N : 0 < df -> 0 < dt -> (1 <= N <= 2 ^ 40)%Z -> Rabs (1 / (df * dt) - IZR N) <= 1 / 4 -> new_count df dt = N.
Proof.
  intros Hf Ht HN H. unfold new_count. apply nearest_int. set (x := df * dt) in *. assert (x0 : 0 < x) by (apply Rmult_lt_0_compat; lra).
  assert (N1 : 1 <= IZR N <= 1099511627776). { destruct HN as [A B]. apply IZR_le in A, B. split; assumption. }
  assert (U := u_value). assert (U0 := u_pos). assert (T0 := tiny_pos). assert (TS := tiny_small).
  apply Rabs_le_inv in H. set (y := 1 / x) in *. assert (y1 : 3 / 4 <= y <= 1099511627777) by lra.
  assert (xy : x * y = 1) by (unfold y; field; lra).
  assert (xl : / 1099511627777 <= x).
  { replace x with (/ y) by (unfold y; field; lra). apply Rinv_le; lra. }
  set (p := RN x). assert (Ep : Rabs (p - x) <= 2 * u * x).
  { apply Rle_trans with (1 := RN_error x). rewrite (Rabs_pos_eq x) by lra.
    assert (tiny / 32 <= u * x). { apply Rle_trans with (u * / 1099511627777); [rewrite U; lra|apply Rmult_le_compat_l; lra]. }
    lra. }
  assert (ux : u * x <= x / 1000) by (rewrite U; lra). assert (ux0 : 0 <= u * x) by (apply Rmult_le_pos; lra).
  assert (pl : x * 998 / 1000 <= p). { apply Rabs_le_inv in Ep. lra. }
  assert (p0 : 0 < p) by lra.
  assert (E1 : Rabs (1 / p - y) <= 3 * u * y).
  { unfold y. replace (1 / p - 1 / x) with ((x - p) * / (p * x)) by (field; lra). rewrite Rabs_mult, Rabs_minus_sym.
    assert (px : 0 < p * x) by (apply Rmult_lt_0_compat; lra). rewrite (Rabs_pos_eq (/ _)) by (apply Rlt_le, Rinv_0_lt_compat, px).
    apply Rmult_le_reg_r with (p * x); [exact px|]. rewrite Rmult_assoc, Rinv_l, Rmult_1_r by lra.
    replace (3 * u * (1 / x) * (p * x)) with (3 * u * p) by (field; lra).
    apply Rle_trans with (1 := Ep). replace (2 * u * x) with (u * (2 * x)) by ring. replace (3 * u * p) with (u * (3 * p)) by ring. apply Rmult_le_compat_l; lra. }
  assert (uy : u * y <= / 8000) by (rewrite U; lra). assert (uy0 : 0 <= u * y) by (apply Rmult_le_pos; lra).
  assert (E2 := RN_error (1 / p)). assert (ip : 0 < 1 / p) by (unfold Rdiv; rewrite Rmult_1_l; apply Rinv_0_lt_compat; lra). rewrite (Rabs_pos_eq (1 / p)) in E2 by lra.
  apply Rabs_le_inv in E1. assert (u * (1 / p) <= u * (2 * y)) by (apply Rmult_le_compat_l; lra).
  replace (RN (1 / p) - IZR N) with ((RN (1 / p) - 1 / p) + (1 / p - y) + (y - IZR N)) by ring.
  apply Rabs_le_inv in E2. apply Rabs_lt. lra.
Qed.

Lemma trunc_quotient a k : (1 <= k)%Z -> (0 <= a <= 2 ^ 53)%Z -> Ztrunc (RN (IZR (a * k) / IZR k)) = a.
Proof.
  intros Hk Ha. rewrite mult_IZR. replace (IZR a * IZR k / IZR k) with (IZR a) by (field; apply not_0_IZR; lia).
  rewrite RN_int by lia. apply Ztrunc_IZR.
Qed.
(** The smallest multiple of [k] that is not below [n]. *)
Lemma pad_count_spec n k : (1 <= k)%Z -> (1 <= n <= 2 ^ 52)%Z -> exists m, (1 <= m)%Z /\ pad_count n k = Some ((m * k)%Z, m) /\ (n <= m * k < n + k)%Z.
Proof.
  intros Hk Hn. unfold pad_count. destruct (Z.ltb_spec n k) as [L|L].
  - exists 1%Z. split; [lia|]. split; [f_equal; f_equal; lia|lia].
  - destruct (Z.ltb_spec k n) as [L'|L'].
    2:{ exists 1%Z. assert (n = k) by lia. subst. split; [lia|]. split; [f_equal; f_equal; lia|lia]. }
    destruct (Z.eqb_spec k 0); [lia|]. assert (D := Z.div_mod n k ltac:(lia)). assert (M := Z.mod_pos_bound n k ltac:(lia)).
    assert (Q : (n / k <= n)%Z) by (apply Z.div_le_upper_bound; nia). assert (Q1 : (1 <= n / k)%Z) by (apply Z.div_le_lower_bound; lia).
    destruct (Z.eqb_spec (n mod k) 0) as [Z|Z].
    + exists (n / k)%Z. assert (E : (n = n / k * k)%Z) by lia. split; [lia|]. split; [|lia].
      rewrite E at 2. rewrite trunc_quotient by lia. rewrite E at 1. reflexivity.
    + exists (n / k + 1)%Z. assert (E : (n + (k - n mod k) = (n / k + 1) * k)%Z) by lia. split; [lia|]. split; [|lia].
      rewrite E. rewrite trunc_quotient by lia. reflexivity.
Qed.

(** ** The frequency step reported *)
Lemma RN_rel x : / 1000000000000000 <= x -> x * (1 - 2 * u) <= RN x <= x * (1 + 2 * u).
Proof.
  intros H. assert (U := u_value). assert (TS := tiny_small). assert (E := RN_error x). rewrite (Rabs_pos_eq x) in E by lra.
  assert (tiny / 32 <= u * x). { apply Rle_trans with (u * / 1000000000000000); [rewrite U; lra|apply Rmult_le_compat_l; [rewrite U|]; lra]. }
  apply Rabs_le_inv in E. lra.
Qed.

Lemma reported_step_near N m dt : (1 <= N)%Z -> (1 <= m)%Z -> (m * N <= 2 ^ 40)%Z -> / 1000000000 <= dt <= 100 ->
  Rabs (reported_step (m * N) m dt - 1 / (IZR N * dt)) <= 8 * u * (1 / (IZR N * dt)).
Proof.
  intros HN Hm HB Hd. unfold reported_step. assert (U := u_value).
  assert (N1 : 1 <= IZR N) by (apply IZR_le; lia). assert (m1 : 1 <= IZR m) by (apply IZR_le; lia).
  assert (mN : IZR (m * N) <= 1099511627776) by (apply IZR_le; lia). assert (mN1 : 1 <= IZR (m * N)) by (apply IZR_le; lia).
  rewrite mult_IZR in *. set (a := IZR N) in *. set (b := IZR m) in *. set (A := b * a * dt).
  assert (A1 : / 1000000000 <= A). { unfold A. replace (/ 1000000000) with (1 * / 1000000000) by ring. apply Rmult_le_compat; lra. }
  assert (A2 : A <= 109951162777600). { unfold A. replace 109951162777600 with (1099511627776 * 100) by ring. apply Rmult_le_compat; lra. }
  assert (P := RN_rel A ltac:(lra)). set (p := RN A) in *. set (e := 2 * u) in *. assert (e0 : 0 < e <= / 1000000) by (unfold e; rewrite U; lra).
  assert (Ae : 0 <= A * e <= A / 1000000). { split; [apply Rmult_le_pos; lra|]. unfold Rdiv. apply Rmult_le_compat_l; lra. }
  assert (p0 : A * 999 / 1000 <= p <= A * 1001 / 1000) by lra.
  set (i := 1 / p). assert (ip : i * p = 1) by (unfold i; field; lra).
  assert (i1 : / 200000000000000 <= i). { unfold i, Rdiv. rewrite Rmult_1_l. apply Rinv_le; lra. }
  assert (Q := RN_rel i ltac:(lra)). set (q := RN i) in *. fold e in Q.
  assert (ie : 0 <= i * e <= i / 1000000). { split; [apply Rmult_le_pos; lra|]. unfold Rdiv. apply Rmult_le_compat_l; lra. }
  assert (q0 : / 400000000000000 <= q) by lra.
  assert (qb : q <= q * b). { rewrite <- (Rmult_1_r q) at 1. apply Rmult_le_compat_l; lra. }
  assert (W := RN_rel (q * b) ltac:(lra)). set (r := RN (q * b)) in *. fold e in W.
  set (s := 1 / (a * dt)). assert (sA : s * A = b). { unfold s, A. field. split; lra. }
  assert (s0 : 0 < s). { unfold s, Rdiv. rewrite Rmult_1_l. apply Rinv_0_lt_compat, Rmult_lt_0_compat; lra. }
  replace (8 * u * s) with (s * (4 * e)) by (unfold e; ring).
  (* b i p = s A *)
  set (v := i * b) in *. assert (vp : v * p = s * A) by (unfold v; rewrite sA; replace (i * b * p) with (i * p * b) by ring; rewrite ip; ring).
  assert (v0 : 0 < v) by (apply Rmult_lt_0_compat; lra).
  assert (V1 : v * (1 - e) <= s).
  { apply Rmult_le_reg_r with A; [lra|]. rewrite <- vp. replace (v * (1 - e) * A) with (v * (A * (1 - e))) by ring. apply Rmult_le_compat_l; lra. }
  assert (V2 : s <= v * (1 + e)).
  { apply Rmult_le_reg_r with A; [lra|]. rewrite <- vp. replace (v * (1 + e) * A) with (v * (A * (1 + e))) by ring. apply Rmult_le_compat_l; lra. }
  assert (Q1 : v * (1 - e) <= q * b). { unfold v. replace (i * b * (1 - e)) with (i * (1 - e) * b) by ring. apply Rmult_le_compat_r; lra. }
  assert (Q2 : q * b <= v * (1 + e)). { unfold v. replace (i * b * (1 + e)) with (i * (1 + e) * b) by ring. apply Rmult_le_compat_r; lra. }
  assert (R1 : v * (1 - e) * (1 - e) <= r). { apply Rle_trans with (q * b * (1 - e)); [apply Rmult_le_compat_r; lra|lra]. }
  assert (R2 : r <= v * (1 + e) * (1 + e)). { apply Rle_trans with (q * b * (1 + e)); [lra|apply Rmult_le_compat_r; lra]. }
  assert (F1 : s * (1 - 4 * e) <= v * (1 - e) * (1 - e)).
  { apply Rle_trans with (v * (1 + e) * (1 - 4 * e)); [apply Rmult_le_compat_r; lra|]. rewrite !Rmult_assoc. apply Rmult_le_compat_l; [lra|]. nra. }
  assert (F2 : v * (1 + e) * (1 + e) <= s * (1 + 4 * e)).
  { apply Rle_trans with (v * (1 - e) * (1 + 4 * e)); [|apply Rmult_le_compat_r; lra]. rewrite !Rmult_assoc. apply Rmult_le_compat_l; [lra|]. nra. }
  apply Rabs_le. lra.
Qed.

(** ** The sample nearest to a time *)
Lemma nearest_sample_range dt delay t n : (0 <= nearest_sample dt delay t n < Z.max 1 (Z.of_nat n))%Z.
Proof. induction n; cbn [nearest_sample]; [lia|]. destruct (Rlt_dec _ _); lia. Qed.
Lemma nearest_sample_unique dt delay t n k : (0 <= k < Z.of_nat n)%Z ->
  (forall i, (0 <= i < Z.of_nat n)%Z -> i <> k -> distance dt delay t k < distance dt delay t i) -> nearest_sample dt delay t n = k.
Proof.
  induction n as [|n IH]; intros Hk H; [lia|]. cbn [nearest_sample]. destruct (Z.eq_dec k (Z.of_nat n)) as [->|Ne].
  - destruct (Rlt_dec _ _) as [L|L]; [reflexivity|]. assert (R := nearest_sample_range dt delay t n).
    destruct (Z.eq_dec (nearest_sample dt delay t n) (Z.of_nat n)) as [E|E]; [exact E|]. destruct L. apply H; lia.
  - rewrite IH; [|lia|intros i Hi; apply H; lia]. destruct (Rlt_dec _ _) as [L|L]; [|reflexivity].
    assert (H1 := H (Z.of_nat n) ltac:(lia) ltac:(lia)). lra.
Qed.

Lemma sample_time_near dt delay i : / 1000000000 <= dt -> (0 <= i <= 2 ^ 38)%Z -> Rabs delay <= 274877906944 * dt ->
  Rabs (sample_time dt delay i - (IZR i * dt + delay)) <= dt / 5000.
Proof.
  intros Hd Hi HD. unfold sample_time. assert (U := u_value). assert (U0 := u_pos). assert (TS := tiny_small).
  assert (i0 : 0 <= IZR i <= 274877906944) by (split; apply IZR_le; lia).
  assert (x0 : 0 <= IZR i * dt <= 274877906944 * dt) by (split; [apply Rmult_le_pos|apply Rmult_le_compat_r]; lra).
  set (x := IZR i * dt) in *. assert (E1 := RN_error x). rewrite (Rabs_pos_eq x) in E1 by lra.
  assert (u * x <= u * (274877906944 * dt)) by (apply Rmult_le_compat_l; lra). replace (u * (274877906944 * dt)) with (dt / 32768) in * by (rewrite U; field).
  set (p := RN x) in *. assert (E2 := RN_error (p + delay)).
  assert (B : Rabs (p + delay) <= 549755813888 * dt + dt). { apply Rabs_le_inv in E1, HD. apply Rabs_le. lra. }
  assert (u * Rabs (p + delay) <= u * (549755813888 * dt + dt)) by (apply Rmult_le_compat_l; lra).
  replace (u * (549755813888 * dt + dt)) with (dt / 16384 + u * dt) in * by (rewrite U; field).
  assert (u * dt <= dt / 1000000) by (rewrite U; lra).
  apply Rabs_le_inv in E1, E2. apply Rabs_le. lra.
Qed.

Lemma distance_near dt delay t i : / 1000000000 <= dt -> (0 <= i <= 2 ^ 38)%Z -> Rabs delay <= 274877906944 * dt -> Rabs t <= 549755813889 * dt ->
  Rabs (distance dt delay t i - Rabs (IZR i * dt + delay - t)) <= dt / 1000.
Proof.
  intros Hd Hi HD HT. unfold distance. assert (U := u_value). assert (U0 := u_pos). assert (TS := tiny_small).
  assert (S := sample_time_near dt delay i Hd Hi HD). set (s := sample_time dt delay i) in *.
  assert (i0 : 0 <= IZR i <= 274877906944) by (split; apply IZR_le; lia).
  assert (x0 : 0 <= IZR i * dt <= 274877906944 * dt) by (split; [apply Rmult_le_pos|apply Rmult_le_compat_r]; lra).
  set (x := IZR i * dt) in *. assert (E := RN_error (s - t)).
  assert (B : Rabs (s - t) <= 1099511627776 * dt + 2 * dt). { apply Rabs_le_inv in S, HD, HT. apply Rabs_le. lra. }
  assert (u * Rabs (s - t) <= u * (1099511627776 * dt + 2 * dt)) by (apply Rmult_le_compat_l; lra).
  replace (u * (1099511627776 * dt + 2 * dt)) with (dt / 8192 + 2 * (u * dt)) in * by (rewrite U; field).
  assert (u * dt <= dt / 1000000) by (rewrite U; lra).
  apply Rle_trans with (1 := Rabs_triang_inv2 _ _). apply Rabs_le_inv in S, E. apply Rabs_le. lra.
Qed.

Lemma trim_index dt delay t n k : / 1000000000 <= dt -> (Z.of_nat n <= 2 ^ 38)%Z -> Rabs delay <= 274877906944 * dt ->
  (0 <= k < Z.of_nat n)%Z -> Rabs (t - (IZR k * dt + delay)) <= 49 / 100 * dt -> nearest_sample dt delay t n = k.
Proof.
  intros Hd Hn HD Hk Ht. assert (k0 : 0 <= IZR k <= 274877906944) by (split; apply IZR_le; lia).
  assert (x0 : 0 <= IZR k * dt <= 274877906944 * dt) by (split; [apply Rmult_le_pos|apply Rmult_le_compat_r]; lra).
  assert (HT : Rabs t <= 549755813889 * dt). { apply Rabs_le_inv in Ht, HD. apply Rabs_le. lra. }
  apply nearest_sample_unique; [exact Hk|]. intros i Hi Ne.
  assert (Dk := distance_near dt delay t k Hd ltac:(lia) HD HT). assert (Di := distance_near dt delay t i Hd ltac:(lia) HD HT).
  assert (Ek : Rabs (IZR k * dt + delay - t) <= 49 / 100 * dt) by now rewrite Rabs_minus_sym.
  assert (Ei : 51 / 100 * dt <= Rabs (IZR i * dt + delay - t)).
  { assert (F : dt <= Rabs ((IZR i - IZR k) * dt)).
    { rewrite Rabs_mult, (Rabs_pos_eq dt) by lra. rewrite <- (Rmult_1_l dt) at 1. apply Rmult_le_compat_r; [lra|].
      rewrite <- minus_IZR, <- abs_IZR. apply IZR_le. lia. }
    assert (T := Rabs_triang (IZR i * dt + delay - t) (- (IZR k * dt + delay - t))). rewrite Rabs_Ropp in T.
    replace (IZR i * dt + delay - t + - (IZR k * dt + delay - t)) with ((IZR i - IZR k) * dt) in T by ring. lra. }
  apply Rabs_le_inv in Dk, Di. lra.
Qed.

(** Times after trimming at a reported time. *)
Lemma trimmed_times dt delay k j : / 1000000000 <= dt -> (0 <= k)%Z -> (0 <= j)%Z -> (k + j < 2 ^ 37)%Z -> Rabs delay <= 137438953472 * dt ->
  Rabs (sample_time dt (sample_time dt delay k) j - sample_time dt delay (k + j)) <= dt / 1000.
Proof.
  intros Hd Hk Hj HB HD. assert (Sk := sample_time_near dt delay k Hd ltac:(lia) ltac:(lra)).
  assert (Skj := sample_time_near dt delay (k + j) Hd ltac:(lia) ltac:(lra)).
  assert (k0 : 0 <= IZR k <= 137438953471) by (split; apply IZR_le; lia). rewrite plus_IZR in Skj.
  assert (x0 : 0 <= IZR k * dt <= 137438953471 * dt) by (split; [apply Rmult_le_pos|apply Rmult_le_compat_r]; lra).
  assert (B : Rabs (sample_time dt delay k) <= 274877906944 * dt). { apply Rabs_le_inv in Sk, HD. apply Rabs_le. lra. }
  assert (Sj := sample_time_near dt (sample_time dt delay k) j Hd ltac:(lia) B).
  apply Rabs_le_inv in Sj, Sk, Skj. apply Rabs_le. lra.
Qed.
