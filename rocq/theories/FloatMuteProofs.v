(* Proofs about the mute in double precision. *)
From Coq Require Import Lra Lia.
From Verif Require Import PyFacts FloatModel FloatSpec FloatProofs FloatStatProofs FloatNormProofs FloatOffsetProofs FloatMuteModel FloatMuteSpec.

(** [x] is [y] up to [k] rounding errors of numbers as large as [A]. *)
Definition near (k A x y : R) : Prop := Rabs (x - y) <= k * u * A /\ Rabs y <= A.
Lemma u_small : u <= / 1000000000000000. Proof. rewrite u_value. lra. Qed.
Lemma near_RN k A x y : 0 <= k <= 1000 -> 1 <= A -> near k A x y -> near (k + 2) A (RN x) y.
Proof.
  intros Hk HA [E B]. split; [|exact B]. pose proof u_small as U. pose proof u_pos as U0. pose proof tiny_small as T. pose proof (RN_error x) as R.
  assert (KA : 0 <= k * u) by (apply Rmult_le_pos; lra). assert (K1 : k * u <= 1000 * u) by (apply Rmult_le_compat_r; lra).
  assert (M : k * u * A <= 1000 * u * A) by (apply Rmult_le_compat_r; lra).
  assert (Ua : 0 <= u * A) by (apply Rmult_le_pos; lra). assert (Ub : u * 1 <= u * A) by (apply Rmult_le_compat_l; lra).
  assert (Uc : 1000 * u * A <= / 100 * A) by (apply Rmult_le_compat_r; lra).
  assert (X : Rabs x <= 101 / 100 * A) by (apply Rabs_le_inv in E; apply Rabs_le_inv in B; apply Rabs_le; lra).
  assert (Xu : u * Rabs x <= u * (101 / 100 * A)) by (apply Rmult_le_compat_l; lra).
  assert (Tu : tiny <= / 100 * (u * A)) by (rewrite u_value in *; lra).
  replace (RN x - y) with ((RN x - x) + (x - y)) by ring. apply Rle_trans with (1 := Rabs_triang _ _). lra.
Qed.
Lemma near_exact A x : Rabs x <= A -> near 0 A x x.
Proof. intros H. split; [|exact H]. rewrite Rminus_eq_0, Rabs_R0, !Rmult_0_l. lra. Qed.
Lemma near_more k k' A x y : k <= k' -> 0 <= A -> near k A x y -> near k' A x y.
Proof.
  intros H HA [E B]. split; [|exact B]. eapply Rle_trans; [exact E|]. pose proof u_pos. apply Rmult_le_compat_r; [exact HA|]. apply Rmult_le_compat_r; lra.
Qed.
Lemma near_add k A B x y x' y' : near k A x y -> near k B x' y' -> near k (A + B) (x + x') (y + y').
Proof.
  intros [E1 B1] [E2 B2]. split.
  - replace (x + x' - (y + y')) with ((x - y) + (x' - y')) by ring. apply Rle_trans with (1 := Rabs_triang _ _). lra.
  - apply Rle_trans with (1 := Rabs_triang _ _). lra.
Qed.
Lemma near_mult k k' A B x y x' y' : 0 <= k <= 1000 -> 0 <= k' <= 1000 -> 0 <= A -> 0 <= B ->
  near k A x y -> near k' B x' y' -> near (k + k' + 1) (A * B) (x * x') (y * y').
Proof.
  intros Hk Hk' HA HB [E1 B1] [E2 B2]. pose proof u_small as U. pose proof u_pos as U0. split.
  - replace (x * x' - y * y') with ((x - y) * (x' - y') + ((x - y) * y' + y * (x' - y'))) by ring.
    apply Rle_trans with (1 := Rabs_triang _ _). pose proof (Rabs_triang ((x - y) * y') (y * (x' - y'))) as T.
    rewrite !Rabs_mult in *. pose proof (Rabs_pos (x - y)). pose proof (Rabs_pos (x' - y')). pose proof (Rabs_pos y). pose proof (Rabs_pos y').
    assert (P1 : Rabs (x - y) * Rabs (x' - y') <= (k * u * A) * (k' * u * B)) by (apply Rmult_le_compat; auto).
    assert (P2 : Rabs (x - y) * Rabs y' <= (k * u * A) * B) by (apply Rmult_le_compat; auto).
    assert (P3 : Rabs y * Rabs (x' - y') <= A * (k' * u * B)) by (apply Rmult_le_compat; auto).
    assert (AB : 0 <= A * B) by (apply Rmult_le_pos; auto).
    assert (Kk : k * k' * u <= 1).
    { assert (k * k' <= 1000 * 1000) by (apply Rmult_le_compat; lra). assert (k * k' * u <= 1000 * 1000 * u) by (apply Rmult_le_compat_r; lra). lra. }
    assert (P4 : (k * k' * u) * (u * (A * B)) <= 1 * (u * (A * B))) by (apply Rmult_le_compat_r; [apply Rmult_le_pos; lra|exact Kk]).
    lra.
  - rewrite Rabs_mult. apply Rmult_le_compat; auto using Rabs_pos.
Qed.
Lemma near_div_exact k A d x y : 0 < d -> near k A x y -> near k (A / d) (x / d) (y / d).
Proof.
  intros D [E B]. assert (I : 0 < / d) by now apply Rinv_0_lt_compat. unfold near, Rdiv.
  rewrite <- Rmult_minus_distr_r, !Rabs_mult, (Rabs_right (/ d)) by lra. split.
  - rewrite <- Rmult_assoc. apply Rmult_le_compat_r; lra.
  - apply Rmult_le_compat_r; lra.
Qed.
Lemma near_abs k A x y : near k A x y -> near k A (Rabs x) (Rabs y).
Proof. intros [E B]. split; [apply Rle_trans with (1 := Rabs_triang_inv2 _ _); exact E|now rewrite Rabs_Rabsolu]. Qed.
Lemma near_wider k A A' x y : 0 <= k -> A <= A' -> near k A x y -> near k A' x y.
Proof. intros K L [E B]. pose proof u_pos. split; [|lra]. eapply Rle_trans; [exact E|]. apply Rmult_le_compat_l; [apply Rmult_le_pos; lra|exact L]. Qed.

(** The slope: a quotient of two rounded differences. *)
Lemma slope_near x1 t1 x2 t2 : double x1 -> double t1 -> double x2 -> double t2 -> x1 <> x2 -> Rabs (t2 - t1) <= Rabs (x2 - x1) ->
  near 5 1 (RN (RN (t2 - t1) / RN (x2 - x1))) ((t2 - t1) / (x2 - x1)).
Proof.
  intros D1 D2 D3 D4 Ne S. replace 5 with (3 + 2) by lra. apply near_RN; [lra|lra|].
  pose proof (sub_error t2 t1 D4 D2) as Et. pose proof (sub_error x2 x1 D3 D1) as Ex. pose proof u_small as U. pose proof u_pos as U0.
  set (a := t2 - t1) in *. set (b := x2 - x1) in *. set (a' := RN a) in *. set (b' := RN b) in *. assert (B : b <> 0) by (unfold b; lra).
  assert (Bp : 0 < Rabs b) by now apply Rabs_pos_lt. assert (Hub : u * Rabs b <= / 1000 * Rabs b) by (apply Rmult_le_compat_r; lra).
  assert (B'p : 999 / 1000 * Rabs b <= Rabs b').
  { pose proof (Rabs_triang_inv b (b - b')) as T. replace (b - (b - b')) with b' in T by ring. rewrite (Rabs_minus_sym b b') in T. lra. }
  assert (B' : b' <> 0) by (intros Z; rewrite Z, Rabs_R0 in B'p; lra).
  split.
  - replace (a' / b' - a / b) with (((a' - a) * b - a * (b' - b)) / (b * b')) by (field; auto).
    unfold Rdiv. rewrite Rabs_mult, Rabs_inv, Rabs_mult.
    assert (P : 0 < Rabs b * Rabs b') by (apply Rmult_lt_0_compat; lra).
    apply Rmult_le_reg_r with (Rabs b * Rabs b'); [exact P|]. rewrite Rmult_assoc, Rinv_l by lra. rewrite Rmult_1_r, Rmult_1_r.
    unfold Rminus at 1. apply Rle_trans with (1 := Rabs_triang _ _). rewrite Rabs_Ropp, !Rabs_mult.
    assert (Q1 : Rabs (a' - a) * Rabs b <= (u * Rabs b) * Rabs b).
    { apply Rmult_le_compat_r; [lra|]. eapply Rle_trans; [exact Et|]. apply Rmult_le_compat_l; lra. }
    assert (Q2 : Rabs a * Rabs (b' - b) <= Rabs b * (u * Rabs b)) by (apply Rmult_le_compat; auto using Rabs_pos).
    assert (Q3 : (u * Rabs b) * (999 / 1000 * Rabs b) <= (u * Rabs b) * Rabs b').
    { apply Rmult_le_compat_l; [apply Rmult_le_pos; lra|exact B'p]. }
    assert (Q4 : 0 <= u * Rabs b * Rabs b) by (repeat apply Rmult_le_pos; lra). lra.
  - unfold Rdiv. rewrite Rabs_mult, Rabs_inv. apply Rmult_le_reg_r with (Rabs b); [exact Bp|]. rewrite Rmult_assoc, Rinv_l by lra. lra.
Qed.

Lemma index_near dt delay l p : usual dt delay l p -> exists y, line_index dt delay l p = Ztrunc y /\ Rabs (y - sample_of dt delay l p) <= / 1000.
Proof.
  destruct l as [[x1 t1] [x2 t2]]. intros ((D1 & D2 & D3 & D4 & Dp) & Ne & S & T1 & P & Hd & Hl). eexists. split; [reflexivity|].
  unfold sample_of, line_time, ndelay. pose proof (slope_near x1 t1 x2 t2 D1 D2 D3 D4 Ne S) as Sl.
  assert (N1 : near 1 100000 (RN (p - x1)) (p - x1)).
  { pose proof u_pos. split; [|exact P]. eapply Rle_trans; [now apply sub_error|]. rewrite Rmult_1_l. apply Rmult_le_compat_l; lra. }
  pose proof (near_mult 5 1 1 100000 _ _ _ _ ltac:(lra) ltac:(lra) ltac:(lra) ltac:(lra) Sl N1) as N2.
  apply near_RN in N2; [|lra|lra]. replace (5 + 1 + 1 + 2) with 9 in N2 by lra.
  pose proof (near_add _ _ _ _ _ _ _ (near_more 0 9 1000 t1 t1 ltac:(lra) ltac:(lra) (near_exact 1000 t1 T1)) N2) as N3.
  apply near_RN in N3; [|lra|lra]. replace (9 + 2) with 11 in N3 by lra. replace (1000 + 1 * 100000) with 101000 in N3 by lra.
  assert (D0 : 0 < dt) by lra. assert (I1 : / dt <= 1000000).
  { rewrite <- (Rinv_involutive 1000000) by lra. apply Rinv_le; lra. }
  assert (I2 : 0 < / dt) by now apply Rinv_0_lt_compat.
  apply (near_div_exact _ _ dt _ _ D0) in N3. apply (near_wider _ _ 101000000000) in N3; [|lra|].
  2:{ unfold Rdiv. replace 101000000000 with (101000 * 1000000) by lra. apply Rmult_le_compat_l; lra. }
  apply near_RN in N3; [|lra|lra]. replace (11 + 2) with 13 in N3 by lra.
  assert (N4 : near 0 1000000000 (delay / dt) (delay / dt)).
  { apply near_exact. unfold Rdiv. rewrite Rabs_mult, (Rabs_right (/ dt)) by lra. replace 1000000000 with (1000 * 1000000) by lra.
    apply Rmult_le_compat; auto using Rabs_pos; lra. }
  apply near_RN in N4; [|lra|lra]. apply near_abs in N4. apply (near_more _ 13) in N4; [|lra|lra].
  pose proof (near_add _ _ _ _ _ _ _ N3 N4) as N5. apply near_RN in N5; [|lra|lra]. destruct N5 as [E _].
  eapply Rle_trans; [exact E|]. rewrite u_value. lra.
Qed.

Lemma index_within dt delay l p : usual dt delay l p ->
  (Z.abs (line_index dt delay l p - Ztrunc (sample_of dt delay l p)) <= 1)%Z /\
  ((forall k, / 1000 < Rabs (sample_of dt delay l p - IZR k)) -> line_index dt delay l p = Ztrunc (sample_of dt delay l p)).
Proof.
  intros Us. destruct (index_near dt delay l p Us) as (y & E & B). rewrite E. set (x := sample_of dt delay l p) in *. clearbody x. clear E Us.
  apply Rabs_le_inv in B.
  assert (Zt : forall z, IZR (Ztrunc z) = z \/ (0 <= z /\ IZR (Ztrunc z) <= z < IZR (Ztrunc z) + 1) \/ (z <= 0 /\ IZR (Ztrunc z) - 1 < z <= IZR (Ztrunc z))).
  { intros z. destruct (Rle_lt_dec 0 z) as [Hz|Hz].
    - right. left. rewrite Ztrunc_floor by exact Hz. pose proof (Zfloor_lb z). pose proof (Zfloor_ub z). lra.
    - right. right. rewrite Ztrunc_ceil by lra. pose proof (Zceil_ub z). pose proof (Zceil_lb z). lra. }
  split.
  - assert (Q : (-2 < Ztrunc y - Ztrunc x < 2)%Z); [|lia]. split; apply lt_IZR; rewrite minus_IZR; destruct (Zt x) as [X|[X|X]], (Zt y) as [Y|[Y|Y]]; lra.
  - intros H. pose proof (H (Ztrunc x)) as H0. pose proof (H (Ztrunc x + 1)%Z) as H1. pose proof (H (Ztrunc x - 1)%Z) as H2.
    rewrite plus_IZR in H1. rewrite minus_IZR in H2.
    pose proof (H 0%Z) as Hz.
    destruct (Zt x) as [X|[[X0 X]|[X0 X]]]; [rewrite X, Rminus_eq_0, Rabs_R0 in H0; lra| |].
    + assert (A1 : / 1000 < x - IZR (Ztrunc x)) by (rewrite Rabs_right in H0; lra).
      assert (A2 : / 1000 < IZR (Ztrunc x) + 1 - x) by (rewrite Rabs_left in H1; lra).
      assert (A3 : 0 <= IZR (Ztrunc x)) by (rewrite Ztrunc_floor by exact X0; apply IZR_le, Zfloor_lub; exact X0).
      rewrite (Ztrunc_floor y) by lra. apply Zfloor_imp. rewrite plus_IZR. lra.
    + assert (A1 : / 1000 < IZR (Ztrunc x) - x) by (destruct (Req_dec x (IZR (Ztrunc x))) as [Q|Q]; [rewrite <- Q, Rminus_eq_0, Rabs_R0 in H0; lra|rewrite Rabs_left in H0; lra]).
      assert (A2 : / 1000 < x - (IZR (Ztrunc x) - 1)) by (rewrite Rabs_right in H2; lra).
      assert (A3 : IZR (Ztrunc x) <= 0) by (rewrite Ztrunc_ceil by exact X0; apply IZR_le, Zceil_glb; exact X0).
      rewrite (Ztrunc_ceil y) by lra. apply Zceil_imp. rewrite minus_IZR. lra.
Qed.
Lemma index_above dt delay l p k : usual dt delay l p -> (0 <= k)%Z -> IZR k + / 1000 <= sample_of dt delay l p -> (k <= line_index dt delay l p)%Z.
Proof.
  intros Us K H. destruct (index_near dt delay l p Us) as (y & -> & B). apply Rabs_le_inv in B. rewrite <- (Ztrunc_IZR k). apply Ztrunc_le. lra.
Qed.
Lemma index_below dt delay l p k : usual dt delay l p -> (0 < k)%Z -> sample_of dt delay l p < IZR k - / 1000 -> (line_index dt delay l p < k)%Z.
Proof.
  intros Us K H. destruct (index_near dt delay l p Us) as (y & -> & B). apply Rabs_le_inv in B. destruct (Rle_lt_dec 0 y) as [Y|Y].
  - rewrite Ztrunc_floor by exact Y. apply lt_IZR. pose proof (Zfloor_lb y). lra.
  - rewrite Ztrunc_ceil by lra. apply Z.le_lt_trans with 0%Z; [|exact K]. apply Zceil_glb. lra.
Qed.

(** The samples. *)
Lemma muted_length taper a b amp : length (muted taper a b amp) = length amp.
Proof. unfold muted. now rewrite map_length, seq_length. Qed.
Lemma muted_at taper a b amp j : (j < length amp)%nat -> nth j (muted taper a b amp) 0 = RN (nth j amp 0 * window_at taper a b j).
Proof. intros H. unfold muted. rewrite (nth_map_lt _ _ _ 0 0%nat) by now rewrite seq_length. now rewrite seq_nth. Qed.
Lemma window_good taper a b j : good_taper taper -> double (window_at taper a b j) /\ 0 <= window_at taper a b j <= 1.
Proof.
  intros G. unfold window_at. destruct (andb (a <=? Z.of_nat j)%Z (Z.of_nat j <? b)%Z) eqn:E; [|split; [apply double_0|lra]].
  apply andb_prop in E. destruct E as [E1 E2]. apply Z.leb_le in E1. apply Z.ltb_lt in E2. destruct (G (Z.to_nat (b - a))) as [L F].
  destruct (Nat.lt_ge_cases (j - Z.to_nat a) (length (taper (Z.to_nat (b - a))))) as [Q|Q].
  - rewrite Forall_forall in F. apply F. now apply nth_In.
  - rewrite nth_overflow by exact Q. split; [apply double_0|lra].
Qed.
Lemma scaled_down x w : double x -> double w -> 0 <= w <= 1 -> Rabs (RN (x * w)) <= Rabs x /\ (0 <= x -> 0 <= RN (x * w)) /\ (x <= 0 -> RN (x * w) <= 0) /\ (w = 1 -> RN (x * w) = x).
Proof.
  intros Dx Dw W. split; [|split; [|split]].
  - rewrite <- RN_Rabs. rewrite <- (RN_id x Dx) at 2. rewrite <- RN_Rabs. apply RN_mono. rewrite Rabs_mult, (Rabs_right w) by lra.
    rewrite <- (Rmult_1_r (Rabs x)) at 2. apply Rmult_le_compat_l; [apply Rabs_pos|lra].
  - intros X. apply RN_nonneg, Rmult_le_pos; lra.
  - intros X. rewrite <- RN_0. apply RN_mono. assert (0 <= - x * w) by (apply Rmult_le_pos; lra). lra.
  - intros ->. rewrite Rmult_1_r. now apply RN_id.
Qed.

Section Lines.
Variables (dt delay : R) (n : nat) (ss se : option line) (p : R).
Hypothesis Us : usual_lines dt delay ss se p.
Lemma start_above k : (0 <= k)%Z -> IZR k + / 1000 <= first_at dt delay ss p -> (k <= start_index dt delay ss p)%Z.
Proof.
  intros K H. destruct Us as [U _]. unfold first_at, start_index in *. destruct ss as [l|]; [now apply index_above; [apply U| |]|].
  assert (0 <= IZR k) by now apply IZR_le. lra.
Qed.
Lemma start_below k : (0 < k)%Z -> first_at dt delay ss p < IZR k - / 1000 -> (start_index dt delay ss p < k)%Z.
Proof. intros K H. destruct Us as [U _]. unfold first_at, start_index in *. destruct ss as [l|]; [now apply index_below; [apply U| |]|exact K]. Qed.
Lemma stop_above k : (0 <= k)%Z -> IZR k + / 1000 <= last_at dt delay n se p -> (k <= stop_index dt delay n se p)%Z.
Proof.
  intros K H. destruct Us as [_ U]. unfold last_at, stop_index in *. destruct se as [l|]; [now apply index_above; [apply U| |]|].
  apply le_IZR. rewrite minus_IZR, <- INR_IZR_INZ. lra.
Qed.
Lemma stop_below k : (0 < k)%Z -> last_at dt delay n se p < IZR k - / 1000 -> (stop_index dt delay n se p < k)%Z.
Proof.
  intros K H. destruct Us as [_ U]. unfold last_at, stop_index in *. destruct se as [l|]; [now apply index_below; [apply U| |]|].
  apply lt_IZR. rewrite minus_IZR, <- INR_IZR_INZ. lra.
Qed.
Lemma runs : 0 <= first_at dt delay ss p -> first_at dt delay ss p + / 100 <= last_at dt delay n se p -> last_at dt delay n se p <= INR n ->
  (0 <= start_index dt delay ss p <= stop_index dt delay n se p)%Z /\ (stop_index dt delay n se p <= Z.of_nat n)%Z.
Proof.
  intros H0 H1 H2. destruct Us as [U1 U2]. split.
  - assert (A : exists y, start_index dt delay ss p = Ztrunc y /\ Rabs (y - first_at dt delay ss p) <= / 1000).
    { unfold start_index, first_at. destruct ss as [l|]; [now apply index_near, U1|]. exists 0. rewrite Ztrunc_IZR, Rminus_eq_0, Rabs_R0. split; [reflexivity|lra]. }
    assert (B : exists y, stop_index dt delay n se p = Ztrunc y /\ Rabs (y - last_at dt delay n se p) <= / 1000).
    { unfold stop_index, last_at. destruct se as [l|]; [now apply index_near, U2|]. exists (IZR (Z.of_nat n - 1)).
      rewrite Ztrunc_IZR, minus_IZR, <- INR_IZR_INZ, Rminus_eq_0, Rabs_R0. split; [reflexivity|lra]. }
    destruct A as (y & -> & A), B as (z & -> & B). apply Rabs_le_inv in A. apply Rabs_le_inv in B. split.
    + destruct (Rle_lt_dec 0 y) as [Y|Y]; [rewrite Ztrunc_floor by exact Y; now apply Zfloor_lub|].
      rewrite Ztrunc_ceil by lra. rewrite (Zceil_imp 0); [lia|]. cbn. lra.
    + apply Ztrunc_le. lra.
  - apply Z.lt_succ_r. apply stop_below; [lia|]. rewrite <- Z.add_1_r, plus_IZR, <- INR_IZR_INZ. lra.
Qed.
Variables (taper : nat -> list R) (amp : list R).
Hypotheses (G : good_taper taper) (D : Forall double amp) (L : length amp = n).
Lemma amp_double j : (j < n)%nat -> double (nth j amp 0).
Proof. intros H. rewrite Forall_forall in D. apply D, nth_In. lia. Qed.
Lemma silent j : (j < n)%nat -> INR j + 1 + / 1000 <= first_at dt delay ss p \/ last_at dt delay n se p < INR j + 1 - / 1000 ->
  nth j (mute_trace taper dt delay ss se p amp) 0 = 0.
Proof.
  intros Hj H. unfold mute_trace. rewrite muted_at by lia. rewrite L. unfold window_at.
  replace (andb _ _) with false; [now rewrite Rmult_0_r, RN_0|]. symmetry. apply Bool.andb_false_iff. destruct H as [H|H].
  - left. apply Z.leb_gt. apply Z.lt_le_trans with (Z.of_nat j + 1)%Z; [lia|]. apply start_above; [lia|]. rewrite plus_IZR, <- INR_IZR_INZ. lra.
  - right. apply Z.ltb_ge. apply Z.lt_succ_r. apply stop_below; [lia|]. rewrite <- Z.add_1_r, plus_IZR, <- INR_IZR_INZ. lra.
Qed.
Lemma smaller j : (j < n)%nat -> let x := nth j amp 0 in let y := nth j (mute_trace taper dt delay ss se p amp) 0 in
  Rabs y <= Rabs x /\ (0 <= x -> 0 <= y) /\ (x <= 0 -> y <= 0).
Proof.
  intros Hj x y. unfold y, mute_trace. rewrite muted_at by lia.
  destruct (window_good taper (start_index dt delay ss p) (stop_index dt delay (length amp) se p) j G) as [Dw W].
  destruct (scaled_down x _ (amp_double j Hj) Dw W) as (A & B & C & _). auto.
Qed.
Lemma windowed j : (j < n)%nat -> first_at dt delay ss p < INR j + 1 - / 1000 -> INR j + 1 + / 1000 <= last_at dt delay n se p \/ se = None /\ (j < n - 1)%nat ->
  exists a b, (a <= j < b)%nat /\ Z.of_nat a = Z.max 0 (start_index dt delay ss p) /\ Z.of_nat b = stop_index dt delay n se p.
Proof.
  intros Hj H1 H2. assert (S1 : (start_index dt delay ss p <= Z.of_nat j)%Z).
  { apply Z.lt_succ_r. apply start_below; [lia|]. rewrite <- Z.add_1_r, plus_IZR, <- INR_IZR_INZ. lra. }
  assert (S2 : (Z.of_nat j < stop_index dt delay n se p)%Z).
  { destruct H2 as [H2|[-> H2]]; [|cbn; lia]. apply Z.lt_le_trans with (Z.of_nat j + 1)%Z; [lia|]. apply stop_above; [lia|]. rewrite plus_IZR, <- INR_IZR_INZ. lra. }
  exists (Z.to_nat (Z.max 0 (start_index dt delay ss p))), (Z.to_nat (stop_index dt delay n se p)). repeat split; lia.
Qed.
Lemma kept j : (j < n)%nat -> (0 <= start_index dt delay ss p)%Z -> first_at dt delay ss p < INR j + 1 - / 1000 ->
  INR j + 1 + / 1000 <= last_at dt delay n se p \/ se = None /\ (j < n - 1)%nat ->
  exists a b, (a <= j < b)%nat /\ Z.of_nat a = start_index dt delay ss p /\ Z.of_nat b = stop_index dt delay n se p /\
  nth j (mute_trace taper dt delay ss se p amp) 0 = RN (nth j amp 0 * nth (j - a)%nat (taper (b - a)%nat) 0) /\
  (nth (j - a)%nat (taper (b - a)%nat) 0 = 1 -> nth j (mute_trace taper dt delay ss se p amp) 0 = nth j amp 0).
Proof.
  intros Hj Z0 H1 H2. destruct (windowed j Hj H1 H2) as (a & b & Hab & Ea & Eb). exists a, b. rewrite Z.max_r in Ea by exact Z0. split; [exact Hab|]. split; [exact Ea|]. split; [exact Eb|].
  assert (E : nth j (mute_trace taper dt delay ss se p amp) 0 = RN (nth j amp 0 * nth (j - a)%nat (taper (b - a)%nat) 0)).
  { unfold mute_trace. rewrite muted_at by lia. rewrite L. unfold window_at. rewrite <- Ea, <- Eb.
    replace (andb _ _) with true by (symmetry; apply andb_true_intro; split; [apply Z.leb_le|apply Z.ltb_lt]; lia).
    repeat f_equal; lia. }
  split; [exact E|]. intros W. rewrite E, W, Rmult_1_r. now apply RN_id, amp_double.
Qed.
End Lines.
