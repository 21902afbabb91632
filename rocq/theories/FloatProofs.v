(* Proofs about double precision. *)
From Coq Require Import Lra Lia Psatz.
From Flocq Require Import Relative.
From Verif Require Import FloatModel FloatSpec.

Local Instance valid_fexp : Valid_exp fexp. Proof. apply FLT_exp_valid. reflexivity. Qed.
Local Instance valid_rnd : Valid_rnd ZnearestE. Proof. apply valid_rnd_N. Qed.

Lemma u_pos : 0 < u. Proof. unfold u. apply Rinv_0_lt_compat. apply IZR_lt. reflexivity. Qed.
Lemma tiny_pos : 0 < tiny. Proof. unfold tiny. apply Rinv_0_lt_compat. apply IZR_lt. reflexivity. Qed.

(** One rounding. *)
Lemma RN_error x : Rabs (RN x - x) <= u * Rabs x + tiny / 32.
Proof.
  destruct (error_N_FLT radix2 (-1074) 53 ltac:(reflexivity) (fun z => negb (Z.even z)) x) as (eps & eta & E1 & E2 & _ & E).
  unfold RN, fexp. rewrite E.
  replace (x * (1 + eps) + eta - x) with (x * eps + eta) by ring.
  apply Rle_trans with (Rabs (x * eps) + Rabs eta); [apply Rabs_triang|].
  rewrite Rabs_mult. apply Rplus_le_compat.
  - rewrite Rmult_comm. apply Rmult_le_compat_r; [apply Rabs_pos|].
    apply Rle_trans with (1 := E1). unfold u. cbn. lra.
  - apply Rle_trans with (1 := E2). unfold tiny.
    replace (/ 2 * bpow radix2 (-1074)) with (bpow radix2 (-1075)).
    + unfold Rdiv. replace (/ 32) with (bpow radix2 (-5)) by (cbn; lra).
      replace (/ IZR (2 ^ 1070)) with (bpow radix2 (-1070)).
      * rewrite <- bpow_plus. apply Rle_refl.
      * change (-1070)%Z with (- (1070))%Z. rewrite bpow_opp. f_equal.
    + replace (/ 2) with (bpow radix2 (-1)) by (cbn; lra). now rewrite <- bpow_plus.
Qed.
Lemma RN_int i : (Z.abs i <= 2 ^ 53)%Z -> RN (IZR i) = IZR i.
Proof.
  intros H. apply round_generic; [apply valid_rnd|]. 
  destruct (Z.eq_dec (Z.abs i) (2 ^ 53)) as [E|N].
  - assert (X : IZR i = bpow radix2 53 \/ IZR i = - bpow radix2 53).
    { rewrite <- (IZR_Zpower radix2 53) by lia. change (Zpower radix2 53) with (2 ^ 53)%Z.
      destruct (Z.abs_spec i) as [[_ Q]|[_ Q]]; [left|right].
      - f_equal. lia.
      - rewrite <- opp_IZR. f_equal. lia. }
    assert (B : generic_format radix2 fexp (bpow radix2 53)) by (apply generic_format_bpow; unfold fexp, FLT_exp; lia).
    destruct X as [-> | ->]; auto. now apply generic_format_opp.
  - apply generic_format_FLT. exists (Float radix2 i 0); cbn; [unfold F2R; cbn; ring| |lia]. lia.
Qed.
Lemma RN_mono x y : x <= y -> RN x <= RN y.
Proof. apply round_le; auto with typeclass_instances. Qed.
Lemma RN_double x : double (RN x).
Proof. apply generic_format_round; auto with typeclass_instances. Qed.
Lemma RN_id x : double x -> RN x = x.
Proof. apply round_generic; auto with typeclass_instances. Qed.

(** Nearest integers. *)
Lemma nearest_int x k : Rabs (x - IZR k) < / 2 -> ZnearestE x = k.
Proof. intros H. apply Znearest_imp. exact H. Qed.
Lemma nearest_error x : Rabs (x - IZR (ZnearestE x)) <= / 2.
Proof. apply Znearest_half. Qed.

Lemma u_value : u = / 9007199254740992. Proof. reflexivity. Qed.
Lemma tiny_small : tiny <= / 1000000000000000000000000000000.
Proof. unfold tiny. apply Rinv_le; [apply IZR_lt; reflexivity|]. apply IZR_le. intros H. discriminate H. Qed.

Lemma scaled_back i T : 1 <= T <= 1000000000 -> (Z.abs i <= 2 ^ 40)%Z -> ZnearestE (RN (IZR i / T) * T) = i.
Proof.
  intros HT Hi. apply nearest_int.
  assert (E := RN_error (IZR i / T)). assert (A : Rabs (IZR i) <= 1099511627776).
  { rewrite <- abs_IZR. now apply IZR_le in Hi. }
  replace (RN (IZR i / T) * T - IZR i) with ((RN (IZR i / T) - IZR i / T) * T) by (field; lra).
  rewrite Rabs_mult, (Rabs_pos_eq T) by lra.
  apply Rle_lt_trans with ((u * Rabs (IZR i / T) + tiny / 32) * T).
  { apply Rmult_le_compat_r; lra. }
  unfold Rdiv at 1. rewrite Rabs_mult, (Rabs_pos_eq (/ T)) by (apply Rlt_le, Rinv_0_lt_compat; lra).
  replace ((u * (Rabs (IZR i) * / T) + tiny / 32) * T) with (u * Rabs (IZR i) + tiny * T / 32) by (field; lra).
  assert (tiny * T <= / 1000000000000000000000000000000 * 1000000000).
  { apply Rmult_le_compat; try lra; [apply Rlt_le, tiny_pos|apply tiny_small]. }
  rewrite u_value in *. lra.
Qed.

Lemma tens e : (0 <= e <= 9)%Z -> 1 <= IZR (10 ^ e) <= 1000000000.
Proof.
  intros H. split.
  - apply (IZR_le 1). assert (10 ^ 0 <= 10 ^ e)%Z by (apply Z.pow_le_mono_r; lia). exact H0.
  - apply (IZR_le _ 1000000000). change 1000000000%Z with (10 ^ 9)%Z. apply Z.pow_le_mono_r; lia.
Qed.
Lemma read_divided_nearest i e : (0 <= e <= 9)%Z -> (Z.abs i <= 2 ^ 40)%Z -> read_divided i e = RN (IZR i / IZR (10 ^ e)).
Proof. intros He Hi. unfold read_divided, round_places. rewrite scaled_back; auto. now apply tens. Qed.
Lemma read_multiplied_exact i e : (0 <= e)%Z -> read_multiplied i e = (i * 10 ^ e)%Z.
Proof.
  intros He. unfold read_multiplied, round_tens. f_equal. apply nearest_int.
  assert (P : IZR (10 ^ e) <> 0) by (apply not_0_IZR, Z.pow_nonzero; lia).
  rewrite mult_IZR. replace (IZR i * IZR (10 ^ e) / IZR (10 ^ e) - IZR i) with 0 by (field; auto). rewrite Rabs_R0. lra.
Qed.

(** ** Writing and reading back *)
Lemma written_back k : (Z.abs k <= 2 ^ 31)%Z -> write_thousandths (RN (IZR k / 1000)) = k.
Proof.
  intros Hk. unfold write_thousandths. apply nearest_int. set (x := RN (IZR k / 1000)).
  assert (A : Rabs (IZR k) <= 2147483648) by (rewrite <- abs_IZR; now apply IZR_le in Hk).
  assert (E := RN_error (IZR k / 1000)). fold x in E. assert (F := RN_error (x * 1000)).
  assert (AK : Rabs (IZR k / 1000) = Rabs (IZR k) / 1000) by (unfold Rdiv; rewrite Rabs_mult, (Rabs_pos_eq (/ 1000)); lra).
  rewrite AK in E. rewrite Rabs_mult, (Rabs_pos_eq 1000) in F by lra.
  assert (T := tiny_small). assert (T0 := tiny_pos). rewrite u_value in *.
  assert (X : Rabs x <= 3000000).
  { replace x with ((x - IZR k / 1000) + IZR k / 1000) by ring. apply Rle_trans with (1 := Rabs_triang _ _). rewrite AK. lra. }
  replace (RN (x * 1000) - IZR k) with ((RN (x * 1000) - x * 1000) + (x - IZR k / 1000) * 1000) by field.
  apply Rle_lt_trans with (1 := Rabs_triang _ _). rewrite (Rabs_mult _ 1000), (Rabs_pos_eq 1000) by lra. lra.
Qed.
Lemma written_near x : Rabs x <= 2147483 -> (Z.abs (write_thousandths x) <= 2 ^ 31)%Z /\ Rabs (IZR (write_thousandths x) - x * 1000) <= 5000003 / 10000000.
Proof.
  intros X. unfold write_thousandths. assert (F := RN_error (x * 1000)). assert (N := nearest_error (RN (x * 1000))).
  rewrite Rabs_mult, (Rabs_pos_eq 1000) in F by lra. assert (T := tiny_small). assert (T0 := tiny_pos). rewrite u_value in *.
  set (k := ZnearestE (RN (x * 1000))) in *.
  assert (D : Rabs (IZR k - x * 1000) <= 5000003 / 10000000).
  { replace (IZR k - x * 1000) with (- (RN (x * 1000) - IZR k) + (RN (x * 1000) - x * 1000)) by ring.
    apply Rle_trans with (1 := Rabs_triang _ _). rewrite Rabs_Ropp. lra. }
  split; [|exact D]. apply le_IZR. rewrite abs_IZR. change (2 ^ 31)%Z with 2147483648%Z.
  replace (IZR k) with ((IZR k - x * 1000) + x * 1000) by ring. apply Rle_trans with (1 := Rabs_triang _ _). rewrite (Rabs_mult x), (Rabs_pos_eq 1000) by lra. lra.
Qed.
Lemma read_back_near x : Rabs x <= 2147483 -> Rabs (read_divided (write_thousandths x) 3 - x) <= 50001 / 100000000.
Proof.
  intros X. destruct (written_near x X) as [K D]. rewrite read_divided_nearest by lia. change (10 ^ 3)%Z with 1000%Z.
  set (k := write_thousandths x) in *. assert (E := RN_error (IZR k / 1000)).
  assert (A : Rabs (IZR k) <= 2147483648) by (rewrite <- abs_IZR; now apply IZR_le in K).
  assert (AK : Rabs (IZR k / 1000) = Rabs (IZR k) / 1000) by (unfold Rdiv; rewrite Rabs_mult, (Rabs_pos_eq (/ 1000)); lra).
  rewrite AK in E. assert (T := tiny_small). rewrite u_value in *.
  replace (RN (IZR k / 1000) - x) with ((RN (IZR k / 1000) - IZR k / 1000) + (IZR k - x * 1000) * / 1000) by field.
  apply Rle_trans with (1 := Rabs_triang _ _). rewrite (Rabs_mult _ (/ 1000)), (Rabs_pos_eq (/ 1000)) by lra. lra.
Qed.

(** ** Stacking *)
Lemma stack2_error a n b m M : (1 <= n)%Z -> (1 <= m)%Z -> Rabs a <= M -> Rabs b <= M ->
  Rabs (stack2 a n b m - (a * IZR n + b * IZR m) / IZR (n + m)) <= 4 * u * M + tiny.
Proof.
  intros Hn Hm Ha Hb. unfold stack2. set (N := IZR n). set (P := IZR m). rewrite plus_IZR. fold N P.
  assert (N1 : 1 <= N) by now apply (IZR_le 1). assert (P1 : 1 <= P) by now apply (IZR_le 1).
  assert (M0 : 0 <= M) by (apply Rle_trans with (2 := Ha), Rabs_pos).
  assert (U := u_value). assert (U0 := u_pos). assert (T0 := tiny_pos). assert (TS := tiny_small).
  set (t := tiny / 32). assert (t0 : 0 < t) by (unfold t; lra).
  set (p := RN (a * N)). set (q := RN (b * P)). set (s := RN (p + q)).
  assert (Ep : Rabs (p - a * N) <= u * M * N + t).
  { apply Rle_trans with (1 := RN_error _). fold t. rewrite Rabs_mult, (Rabs_pos_eq N) by lra. apply Rplus_le_compat_r.
    rewrite Rmult_assoc. apply Rmult_le_compat_l; [lra|]. apply Rmult_le_compat_r; lra. }
  assert (Eq : Rabs (q - b * P) <= u * M * P + t).
  { apply Rle_trans with (1 := RN_error _). fold t. rewrite Rabs_mult, (Rabs_pos_eq P) by lra. apply Rplus_le_compat_r.
    rewrite Rmult_assoc. apply Rmult_le_compat_l; [lra|]. apply Rmult_le_compat_r; lra. }
  set (S := N + P). assert (S2 : 2 <= S) by (unfold S; lra).
  assert (W : Rabs (a * N + b * P) <= M * S).
  { apply Rle_trans with (1 := Rabs_triang _ _). rewrite !Rabs_mult, (Rabs_pos_eq N), (Rabs_pos_eq P) by lra. unfold S. rewrite Rmult_plus_distr_l.
    apply Rplus_le_compat; apply Rmult_le_compat_r; lra. }
  assert (Epq : Rabs ((p + q) - (a * N + b * P)) <= u * (M * S) + 2 * t).
  { replace (p + q - (a * N + b * P)) with ((p - a * N) + (q - b * P)) by ring. apply Rle_trans with (1 := Rabs_triang _ _).
    apply Rle_trans with (1 := Rplus_le_compat _ _ _ _ Ep Eq). unfold S. right. ring. }
  assert (MS : 0 <= M * S) by (apply Rmult_le_pos; lra). set (Q := M * S) in *.
  assert (Apq : Rabs (p + q) <= Q + u * Q + 2 * t).
  { replace (p + q) with (((p + q) - (a * N + b * P)) + (a * N + b * P)) by ring. apply Rle_trans with (1 := Rabs_triang _ _). lra. }
  assert (Es : Rabs (s - (a * N + b * P)) <= u * (Q + u * Q + 2 * t) + t + u * Q + 2 * t).
  { replace (s - (a * N + b * P)) with ((s - (p + q)) + ((p + q) - (a * N + b * P))) by ring. apply Rle_trans with (1 := Rabs_triang _ _).
    apply Rle_trans with ((u * Rabs (p + q) + t) + (u * Q + 2 * t)).
    - apply Rplus_le_compat; [apply RN_error|exact Epq].
    - assert (u * Rabs (p + q) <= u * (Q + u * Q + 2 * t)) by (apply Rmult_le_compat_l; lra). lra. }
  assert (As : Rabs s <= Q + u * (Q + u * Q + 2 * t) + t + u * Q + 2 * t).
  { replace s with ((s - (a * N + b * P)) + (a * N + b * P)) by ring. apply Rle_trans with (1 := Rabs_triang _ _). lra. }
  set (w := a * N + b * P) in *.
  assert (D1 : Rabs (RN (s / S) - s / S) <= u * (Rabs s / S) + t).
  { apply Rle_trans with (1 := RN_error _). fold t. unfold Rdiv. rewrite Rabs_mult, (Rabs_pos_eq (/ S)); [lra|]. apply Rlt_le, Rinv_0_lt_compat. lra. }
  assert (D2 : Rabs (s / S - w / S) = Rabs (s - w) / S).
  { replace (s / S - w / S) with ((s - w) * / S) by (field; lra). rewrite Rabs_mult, (Rabs_pos_eq (/ S)); [reflexivity|]. apply Rlt_le, Rinv_0_lt_compat. lra. }
  replace (RN (s / S) - w / S) with ((RN (s / S) - s / S) + (s / S - w / S)) by ring.
  apply Rle_trans with (1 := Rabs_triang _ _). rewrite D2.
  assert (I : 0 < / S <= / 2) by (split; [apply Rinv_0_lt_compat; lra|apply Rinv_le; lra]).
  assert (QS : Q / S = M) by (unfold Q; field; lra).
  assert (tS : t / S <= t / 2) by (unfold Rdiv; apply Rmult_le_compat_l; lra).
  assert (B1 : Rabs s / S <= M + u * M + u * u * M + u * M + (2 * u + 3) * (t / 2)).
  { apply Rle_trans with ((Q + u * (Q + u * Q + 2 * t) + t + u * Q + 2 * t) / S); [apply Rmult_le_compat_r; lra|].
    replace ((Q + u * (Q + u * Q + 2 * t) + t + u * Q + 2 * t) / S) with (Q / S + u * (Q / S) + u * u * (Q / S) + u * (Q / S) + (2 * u + 3) * (t / S)) by (field; lra).
    rewrite QS. apply Rplus_le_compat_l. apply Rmult_le_compat_l; lra. }
  assert (B2 : Rabs (s - w) / S <= u * M + u * u * M + u * M + (2 * u + 3) * (t / 2)).
  { apply Rle_trans with ((u * (Q + u * Q + 2 * t) + t + u * Q + 2 * t) / S); [apply Rmult_le_compat_r; lra|].
    replace ((u * (Q + u * Q + 2 * t) + t + u * Q + 2 * t) / S) with (u * (Q / S) + u * u * (Q / S) + u * (Q / S) + (2 * u + 3) * (t / S)) by (field; lra).
    rewrite QS. apply Rplus_le_compat_l. apply Rmult_le_compat_l; lra. }
  assert (UM : 0 <= u * M) by (apply Rmult_le_pos; lra). assert (UUM : u * u * M <= u * M / 1000) by (rewrite Rmult_assoc, Rmult_comm; unfold Rdiv; apply Rmult_le_compat_l; lra).
  assert (UUM0 : 0 <= u * u * M) by (rewrite Rmult_assoc; apply Rmult_le_pos; lra).
  assert (B3 : u * (Rabs s / S) <= u * (M + u * M + u * u * M + u * M + (2 * u + 3) * (t / 2))) by (apply Rmult_le_compat_l; lra).
  assert (U3 : u * (u * u * M) <= u * M / 1000).
  { rewrite Rmult_comm. apply Rle_trans with (u * M / 1000 * u); [apply Rmult_le_compat_r; lra|]. rewrite <- (Rmult_1_r (u * M / 1000)) at 2. apply Rmult_le_compat_l; lra. }
  assert (Tt : u * ((2 * u + 3) * (t / 2)) <= t). { replace (u * ((2 * u + 3) * (t / 2))) with ((u * (2 * u + 3) / 2) * t) by field. rewrite <- (Rmult_1_l t) at 2. apply Rmult_le_compat_r; [lra|]. rewrite U. lra. }
  assert (Tu : (2 * u + 3) * (t / 2) <= 2 * t). { replace ((2 * u + 3) * (t / 2)) with (((2 * u + 3) / 2) * t) by field. apply Rmult_le_compat_r; [lra|]. rewrite U. lra. }
  assert (Exp : u * (M + u * M + u * u * M + u * M + (2 * u + 3) * (t / 2)) = u * M + 2 * (u * u * M) + u * (u * u * M) + u * ((2 * u + 3) * (t / 2))) by ring.
  assert (t = tiny / 32) by reflexivity. lra.
Qed.

(** ** Stacking a history of records *)
Definition B M := 8 * u * M + 2 * tiny.

Lemma stack_all_step a A n b m M k : (1 <= n)%Z -> (1 <= m)%Z -> Rabs A <= M -> Rabs b <= M -> (0 <= k <= 2 ^ 40)%Z ->
  Rabs (a - A) <= IZR k * B M ->
  Rabs (stack2 a n b m - (A * IZR n + b * IZR m) / IZR (n + m)) <= IZR (k + 1) * B M.
Proof.
  intros Hn Hm HA Hb Hk He.
  assert (U := u_value). assert (U0 := u_pos). assert (T0 := tiny_pos).
  assert (M0 : 0 <= M) by (apply Rle_trans with (2 := HA), Rabs_pos).
  assert (K : 0 <= IZR k <= 1099511627776). { destruct Hk as [H1 H2]. apply IZR_le in H1, H2. split; assumption. }
  set (r := Rabs (a - A)) in *. assert (r0 : 0 <= r) by apply Rabs_pos.
  assert (UM : 0 <= u * M) by (apply Rmult_le_pos; lra).
  assert (R1 : u * r <= u * M / 4 + tiny / 8).
  { apply Rle_trans with (u * (IZR k * B M)); [apply Rmult_le_compat_l; lra|]. unfold B.
    replace (u * (IZR k * (8 * u * M + 2 * tiny))) with ((u * IZR k) * (8 * (u * M) + 2 * tiny)) by ring.
    apply Rle_trans with (/ 1000 * (8 * (u * M) + 2 * tiny)).
    - apply Rmult_le_compat_r; [lra|]. apply Rle_trans with (u * 1099511627776); [apply Rmult_le_compat_l; lra|]. rewrite U. lra.
    - lra. }
  assert (Ma : Rabs a <= M + r).
  { replace a with (A + (a - A)) by ring. apply Rle_trans with (1 := Rabs_triang _ _). fold r. lra. }
  assert (S := stack2_error a n b m (M + r) Hn Hm Ma ltac:(lra)).
  set (N := IZR n) in *. set (P := IZR m) in *. rewrite plus_IZR in *. fold N P in S |- *.
  assert (N1 : 1 <= N) by now apply (IZR_le 1). assert (P1 : 1 <= P) by now apply (IZR_le 1).
  assert (D : Rabs ((a * N + b * P) / (N + P) - (A * N + b * P) / (N + P)) <= r).
  { replace ((a * N + b * P) / (N + P) - (A * N + b * P) / (N + P)) with ((a - A) * (N / (N + P))) by (field; lra).
    rewrite Rabs_mult. fold r. rewrite <- (Rmult_1_r r) at 2. apply Rmult_le_compat_l; [lra|].
    assert (I : 0 < / (N + P)) by (apply Rinv_0_lt_compat; lra).
    rewrite Rabs_pos_eq by (apply Rmult_le_pos; lra). apply Rmult_le_reg_r with (N + P); [lra|]. unfold Rdiv. rewrite Rmult_assoc, Rinv_l by lra. lra. }
  replace (stack2 a n b m - (A * N + b * P) / (N + P)) with ((stack2 a n b m - (a * N + b * P) / (N + P)) + ((a * N + b * P) / (N + P) - (A * N + b * P) / (N + P))) by ring.
  apply Rle_trans with (1 := Rabs_triang _ _). rewrite plus_IZR. unfold B in *.
  replace (4 * u * (M + r)) with (4 * (u * M) + 4 * (u * r)) in S by ring.
  replace ((IZR k + 1) * (8 * u * M + 2 * tiny)) with (IZR k * (8 * u * M + 2 * tiny) + 8 * (u * M) + 2 * tiny) by ring. lra.
Qed.

Lemma weighted_bound l M : counts_ok l M -> 0 <= M -> (0 <= total l)%Z /\ Rabs (weighted l) <= M * IZR (total l).
Proof.
  intros H M0. induction H as [|[b m] l [Hm Hb] _ [IH1 IH2]]; cbn in *.
  - split; [lia|]. rewrite Rabs_R0. lra.
  - split; [lia|]. rewrite plus_IZR, Rmult_plus_distr_l. apply Rle_trans with (1 := Rabs_triang _ _). apply Rplus_le_compat; [|exact IH2].
    rewrite Rabs_mult, (Rabs_pos_eq (IZR m)) by (apply (IZR_le 0); lia). apply Rmult_le_compat_r; [apply (IZR_le 0); lia|exact Hb].
Qed.

Lemma stack_all_error l : forall a A n M k, counts_ok l M -> (1 <= n)%Z -> Rabs A <= M -> (0 <= k)%Z -> (k + Z.of_nat (length l) <= 2 ^ 40)%Z ->
  Rabs (a - A) <= IZR k * B M ->
  Rabs (fst (stack_all a n l) - (A * IZR n + weighted l) / IZR (n + total l)) <= IZR (k + Z.of_nat (length l)) * B M.
Proof.
  induction l as [|[b m] l IH]; intros a A n M k HL Hn HA Hk Hlen He.
  - cbn. rewrite Rplus_0_r, !Z.add_0_r. replace (A * IZR n / IZR n) with A; [exact He|]. field. apply not_0_IZR. lia.
  - inversion_clear HL as [|? ? [Hm Hb] HL']. cbn [fst snd] in *. cbn [stack_all length weighted total].
    assert (N1 : 1 <= IZR n) by now apply (IZR_le 1). assert (P1 : 1 <= IZR m) by now apply (IZR_le 1).
    cbn [length] in Hlen. rewrite Nat2Z.inj_succ in *.
    assert (S := stack_all_step a A n b m M k Hn Hm HA Hb ltac:(lia) He).
    assert (HA' : Rabs ((A * IZR n + b * IZR m) / IZR (n + m)) <= M).
    { rewrite plus_IZR. unfold Rdiv. rewrite Rabs_mult. assert (I : 0 < / (IZR n + IZR m)) by (apply Rinv_0_lt_compat; lra).
      rewrite (Rabs_pos_eq (/ _)) by lra. apply Rmult_le_reg_r with (IZR n + IZR m); [lra|]. rewrite Rmult_assoc, Rinv_l, Rmult_1_r by lra.
      apply Rle_trans with (1 := Rabs_triang _ _). rewrite !Rabs_mult, (Rabs_pos_eq (IZR n)), (Rabs_pos_eq (IZR m)) by lra.
      rewrite Rmult_plus_distr_l. apply Rplus_le_compat; apply Rmult_le_compat_r; lra. }
    specialize (IH (stack2 a n b m) _ (n + m)%Z M (k + 1)%Z HL' ltac:(lia) HA' ltac:(lia) ltac:(lia) S).
    replace (k + Z.succ (Z.of_nat (length l)))%Z with (k + 1 + Z.of_nat (length l))%Z by lia.
    replace (n + (m + total l))%Z with (n + m + total l)%Z by lia.
    replace (A * IZR n + (b * IZR m + weighted l)) with ((A * IZR n + b * IZR m) / IZR (n + m) * IZR (n + m) + weighted l); [exact IH|].
    rewrite plus_IZR. field. lra.
Qed.

Lemma stack_history a n l M : counts_ok ((a, n) :: l) M -> (Z.of_nat (length l) <= 2 ^ 40)%Z ->
  snd (stack_all a n l) = total ((a, n) :: l) /\
  Rabs (fst (stack_all a n l) - mean ((a, n) :: l)) <= IZR (Z.of_nat (length l)) * (8 * u * M + 2 * tiny).
Proof.
  intros H Hl. inversion_clear H as [|? ? [Hn Ha] HL]. cbn [fst snd] in *. split.
  - clear. revert a n. induction l as [|[b m] l IH]; intros a n; cbn; [lia|]. rewrite IH. cbn. lia.
  - apply (stack_all_error l a a n M 0 HL Hn Ha ltac:(lia) ltac:(lia)). rewrite Rminus_diag_eq, Rabs_R0 by reflexivity. rewrite Rmult_0_l. lra.
Qed.

(** ** The receiver spacing *)
Lemma diffs_length l : length (diffs l) = (length l - 1)%nat.
Proof. induction l as [|x [|y t] IH]; cbn in *; auto. rewrite IH. cbn. lia. Qed.
Lemma diffs_nth l : forall i, (S i < length l)%nat -> nth i (diffs l) 0 = RN (nth (S i) l 0 - nth i l 0).
Proof.
  induction l as [|x [|y t] IH]; intros i Hi; cbn [length] in Hi; try lia.
  destruct i as [|i]; [reflexivity|]. cbn [diffs nth]. rewrite IH by (cbn; lia). reflexivity.
Qed.
Lemma least_le l : forall d, least d l <= d /\ forall x, In x l -> least d l <= x.
Proof.
  unfold least. induction l as [|y l IH]; intros d; cbn; [split; [lra|easy]|]. destruct (IH (Rmin d y)) as [H1 H2]. split.
  - apply Rle_trans with (1 := H1), Rmin_l.
  - intros x [-> |Hx]; [apply Rle_trans with (1 := H1), Rmin_r|auto].
Qed.
Lemma least_in l : forall d, In (least d l) (d :: l).
Proof.
  unfold least. induction l as [|y l IH]; intros d; cbn; [auto|]. destruct (IH (Rmin d y)) as [H|H]; [|cbn; auto].
  cbn. unfold Rmin in *. destruct (Rle_dec d y); auto.
Qed.
Lemma greatest_ge l : forall d, d <= greatest d l /\ forall x, In x l -> x <= greatest d l.
Proof.
  unfold greatest. induction l as [|y l IH]; intros d; cbn; [split; [lra|easy]|]. destruct (IH (Rmax d y)) as [H1 H2]. split.
  - apply Rle_trans with (2 := H1), Rmax_l.
  - intros x [-> |Hx]; [apply Rle_trans with (2 := H1), Rmax_r|auto].
Qed.
Lemma greatest_in l : forall d, In (greatest d l) (d :: l).
Proof.
  unfold greatest. induction l as [|y l IH]; intros d; cbn; [auto|]. destruct (IH (Rmax d y)) as [H|H]; [|cbn; auto].
  cbn. unfold Rmax in *. destruct (Rle_dec d y); auto.
Qed.


Lemma step_small p i : near_origin p -> (S i < length p)%nat -> Rabs (step p i) <= 2000000.
Proof.
  intros H Hi. unfold step. assert (A := proj1 (Forall_forall _ _) H).
  assert (A1 := A _ (nth_In p 0 Hi)). assert (A2 := A _ (nth_In p 0 (ltac:(lia) : (i < length p)%nat))). cbn in A1, A2.
  apply Rle_trans with (1 := Rabs_triang _ _). rewrite Rabs_Ropp. lra.
Qed.
Lemma diff_near p d : near_origin p -> In d (diffs p) -> exists i, (S i < length p)%nat /\ Rabs (d - step p i) <= / 1000000000.
Proof.
  intros H Hd. destruct (In_nth _ _ 0 Hd) as (i & Hi & <-). rewrite diffs_length in Hi. assert (L : (S i < length p)%nat) by lia.
  exists i. split; [exact L|]. rewrite diffs_nth by exact L. fold (step p i). apply Rle_trans with (1 := RN_error _).
  assert (B := step_small p i H L). assert (T := tiny_small). rewrite u_value. lra.
Qed.
Lemma diff_of p i : near_origin p -> (S i < length p)%nat -> exists d, In d (diffs p) /\ Rabs (d - step p i) <= / 1000000000.
Proof.
  intros H L. exists (nth i (diffs p) 0). split; [apply nth_In; rewrite diffs_length; lia|].
  rewrite diffs_nth by exact L. fold (step p i). apply Rle_trans with (1 := RN_error _).
  assert (B := step_small p i H L). assert (T := tiny_small). rewrite u_value. lra.
Qed.

Lemma range_error p d l : near_origin p -> diffs p = d :: l ->
  exists i j, (S i < length p)%nat /\ (S j < length p)%nat /\
    Rabs (least d l - step p i) <= / 1000000000 /\ Rabs (greatest d l - step p j) <= / 1000000000 /\
    (forall k, (S k < length p)%nat -> least d l - / 1000000000 <= step p k <= greatest d l + / 1000000000) /\
    Rabs (RN (greatest d l - least d l) - (greatest d l - least d l)) <= / 1000000000.
Proof.
  intros H E.
  destruct (diff_near p (least d l) H) as (i & Li & Ei); [rewrite E; apply least_in|].
  destruct (diff_near p (greatest d l) H) as (j & Lj & Ej); [rewrite E; apply greatest_in|].
  exists i, j. do 4 (split; [assumption|]). split.
  - intros k Lk. destruct (diff_of p k H Lk) as (x & Hx & Ex). rewrite E in Hx. apply Rabs_le_inv in Ex.
    destruct (least_le l d) as [A1 A2]. destruct (greatest_ge l d) as [G1 G2].
    destruct Hx as [<- |Hx]; [|specialize (A2 _ Hx); specialize (G2 _ Hx)]; lra.
  - apply Rle_trans with (1 := RN_error _).
    assert (Bi := step_small p i H Li). assert (Bj := step_small p j H Lj). apply Rabs_le_inv in Bi, Bj, Ei, Ej.
    assert (Rabs (greatest d l - least d l) <= 5000000) by (apply Rabs_le; lra). assert (T := tiny_small). rewrite u_value. lra.
Qed.

Lemma hundredth_error : Rabs (RN (1 / 100) - 1 / 100) <= / 1000000000.
Proof.
  apply Rle_trans with (1 := RN_error _). rewrite (Rabs_pos_eq (1 / 100)) by lra. assert (T := tiny_small). rewrite u_value. lra.
Qed.

Lemma numpy_round2_near x k : Rabs x <= 3000000 -> Rabs (x - IZR k / 100) <= 499 / 100000 -> numpy_round2 x = RN (IZR k / 100).
Proof.
  intros X H. unfold numpy_round2. rewrite (nearest_int _ k); [reflexivity|].
  replace (RN (x * 100) - IZR k) with ((RN (x * 100) - x * 100) + (x - IZR k / 100) * 100) by field.
  apply Rle_lt_trans with (1 := Rabs_triang _ _). rewrite (Rabs_mult _ 100), (Rabs_pos_eq 100) by lra.
  assert (E := RN_error (x * 100)). rewrite Rabs_mult, (Rabs_pos_eq 100) in E by lra. assert (T := tiny_small). rewrite u_value in E. lra.
Qed.

Lemma spacing_found p k : near_origin p -> (2 <= length p)%nat ->
  (forall i, (S i < length p)%nat -> Rabs (step p i - IZR k / 100) <= 49 / 10000) ->
  spacing p = Some (RN (IZR k / 100)).
Proof.
  intros H L Hs. unfold spacing. assert (LD := diffs_length p). destruct (diffs p) as [|d l] eqn:E; [cbn in LD; lia|]. clear LD.
  destruct (range_error p d l H E) as (i & j & Li & Lj & Ei & Ej & _ & Er).
  assert (Si := Hs i Li). assert (Sj := Hs j Lj). assert (Bi := step_small p i H Li). assert (HE := hundredth_error).
  apply Rabs_le_inv in Ei, Ej, Er, Si, Sj, Bi, HE.
  destruct (Rlt_dec _ _) as [_|C]; [|exfalso; apply C; lra].
  f_equal. apply numpy_round2_near; apply Rabs_le; lra.
Qed.

Lemma spacing_uneven p i j : near_origin p -> (S i < length p)%nat -> (S j < length p)%nat ->
  101 / 10000 <= step p i - step p j -> spacing p = None.
Proof.
  intros H Li Lj Hs. unfold spacing. destruct (diffs p) as [|d l] eqn:E; [reflexivity|].
  destruct (range_error p d l H E) as (_ & _ & _ & _ & _ & _ & All & Er).
  assert (Ai := All i Li). assert (Aj := All j Lj). assert (HE := hundredth_error). apply Rabs_le_inv in Er, HE.
  destruct (Rlt_dec _ _) as [C|_]; [exfalso; lra|reflexivity].
Qed.

Lemma numpy_round2_error x : Rabs x <= 3000000 -> Rabs (numpy_round2 x - x) <= 501 / 100000.
Proof.
  intros X. unfold numpy_round2. set (y := RN (x * 100)). set (k := ZnearestE y).
  assert (N := nearest_error y). fold k in N.
  assert (E := RN_error (x * 100)). fold y in E. rewrite Rabs_mult, (Rabs_pos_eq 100) in E by lra. assert (T := tiny_small).
  assert (F := RN_error (IZR k / 100)). assert (T0 := tiny_pos). rewrite u_value in *.
  apply Rabs_le_inv in N. assert (E' : Rabs (y - x * 100) <= / 1000000) by lra. clear E.
  apply Rabs_le_inv in X, E'. assert (K : Rabs (IZR k / 100) <= 4000000) by (apply Rabs_le; lra).
  assert (F' : Rabs (RN (IZR k / 100) - IZR k / 100) <= / 1000000) by lra. apply Rabs_le_inv in F'. apply Rabs_le. lra.
Qed.

Lemma spacing_found_near p s : near_origin p -> spacing p = Some s ->
  (2 <= length p)%nat /\ (forall i j, (S i < length p)%nat -> (S j < length p)%nat -> Rabs (step p i - step p j) <= 100001 / 10000000) /\
  (forall i, (S i < length p)%nat -> - 5011 / 1000000 <= step p i - s <= 15011 / 1000000).
Proof.
  intros H. unfold spacing. assert (LD := diffs_length p). destruct (diffs p) as [|d l] eqn:E; [discriminate|]. cbn in LD.
  destruct (range_error p d l H E) as (a & b & La & _ & Ea & _ & All & Er). assert (HE := hundredth_error).
  assert (Ba := step_small p a H La). apply Rabs_le_inv in Ba, Ea, Er, HE.
  destruct (Rlt_dec _ _) as [C|_]; [|discriminate]. intros [= <-]. split; [lia|]. split.
  - intros i j Li Lj. assert (Ai := All i Li). assert (Aj := All j Lj). apply Rabs_le. lra.
  - intros i Li. assert (Ai := All i Li). assert (N := numpy_round2_error (least d l) ltac:(apply Rabs_le; lra)). apply Rabs_le_inv in N. lra.
Qed.

Lemma spacing_of_millimetres cs k : (2 <= length cs)%nat -> Forall (fun c => (Z.abs c <= 900000000)%Z) cs ->
  (forall i, (S i < length cs)%nat -> (nth (S i) cs 0 - nth i cs 0 = 10 * k)%Z) ->
  spacing (map (fun c => read_divided c 3) cs) = Some (RN (IZR k / 100)).
Proof.
  intros L H Hs. set (f := fun c => read_divided c 3).
  assert (F : forall c, In c cs -> Rabs (f c - IZR c / 1000) <= / 1000000000 /\ Rabs (IZR c / 1000) <= 900000).
  { intros c Hc. assert (Bc := proj1 (Forall_forall _ _) H c Hc). cbn in Bc. unfold f. rewrite read_divided_nearest by lia. change (10 ^ 3)%Z with 1000%Z.
    assert (E := RN_error (IZR c / 1000)). assert (A : Rabs (IZR c) <= 900000000) by (rewrite <- abs_IZR; now apply IZR_le in Bc).
    assert (K : Rabs (IZR c / 1000) <= 900000). { apply Rabs_le_inv in A. apply Rabs_le. lra. }
    assert (T := tiny_small). rewrite u_value in E. split; lra. }
  apply spacing_found.
  - apply Forall_forall. intros x Hx. apply in_map_iff in Hx. destruct Hx as (c & <- & Hc). destruct (F c Hc) as [E K].
    apply Rabs_le_inv in E, K. apply Rabs_le. lra.
  - rewrite map_length. exact L.
  - intros i Hi. rewrite map_length in Hi. unfold step.
    rewrite (nth_indep _ 0 (f 0%Z)) by (rewrite map_length; lia). rewrite (nth_indep _ 0 (f 0%Z)) by (rewrite map_length; lia). rewrite !map_nth.
    specialize (Hs i Hi). destruct (F _ (nth_In cs 0%Z Hi)) as [E1 _]. destruct (F _ (nth_In cs 0%Z (ltac:(lia) : (i < length cs)%nat))) as [E2 _].
    assert (D : IZR (nth (S i) cs 0%Z) / 1000 - IZR (nth i cs 0%Z) / 1000 = IZR k / 100).
    { apply (f_equal IZR) in Hs. rewrite minus_IZR, mult_IZR in Hs. lra. }
    apply Rabs_le_inv in E1, E2. apply Rabs_le. lra.
Qed.
