(* Proofs about the slant stack in double precision. *)
From Coq Require Import Lra Lia Psatz.
From Verif Require Import FloatModel FloatSpec FloatProofs FloatPadProofs FloatSlantModel FloatSlantSpec.

Local Instance valid_fexp : Valid_exp fexp. Proof. apply FLT_exp_valid. reflexivity. Qed.

(** Rounding of concrete numbers. *)
Lemma RN_concrete x m e : (-1074 <= e)%Z ->
  IZR (2 ^ 52) * bpow radix2 e <= x < IZR (2 ^ 53) * bpow radix2 e -> Rabs (x - IZR m * bpow radix2 e) < / 2 * bpow radix2 e ->
  RN x = IZR m * bpow radix2 e.
Proof.
  intros He [H1 H2] H. assert (B := bpow_gt_0 radix2 e). assert (B' := bpow_gt_0 radix2 (-e)).
  assert (P : 0 < x). { apply Rlt_le_trans with (2 := H1). apply Rmult_lt_0_compat; [apply IZR_lt; reflexivity|exact B]. }
  assert (M : mag radix2 x = (53 + e)%Z :> Z).
  { apply mag_unique. rewrite Rabs_pos_eq by lra. split.
    - replace (53 + e - 1)%Z with (52 + e)%Z by lia. rewrite bpow_plus. exact H1.
    - rewrite bpow_plus. exact H2. }
  unfold RN, round. replace (cexp radix2 fexp x) with e. 2:{ unfold cexp, fexp, FLT_exp. rewrite M. lia. }
  unfold F2R. cbn [Fnum Fexp]. f_equal. f_equal. apply nearest_int. unfold scaled_mantissa.
  replace (cexp radix2 fexp x) with e. 2:{ unfold cexp, fexp, FLT_exp. rewrite M. lia. }
  assert (Q : bpow radix2 e * bpow radix2 (- e) = 1). { rewrite <- bpow_plus. replace (e + - e)%Z with 0%Z by lia. reflexivity. }
  replace (x * bpow radix2 (- e) - IZR m) with ((x - IZR m * bpow radix2 e) * bpow radix2 (- e)).
  2:{ replace (IZR m) with (IZR m * (bpow radix2 e * bpow radix2 (- e))) at 2 by (rewrite Q; ring). ring. }
  rewrite Rabs_mult, (Rabs_pos_eq (bpow radix2 (- e))) by lra.
  apply Rlt_le_trans with (/ 2 * bpow radix2 e * bpow radix2 (- e)); [apply Rmult_lt_compat_r; assumption|].
  rewrite Rmult_assoc, Q. lra.
Qed.

(** Extremes. *)
Lemma np_max_spec l : l <> [] -> In (np_max l) l /\ forall x, In x l -> x <= np_max l.
Proof.
  destruct l as [|d t]; [congruence|]. intros _. cbn [np_max]. split; [apply greatest_in|].
  destruct (greatest_ge t d) as [G1 G2]. intros x [<-|H]; auto.
Qed.
Lemma np_max_is l L : In L l -> (forall x, In x l -> x <= L) -> np_max l = L.
Proof.
  intros H G. destruct (np_max_spec l) as [A B]; [intros ->; destruct H|].
  apply Rle_antisym; auto.
Qed.
Lemma slowest vs v : In v vs -> 0 < v -> (forall w, In w vs -> v <= w) -> np_max (map (fun v => RN (1 / v)) vs) = RN (1 / v).
Proof.
  intros H P G. apply np_max_is.
  - apply in_map_iff. exists v. auto.
  - intros x Hx. apply in_map_iff in Hx as (w & <- & Hw). apply RN_mono. assert (X := G w Hw).
    unfold Rdiv. rewrite !Rmult_1_l. apply Rinv_le; assumption.
Qed.

(** Relative errors. *)
Lemma rel_chain x y : / 1000000000000000 <= x -> forall c, 0 <= c <= 10 -> x * (1 - c * u) <= y <= x * (1 + c * u) -> / 100000000000000 <= y ->
  x * (1 - (c + 3) * u) <= RN y <= x * (1 + (c + 3) * u).
Proof.
  intros Hx c Hc Hy Py. assert (U := u_value). destruct (RN_rel y ltac:(lra)) as [A B].
  assert (0 < x) by (apply Rlt_le_trans with (2 := Hx); lra). split.
  - apply Rle_trans with (2 := A). apply Rle_trans with (x * (1 - c * u) * (1 - 2 * u)).
    + rewrite Rmult_assoc. apply Rmult_le_compat_l; [lra|]. 
      assert (0 <= c * u * u). { apply Rmult_le_pos; [apply Rmult_le_pos|]; rewrite ?U; lra. } nra.
    + apply Rmult_le_compat_r; [rewrite U; lra|lra].
  - apply Rle_trans with (1 := B). apply Rle_trans with (x * (1 + c * u) * (1 + 2 * u)).
    + apply Rmult_le_compat_r; [rewrite U; lra|lra].
    + rewrite Rmult_assoc. apply Rmult_le_compat_l; [lra|].
      assert (2 * c * u <= 1). { rewrite U. lra. }
      assert (2 * c * u * u <= u). { apply Rle_trans with (1 * u); [apply Rmult_le_compat_r; [rewrite U|]; lra|lra]. } nra.
Qed.

Lemma Rdiv_le_l a b c : 0 < c -> a <= b -> a / c <= b / c.
Proof. intros H L. unfold Rdiv. apply Rmult_le_compat_r; [|exact L]. left. now apply Rinv_0_lt_compat. Qed.
Lemma quotient_low a b x y : 0 <= a <= x -> 0 < y <= b -> a / b <= x / y.
Proof.
  intros A B. unfold Rdiv. apply Rmult_le_compat; [lra| |lra|].
  - left. apply Rinv_0_lt_compat. lra.
  - apply Rinv_le; lra.
Qed.
Lemma div_rel x y c d : 0 < d -> x * (1 - c * u) <= y <= x * (1 + c * u) -> x / d * (1 - c * u) <= y / d <= x / d * (1 + c * u).
Proof.
  intros D [A B]. replace (x / d * (1 - c * u)) with (x * (1 - c * u) / d) by (field; lra).
  replace (x / d * (1 + c * u)) with (x * (1 + c * u) / d) by (field; lra). split; now apply Rdiv_le_l.
Qed.

Lemma float_index_near dt p v : sizes_ok dt p v -> Rabs (float_index dt p v - p / (v * dt)) <= 6 * u * (p / (v * dt)).
Proof.
  intros (Hd & Hp & Hv). unfold float_index. assert (U := u_value).
  assert (A : 1 / 1000 / 100 <= p / dt) by (apply quotient_low; lra).
  destruct (rel_chain (p / dt) (p / dt) ltac:(lra) 0 ltac:(lra) ltac:(lra) ltac:(lra)) as [B1 B2].
  assert (X : 1 / 1000 / 100 / 1000000 <= p / dt / v) by (apply quotient_low; lra).
  assert (Y : / 1000000 <= RN (p / dt)). { apply Rle_trans with (2 := B1). apply Rle_trans with (1 / 1000 / 100 * (1 - (0 + 3) * u)); [rewrite U; lra|]. apply Rmult_le_compat_r; [rewrite U|]; lra. }
  assert (Z : / 1000000 / 1000000 <= RN (p / dt) / v) by (apply quotient_low; lra).
  assert (C := div_rel _ _ _ v ltac:(lra) (conj B1 B2)).
  destruct (rel_chain (p / dt / v) _ ltac:(lra) (0 + 3) ltac:(lra) C ltac:(lra)) as [D1 D2].
  replace (p / (v * dt)) with (p / dt / v) by (field; split; lra). apply Rabs_le. lra.
Qed.

Lemma moveout_near dt p v : sizes_ok dt p v ->
  Rabs (RN (RN (p * RN (1 / v)) / dt) - p / (v * dt)) <= 9 * u * (p / (v * dt)).
Proof.
  intros (Hd & Hp & Hv). assert (U := u_value).
  assert (A : 1 / 1000000 <= 1 / v) by (apply quotient_low; lra).
  destruct (rel_chain (1 / v) (1 / v) ltac:(lra) 0 ltac:(lra) ltac:(lra) ltac:(lra)) as [B1 B2].
  assert (S : / 10000000 <= RN (1 / v)). { apply Rle_trans with (2 := B1). apply Rle_trans with (1 / 1000000 * (1 - (0 + 3) * u)); [rewrite U; lra|]. apply Rmult_le_compat_r; [rewrite U|]; lra. }
  assert (C : p / v * (1 - 3 * u) <= p * RN (1 / v) <= p / v * (1 + 3 * u)).
  { unfold Rdiv. rewrite !Rmult_assoc. unfold Rdiv in B1, B2. split; apply Rmult_le_compat_l; lra. }
  assert (X : 1 / 1000 / 1000000 <= p / v) by (apply quotient_low; lra).
  assert (Y : 1 / 1000 * / 10000000 <= p * RN (1 / v)) by (apply Rmult_le_compat; lra).
  destruct (rel_chain (p / v) _ ltac:(lra) 3 ltac:(lra) C ltac:(lra)) as [D1 D2].
  assert (Z : / 100000000000 <= RN (p * RN (1 / v))). { apply Rle_trans with (2 := D1). apply Rle_trans with (1 / 1000 / 1000000 * (1 - (3 + 3) * u)); [rewrite U; lra|]. apply Rmult_le_compat_r; [rewrite U|]; lra. }
  assert (W : / 100000000000 / 100 <= RN (p * RN (1 / v)) / dt) by (apply quotient_low; lra).
  assert (V : 1 / 1000 / 1000000 / 100 <= p / v / dt) by (apply quotient_low; lra).
  assert (E := div_rel _ _ _ dt ltac:(lra) (conj D1 D2)).
  destruct (rel_chain (p / v / dt) _ ltac:(lra) (3 + 3) ltac:(lra) E ltac:(lra)) as [F1 F2].
  replace (p / (v * dt)) with (p / v / dt) by (field; split; lra). apply Rabs_le. lra.
Qed.

Lemma float_index_mono dt p q v w : 0 < dt -> 0 <= p <= q -> 0 < w <= v -> float_index dt p v <= float_index dt q w.
Proof.
  intros D P V. unfold float_index. apply RN_mono.
  assert (A : 0 <= RN (p / dt)). { rewrite <- (RN_int 0) by (cbn; lia). apply RN_mono. apply Rmult_le_pos; [lra|]. left. now apply Rinv_0_lt_compat. }
  assert (B : RN (p / dt) <= RN (q / dt)) by (apply RN_mono, Rdiv_le_l; lra).
  apply quotient_low; lra.
Qed.
Lemma float_index_pos dt p v : 0 < dt -> 0 <= p -> 0 < v -> 0 <= float_index dt p v.
Proof.
  intros D P V. assert (A : 0 <= RN (p / dt)). { rewrite <- (RN_int 0) by (cbn; lia). apply RN_mono. apply Rmult_le_pos; [lra|]. left. now apply Rinv_0_lt_compat. }
  unfold float_index. rewrite <- (RN_int 0) by (cbn; lia). apply RN_mono. apply Rmult_le_pos; [lra|]. left. now apply Rinv_0_lt_compat.
Qed.

Lemma highest_formula npts dt ps vs p v L w : farthest ps L -> slowest_velocity vs w ->
  highest_read npts dt ps vs p v = (npts - 1 + (lower_index dt p v - Ztrunc (RN (RN (L * RN (1 / w)) / dt))))%Z.
Proof.
  intros [H1 H2] (W1 & W2 & W3). unfold highest_read, tau_count, truncated_moveout.
  rewrite (np_max_is ps L H1 H2), (slowest vs w W1 W2 W3). lia.
Qed.

Lemma Ztrunc_low x k : IZR k <= x -> (0 <= k)%Z -> (k <= Ztrunc x)%Z.
Proof. intros H K. rewrite <- (Ztrunc_IZR k). now apply Ztrunc_le. Qed.
Lemma Ztrunc_high x k : 0 <= x < IZR k -> (Ztrunc x < k)%Z.
Proof. intros [A B]. rewrite Ztrunc_floor by exact A. apply lt_IZR. apply Rle_lt_trans with (2 := B). apply Zfloor_lb. Qed.

Lemma slant_inside npts dt ps vs p v L w k : farthest ps L -> slowest_velocity vs w -> sizes_ok dt L w ->
  In p ps -> 0 <= p -> In v vs -> (0 <= k)%Z ->
  IZR k + 9 * u * (L / (w * dt)) <= L / (w * dt) -> L / (w * dt) + 9 * u * (L / (w * dt)) < IZR k + 1 ->
  (highest_read npts dt ps vs p v <= npts - 1)%Z.
Proof.
  intros HL HW S Hp Pp Hv K G1 G2. rewrite (highest_formula npts dt ps vs p v L w HL HW).
  assert (M := moveout_near dt L w S). assert (F := float_index_near dt L w S). destruct S as (Hd & HLs & Hw).
  assert (MO : float_index dt p v <= float_index dt L w).
  { apply float_index_mono; [lra| |]. { split; [exact Pp|apply HL; exact Hp]. } { split; [lra|apply HW; exact Hv]. } }
  assert (PO : 0 <= float_index dt p v). { apply float_index_pos; [lra|exact Pp|]. destruct HW as (_ & W2 & W3). specialize (W3 v Hv). lra. }
  apply Rabs_le_inv in M. apply Rabs_le_inv in F. assert (U := u_value).
  assert (X : 0 <= u * (L / (w * dt))). { apply Rmult_le_pos; [rewrite U; lra|]. apply Rmult_le_pos; [lra|]. left. apply Rinv_0_lt_compat. apply Rmult_lt_0_compat; lra. }
  assert (A : (k <= Ztrunc (RN (RN (L * RN (1 / w)) / dt)))%Z) by (apply Ztrunc_low; [lra|exact K]).
  assert (B : (lower_index dt p v < k + 1)%Z). { apply Ztrunc_high. rewrite plus_IZR. lra. }
  lia.
Qed.

Lemma slant_one_beyond npts dt ps vs p v L w : farthest ps L -> slowest_velocity vs w -> sizes_ok dt L w ->
  In p ps -> 0 <= p -> In v vs -> L / (w * dt) <= 1099511627776 -> (highest_read npts dt ps vs p v <= npts)%Z.
Proof.
  intros HL HW S Hp Pp Hv Big. rewrite (highest_formula npts dt ps vs p v L w HL HW).
  assert (M := moveout_near dt L w S). assert (F := float_index_near dt L w S). destruct S as (Hd & HLs & Hw).
  assert (MO : float_index dt p v <= float_index dt L w).
  { apply float_index_mono; [lra| |]. { split; [exact Pp|apply HL; exact Hp]. } { split; [lra|apply HW; exact Hv]. } }
  assert (PO : 0 <= float_index dt p v). { apply float_index_pos; [lra|exact Pp|]. destruct HW as (_ & W2 & W3). specialize (W3 v Hv). lra. }
  apply Rabs_le_inv in M. apply Rabs_le_inv in F. assert (U := u_value).
  assert (X0 : 0 <= L / (w * dt)). { apply Rmult_le_pos; [lra|]. left. apply Rinv_0_lt_compat. apply Rmult_lt_0_compat; lra. }
  assert (X : u * (L / (w * dt)) <= u * 1099511627776) by (apply Rmult_le_compat_l; [rewrite U|]; lra).
  assert (UB : u * 1099511627776 <= / 1000) by (rewrite U; lra).
  set (y := RN (RN (L * RN (1 / w)) / dt)) in *.
  assert (UX : u * (L / (w * dt)) <= / 100 * (L / (w * dt))) by (apply Rmult_le_compat_r; [|rewrite U]; lra).
  assert (Y0 : 0 <= y) by lra.
  assert (B : (lower_index dt p v < Ztrunc y + 1 + 1)%Z).
  { apply Ztrunc_high. rewrite !plus_IZR, (Ztrunc_floor y Y0). assert (Z := Zfloor_ub y). lra. }
  lia.
Qed.

(** Interpolation. *)
Lemma interp_between trace A x : (forall i, Rabs (trace i) <= A) -> forall k, (IZR k <= x <= IZR k + 1) ->
  interp trace x = trace k + (trace (k + 1)%Z - trace k) * (x - IZR k).
Proof.
  intros T k [K1 K2]. unfold interp. destruct (Req_dec x (IZR k + 1)) as [E|N].
  - assert (F : Zfloor x = (k + 1)%Z). { rewrite E. rewrite <- (plus_IZR k 1). apply Zfloor_IZR. }
    rewrite F. rewrite E. rewrite plus_IZR. ring.
  - assert (F : Zfloor x = k). { apply Zfloor_imp. rewrite plus_IZR. lra. } rewrite F. ring.
Qed.
Lemma interp_step trace A x y k : (forall i, Rabs (trace i) <= A) -> IZR k <= x <= IZR k + 1 -> IZR k <= y <= IZR k + 1 ->
  Rabs (interp trace x - interp trace y) <= 2 * A * Rabs (x - y).
Proof.
  intros T X Y. rewrite (interp_between trace A x T k X), (interp_between trace A y T k Y).
  match goal with |- Rabs ?e <= _ => replace e with ((trace (k + 1)%Z - trace k) * (x - y)) by ring end.
  rewrite Rabs_mult. apply Rmult_le_compat_r; [apply Rabs_pos|].
  assert (T1 := T k). assert (T2 := T (k + 1)%Z). apply Rabs_le_inv in T1. apply Rabs_le_inv in T2. apply Rabs_le. lra.
Qed.
Lemma interp_lipschitz trace A x y : (forall i, Rabs (trace i) <= A) -> Rabs (x - y) <= 1 ->
  Rabs (interp trace x - interp trace y) <= 2 * A * Rabs (x - y).
Proof.
  intros T. assert (G : forall x y, y <= x -> x - y <= 1 -> Rabs (interp trace x - interp trace y) <= 2 * A * Rabs (x - y)).
  { clear x y. intros x y L D. assert (F1 := Zfloor_lb y). assert (F2 := Zfloor_ub y). set (k := Zfloor y) in *.
    destruct (Rle_lt_dec x (IZR k + 1)) as [Q|Q].
    - apply (interp_step trace A x y k); auto; lra.
    - assert (A1 := interp_step trace A x (IZR (k + 1)) (k + 1) T). assert (A2 := interp_step trace A (IZR (k + 1)) y k T).
      rewrite !plus_IZR in A1, A2. specialize (A1 ltac:(lra) ltac:(lra)). specialize (A2 ltac:(lra) ltac:(lra)).
      replace (interp trace x - interp trace y) with ((interp trace x - interp trace (IZR k + 1)) + (interp trace (IZR k + 1) - interp trace y)) by ring.
      apply Rle_trans with (1 := Rabs_triang _ _).
      rewrite (Rabs_pos_eq (x - (IZR k + 1))) in A1 by lra. rewrite (Rabs_pos_eq (IZR k + 1 - y)) in A2 by lra.
      rewrite (Rabs_pos_eq (x - y)) by lra. lra. }
  intros D. destruct (Rle_lt_dec y x) as [Q|Q].
  - apply G; [exact Q|]. rewrite Rabs_pos_eq in D; lra.
  - rewrite Rabs_minus_sym, (Rabs_minus_sym x y). apply G; [lra|]. rewrite Rabs_minus_sym, Rabs_pos_eq in D; lra.
Qed.

Lemma weight_range dt p v : 0 < dt -> 0 <= p -> 0 < v -> 0 <= weight dt p v <= 1.
Proof.
  intros D P V. assert (F := float_index_pos dt p v D P V). unfold weight, lower_index. rewrite Ztrunc_floor by exact F.
  assert (A := Zfloor_lb (float_index dt p v)). assert (B := Zfloor_ub (float_index dt p v)). split.
  - rewrite <- (RN_int 0) by (cbn; lia). apply RN_mono. lra.
  - rewrite <- (RN_int 1) by (cbn; lia). apply RN_mono. lra.
Qed.

Lemma RN_error_le x M : Rabs x <= M -> Rabs (RN x - x) <= u * M + tiny.
Proof.
  intros H. assert (E := RN_error x). assert (T := tiny_pos). assert (U := u_pos).
  assert (u * Rabs x <= u * M) by (apply Rmult_le_compat_l; lra). lra.
Qed.

Lemma combination_error t0 t1 d w A : 0 <= A -> Rabs t0 <= A -> Rabs t1 <= A -> 0 <= d <= 1 -> 0 <= w <= 1 -> Rabs (w - d) <= u + tiny ->
  Rabs (RN (RN (t0 * RN (1 - w)) + RN (t1 * w)) - (t0 * (1 - d) + t1 * d)) <= 8 * u * A + 8 * tiny * (A + 1).
Proof.
  intros PA H0 H1 Hd Hw Hwd. assert (U := u_value). assert (UP := u_pos). assert (T := tiny_pos). assert (TS := tiny_small).
  assert (E1 : Rabs (RN (1 - w) - (1 - w)) <= u * 1 + tiny) by (apply RN_error_le, Rabs_le; lra).
  assert (W0 : 0 <= RN (1 - w) <= 1).
  { split.
    - apply Rle_trans with (RN 0); [rewrite (RN_int 0) by (cbn; lia)|apply RN_mono]; lra.
    - apply Rle_trans with (RN 1); [apply RN_mono|rewrite (RN_int 1) by (cbn; lia)]; lra. }
  assert (P0 : Rabs (t0 * RN (1 - w)) <= A). { rewrite Rabs_mult, (Rabs_pos_eq (RN (1 - w))) by lra. apply Rle_trans with (A * 1); [|lra]. apply Rmult_le_compat; try lra. apply Rabs_pos. }
  assert (P1 : Rabs (t1 * w) <= A). { rewrite Rabs_mult, (Rabs_pos_eq w) by lra. apply Rle_trans with (A * 1); [|lra]. apply Rmult_le_compat; try lra. apply Rabs_pos. }
  assert (E2 := RN_error_le _ _ P0). assert (E3 := RN_error_le _ _ P1).
  set (a := RN (t0 * RN (1 - w))) in *. set (b := RN (t1 * w)) in *.
  assert (Q0 : Rabs (t0 * RN (1 - w) - t0 * (1 - d)) <= A * (2 * u + 2 * tiny)).
  { replace (t0 * RN (1 - w) - t0 * (1 - d)) with (t0 * ((RN (1 - w) - (1 - w)) - (w - d))) by ring. rewrite Rabs_mult.
    apply Rmult_le_compat; [apply Rabs_pos|apply Rabs_pos|exact H0|]. apply Rabs_le_inv in E1. apply Rabs_le_inv in Hwd. apply Rabs_le. lra. }
  assert (Q1 : Rabs (t1 * w - t1 * d) <= A * (u + tiny)).
  { replace (t1 * w - t1 * d) with (t1 * (w - d)) by ring. rewrite Rabs_mult. apply Rmult_le_compat; [apply Rabs_pos|apply Rabs_pos|exact H1|exact Hwd]. }
  assert (C0 : Rabs (t0 * (1 - d) + t1 * d) <= A).
  { apply Rabs_le_inv in H0. apply Rabs_le_inv in H1. apply Rabs_le. nra. }
  assert (S : Rabs (a + b - (t0 * (1 - d) + t1 * d)) <= 5 * (u * A) + 3 * (tiny * A) + 2 * tiny).
  { apply Rabs_le_inv in E2. apply Rabs_le_inv in E3. apply Rabs_le_inv in Q0. apply Rabs_le_inv in Q1. apply Rabs_le. lra. }
  assert (B : Rabs (a + b) <= 2 * A + 2 * tiny).
  { assert (u * A <= / 1000 * A) by (apply Rmult_le_compat_r; [|rewrite U]; lra).
    assert (tiny * A <= / 1000 * A) by (apply Rmult_le_compat_r; lra).
    apply Rabs_le_inv in S. apply Rabs_le_inv in C0. apply Rabs_le. lra. }
  assert (E4 := RN_error_le _ _ B). 
  assert (u * (2 * A + 2 * tiny) <= 2 * (u * A) + tiny). { assert (u * tiny <= / 2 * tiny) by (apply Rmult_le_compat_r; [|rewrite U]; lra). lra. }
  assert (0 <= u * A) by (apply Rmult_le_pos; lra). assert (0 <= tiny * A) by (apply Rmult_le_pos; lra).
  apply Rabs_le_inv in E4. apply Rabs_le_inv in S. apply Rabs_le. lra.
Qed.

Lemma amplitude_near trace A dt p v tau : (forall i, Rabs (trace i) <= A) -> p = 0 /\ 0 < dt /\ 0 < v \/ sizes_ok dt p v ->
  p / (v * dt) <= 1099511627776 ->
  Rabs (amplitude trace dt p v tau - interp trace (IZR tau + p / (v * dt))) <= A * (12 * u * (p / (v * dt)) + 8 * u) + 8 * tiny * (A + 1).
Proof.
  intros T Hp Big. assert (U := u_value). assert (UP := u_pos).
  assert (PA : 0 <= A) by (apply Rle_trans with (2 := T 0%Z); apply Rabs_pos).
  assert (Hs : 0 < dt /\ 0 <= p /\ 0 < v). { destruct Hp as [(-> & D & V)|(D & P & V)]; repeat split; try lra. }
  destruct Hs as (D & P & V). set (X := p / (v * dt)) in *.
  assert (X0 : 0 <= X). { apply Rmult_le_pos; [lra|]. left. apply Rinv_0_lt_compat. apply Rmult_lt_0_compat; lra. }
  set (f := float_index dt p v). assert (F0 : 0 <= f) by (now apply float_index_pos).
  assert (FX : Rabs (f - X) <= 6 * u * X).
  { destruct Hp as [(E & _ & _)|S]; [|now apply float_index_near].
    assert (RZ : RN 0 = 0) by (apply (RN_int 0); cbn; lia).
    unfold f, float_index, X. rewrite E. unfold Rdiv. rewrite !Rmult_0_l, RZ, Rmult_0_l, RZ, Rminus_0_r, Rabs_R0. lra. }
  assert (UX : u * X <= / 1000). { apply Rle_trans with (u * 1099511627776); [apply Rmult_le_compat_l; lra|rewrite U; lra]. }
  assert (FL1 := Zfloor_lb f). assert (FL2 := Zfloor_ub f).
  assert (LO : lower_index dt p v = Zfloor f). { unfold lower_index. fold f. now apply Ztrunc_floor. }
  set (k := Zfloor f) in *. set (d := f - IZR k).
  assert (I : interp trace (IZR tau + f) = trace (tau + k)%Z * (1 - d) + trace (tau + k + 1)%Z * d).
  { rewrite (interp_between trace A _ T (tau + k)).
    - rewrite plus_IZR. unfold d. ring.
    - rewrite plus_IZR. lra. }
  assert (W : Rabs (weight dt p v - d) <= u + tiny).
  { unfold weight. fold f. rewrite LO. fold d. rewrite <- (Rmult_1_r u). apply RN_error_le. apply Rabs_le. unfold d. lra. }
  assert (C := combination_error (trace (tau + k)%Z) (trace (tau + k + 1)%Z) d (weight dt p v) A PA (T _) (T _) ltac:(unfold d; lra) (weight_range dt p v D P V) W).
  unfold amplitude. rewrite LO. rewrite <- I in C.
  assert (LI := interp_lipschitz trace A (IZR tau + f) (IZR tau + X) T).
  replace (IZR tau + f - (IZR tau + X)) with (f - X) in LI by ring. specialize (LI ltac:(lra)).
  assert (LJ : 2 * A * Rabs (f - X) <= 12 * (A * (u * X))).
  { apply Rle_trans with (2 * A * (6 * u * X)); [apply Rmult_le_compat_l; lra|]. lra. }
  apply Rabs_le_inv in C. apply Rabs_le_inv in LI. apply Rabs_le. lra.
Qed.
