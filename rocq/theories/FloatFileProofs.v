(* Proofs about samples and time steps in SU files. *)
From Coq Require Import Lra Lia.
From Flocq Require Import Relative.
From Verif Require Import FloatModel FloatSpec FloatProofs FloatNormProofs FloatTracesProofs FloatFileModel FloatFileSpec.
Local Notation double := FloatModel.double.
Local Instance valid_fexp : Valid_exp fexp. Proof. apply FLT_exp_valid. reflexivity. Qed.
Local Instance valid_sexp : Valid_exp sexp. Proof. apply FLT_exp_valid. reflexivity. Qed.

(** ** Samples *)
Lemma single_double x : single x -> double x.
Proof.
  intros H. apply generic_inclusion_mag with (fexp1 := sexp); [|exact H]. intros _. unfold fexp, sexp, FLT_exp. lia.
Qed.
Lemma RN32_single x : single (RN32 x).
Proof. apply generic_format_round; auto with typeclass_instances. Qed.
Lemma RN32_id x : single x -> RN32 x = x.
Proof. apply round_generic; auto with typeclass_instances. Qed.
Lemma RN32_mono x y : x <= y -> RN32 x <= RN32 y.
Proof. apply round_le; auto with typeclass_instances. Qed.
Lemma RN32_0 : RN32 0 = 0.
Proof. apply round_0; auto with typeclass_instances. Qed.
Lemma RN32_opp x : RN32 (- x) = - RN32 x.
Proof. apply round_NE_opp. Qed.
Lemma RN32_abs x : RN32 (Rabs x) = Rabs (RN32 x).
Proof.
  unfold Rabs at 1. destruct (Rcase_abs x) as [N|P].
  - rewrite RN32_opp. rewrite Rabs_left1; [reflexivity|]. rewrite <- RN32_0. apply RN32_mono. lra.
  - rewrite Rabs_pos_eq; [reflexivity|]. rewrite <- RN32_0. apply RN32_mono. lra.
Qed.
Lemma RN32_error x : Rabs (RN32 x - x) <= / 16777216 * Rabs x + / IZR (2 ^ 150).
Proof.
  destruct (error_N_FLT radix2 (-149) 24 ltac:(reflexivity) (fun z => negb (Z.even z)) x) as (eps & eta & E1 & E2 & _ & E).
  unfold RN32, sexp. rewrite E. replace (x * (1 + eps) + eta - x) with (eps * x + eta) by ring.
  eapply Rle_trans; [apply Rabs_triang|]. rewrite Rabs_mult.
  assert (B1 : Rabs eps <= / 16777216).
  { eapply Rle_trans; [exact E1|]. cbn. lra. }
  assert (B2 : Rabs eta <= / IZR (2 ^ 150)).
  { eapply Rle_trans; [exact E2|]. change (bpow radix2 (-149)) with (/ IZR (2 ^ 149)). change (2 ^ 150)%Z with (2 * 2 ^ 149)%Z. rewrite mult_IZR.
    rewrite Rinv_mult_distr; [lra|lra|]. apply IZR_neq. discriminate. }
  apply Rplus_le_compat; [|exact B2]. apply Rmult_le_compat_r; [apply Rabs_pos|exact B1].
Qed.

Lemma single_power e : (-149 <= e)%Z -> single (bpow radix2 e).
Proof. intros H. apply generic_format_bpow. unfold sexp, FLT_exp. lia. Qed.
Lemma powers : bpow radix2 128 = 33554432 * bpow radix2 103 /\ bpow radix2 127 = 16777216 * bpow radix2 103 /\ bpow radix2 104 = 2 * bpow radix2 103 /\
  0 < bpow radix2 103.
Proof.
  split; [|split; [|split]].
  - change 128%Z with (25 + 103)%Z. rewrite bpow_plus. change (bpow radix2 25) with 33554432. lra.
  - change 127%Z with (24 + 103)%Z. rewrite bpow_plus. change (bpow radix2 24) with 16777216. lra.
  - change 104%Z with (1 + 103)%Z. rewrite bpow_plus. change (bpow radix2 1) with 2. lra.
  - apply bpow_gt_0.
Qed.
Lemma top_binade x : bpow radix2 127 <= x < bpow radix2 128 -> RN32 x = IZR (ZnearestE (x * bpow radix2 (-104))) * bpow radix2 104.
Proof.
  intros [A B]. assert (P : 0 < x) by (apply Rlt_le_trans with (2 := A); apply bpow_gt_0).
  assert (M : mag radix2 x = 128%Z :> Z) by (apply mag_unique; change (128 - 1)%Z with 127%Z; rewrite Rabs_pos_eq; lra).
  unfold RN32, round, F2R, scaled_mantissa, cexp. rewrite M. reflexivity.
Qed.
Lemma below_edge x : 0 <= x < edge -> RN32 x < bpow radix2 128.
Proof.
  intros [P H]. unfold edge in H. destruct powers as (E1 & E2 & E3 & B). destruct (Rlt_le_dec x (bpow radix2 127)) as [L|L].
  - apply Rle_lt_trans with (bpow radix2 127); [|lra]. rewrite <- (RN32_id (bpow radix2 127)) by (apply single_power; lia). apply RN32_mono. lra.
  - rewrite top_binade by lra. set (y := x * bpow radix2 (-104)).
    assert (Y : y < 16777216 - / 2).
    { unfold y. change (-104)%Z with (- (104))%Z. rewrite (bpow_opp radix2 104). apply Rmult_lt_reg_r with (bpow radix2 104); [apply bpow_gt_0|].
      rewrite Rmult_assoc, Rinv_l by (apply Rgt_not_eq, bpow_gt_0). lra. }
    assert (Z : (ZnearestE y <= 16777215)%Z).
    { apply Z.lt_succ_r. apply lt_IZR. cbn [Z.succ Z.add Pos.add Pos.succ]. assert (Q := Znearest_half (fun z => negb (Z.even z)) y).
      apply Rabs_le_inv in Q. lra. }
    apply IZR_le in Z. assert (IZR (ZnearestE y) * bpow radix2 104 <= 16777215 * bpow radix2 104) by (apply Rmult_le_compat_r; [apply bpow_ge_0|exact Z]). lra.
Qed.
Lemma at_edge x : edge <= x -> bpow radix2 128 <= RN32 x.
Proof.
  intros H. destruct powers as (E1 & E2 & E3 & B). apply Rle_trans with (RN32 edge); [|now apply RN32_mono].
  rewrite top_binade by (unfold edge; lra).
  replace (edge * bpow radix2 (-104)) with (16777215 + / 2).
  - assert (Z : ZnearestE (16777215 + / 2) = 16777216%Z).
    { unfold Znearest. rewrite (Zfloor_imp 16777215) by (cbn; lra). rewrite Rcompare_Eq by lra. cbn [Z.even negb]. apply Zceil_imp. cbn. lra. }
    rewrite Z. lra.
  - change (-104)%Z with (- (104))%Z. rewrite (bpow_opp radix2 104). apply Rmult_eq_reg_r with (bpow radix2 104); [|apply Rgt_not_eq, bpow_gt_0].
    rewrite Rmult_assoc, Rinv_l by (apply Rgt_not_eq, bpow_gt_0). unfold edge. lra.
Qed.

Lemma store_finite x : Rabs x < edge -> store x = Finite (RN32 x).
Proof.
  intros H. unfold store. destruct (Rlt_dec (Rabs (RN32 x)) (bpow radix2 128)) as [L|N]; [reflexivity|]. elim N. rewrite <- RN32_abs. apply below_edge.
  split; [apply Rabs_pos|exact H].
Qed.
Lemma store_infinite x : edge <= Rabs x -> store x = Infinite (if Rlt_dec x 0 then true else false).
Proof.
  intros H. unfold store. destruct (Rlt_dec (Rabs (RN32 x)) (bpow radix2 128)) as [L|N]; [|reflexivity]. exfalso.
  apply at_edge in H. rewrite RN32_abs in H. lra.
Qed.
Lemma stored_below x y : store x = Finite y -> Rabs x < edge /\ y = RN32 x.
Proof.
  intros H. destruct (Rlt_le_dec (Rabs x) edge) as [L|L].
  - rewrite (store_finite x L) in H. injection H as <-. auto.
  - rewrite (store_infinite x L) in H. discriminate.
Qed.
Lemma recalled_below y x : store x = Finite y -> Rabs y < edge.
Proof.
  intros H. destruct (stored_below x y H) as [L ->]. apply Rnot_le_lt. intros N. apply at_edge in N. rewrite RN32_abs, (RN32_id _ (RN32_single x)) in N.
  rewrite <- RN32_abs in N. pose proof (below_edge (Rabs x) (conj (Rabs_pos x) L)). lra.
Qed.

Lemma small150 : 0 < / IZR (2 ^ 150) <= / 1000000000000000000000.
Proof. split; [apply Rinv_0_lt_compat, IZR_lt; reflexivity|]. apply Rinv_le; [lra|]. apply IZR_le. intros Q; discriminate Q. Qed.
Lemma tiny20 : 0 < tiny / 32 <= / 100000000000000000000.
Proof. pose proof tiny_pos. pose proof tiny_small. assert (u <= / 1000000000000000) by (rewrite u_value; lra). lra. Qed.
Lemma close_near x y : Rabs (x - y) <= / 16777216 * (11 / 10 * Rabs y) + / 1000000000000000000 -> close x y.
Proof.
  intros H. unfold close. pose proof (Rabs_pos y) as P. pose proof tiny20 as T. pose proof u_value as U.
  assert (E1 := RN_error (x - y)). assert (E2 := RN_error (Rabs (RN (x - y)))). rewrite Rabs_Rabsolu in E2.
  assert (A1 : Rabs (RN (x - y)) <= 2 * Rabs (x - y) + 2 * (tiny / 32)).
  { replace (RN (x - y)) with ((RN (x - y) - (x - y)) + (x - y)) by ring. eapply Rle_trans; [apply Rabs_triang|].
    assert (u * Rabs (x - y) <= 1 * Rabs (x - y)) by (apply Rmult_le_compat_r; [apply Rabs_pos|rewrite U; lra]). lra. }
  assert (A2 : RN (Rabs (RN (x - y))) <= 2 * Rabs (RN (x - y)) + 2 * (tiny / 32)).
  { apply Rabs_le_inv in E2. assert (u * Rabs (RN (x - y)) <= 1 * Rabs (RN (x - y))) by (apply Rmult_le_compat_r; [apply Rabs_pos|rewrite U; lra]). lra. }
  assert (C : forall t, 0 <= t -> (1 - / 1000) * t - tiny / 32 <= RN t).
  { intros t Ht. assert (E := RN_error t). rewrite (Rabs_pos_eq t Ht) in E. apply Rabs_le_inv in E.
    assert (u * t <= / 1000 * t) by (apply Rmult_le_compat_r; [exact Ht|rewrite U; lra]). lra. }
  assert (C1 := C (/ 100000000) ltac:(lra)). assert (C2 := C (/ 100000) ltac:(lra)).
  assert (B2 : 9 / 1000000 <= RN (/ 100000)) by lra.
  assert (D2 : 9 / 1000000 * Rabs y <= RN (/ 100000) * Rabs y) by (apply Rmult_le_compat_r; lra).
  assert (C3 := C (RN (/ 100000) * Rabs y) ltac:(lra)).
  assert (C4 := C (RN (/ 100000000) + RN (RN (/ 100000) * Rabs y)) ltac:(lra)). lra.
Qed.
Lemma close_stored x : close x (RN32 x) /\ close (RN32 x) x.
Proof.
  pose proof (RN32_error x) as E. pose proof small150 as S. pose proof (Rabs_pos x) as P. split; apply close_near.
  - rewrite Rabs_minus_sym. eapply Rle_trans; [exact E|].
    assert (Rabs x <= Rabs (RN32 x) + Rabs (RN32 x - x)).
    { replace x with (RN32 x - (RN32 x - x)) at 1 by ring. eapply Rle_trans; [apply Rabs_triang|]. rewrite Rabs_Ropp. lra. }
    lra.
  - eapply Rle_trans; [exact E|]. lra.
Qed.

(** ** The time step *)
Lemma stats_near d : / 10000000 <= d <= 1 -> Rabs (stats_delta d - d) <= 4 * u * d.
Proof.
  intros H. unfold stats_delta. pose proof u_pos as U0. pose proof u_value as U. pose proof tiny_pos as T0. pose proof tiny_small as T.
  assert (I : 1 <= 1 / d). { apply Rmult_le_reg_r with d; [lra|]. unfold Rdiv. rewrite Rmult_assoc, Rinv_l by lra. lra. }
  assert (Tu : tiny / 32 <= / 100000000000 * u). { clear -T U. lra. }
  set (i := 1 / d) in *. assert (Id : i * d = 1) by (unfold i; field; lra).
  assert (E := RN_error i). rewrite (Rabs_pos_eq i) in E by lra. set (s := RN i) in *.
  assert (E' : Rabs (s - i) <= 11 / 10 * u * i). { eapply Rle_trans; [exact E|]. assert (u * 1 <= u * i) by (apply Rmult_le_compat_l; lra). lra. }
  assert (Sd : Rabs (s * d - 1) <= 11 / 10 * u).
  { rewrite <- Id. replace (s * d - i * d) with ((s - i) * d) by ring. rewrite Rabs_mult, (Rabs_pos_eq d) by lra.
    apply Rle_trans with (11 / 10 * u * i * d); [apply Rmult_le_compat_r; lra|]. rewrite Rmult_assoc, Id. lra. }
  apply Rabs_le_inv in Sd. assert (Sp : 0 < s). { apply Rmult_lt_reg_r with d; [lra|]. rewrite Rmult_0_l. rewrite U in Sd. lra. }
  set (w := 1 / s). assert (W : w * (s * d) = d) by (unfold w; field; lra). assert (Wp : 0 < w) by (unfold w; apply Rdiv_lt_0_compat; lra).
  assert (W1 : Rabs (w - d) <= 11 / 10 * u * w).
  { rewrite <- W at 1. replace (w - w * (s * d)) with (w * (1 - s * d)) by ring. rewrite Rabs_mult, (Rabs_pos_eq w), Rmult_comm by lra.
    apply Rmult_le_compat_r; [lra|]. apply Rabs_le. lra. }
  assert (W2 : w <= 1001 / 1000 * d). { assert (11 / 10 * u * w <= / 10000 * w) by (apply Rmult_le_compat_r; [lra|rewrite U; lra]). apply Rabs_le_inv in W1. lra. }
  assert (F := RN_error w). rewrite (Rabs_pos_eq w) in F by lra.
  assert (Uw : u * w <= u * (1001 / 1000 * d)) by (apply Rmult_le_compat_l; lra).
  assert (Ud : u * / 10000000 <= u * d) by (apply Rmult_le_compat_l; lra).
  replace (RN w - d) with ((RN w - w) + (w - d)) by ring. eapply Rle_trans; [apply Rabs_triang|].
  replace (4 * u * d) with (4 * (u * d)) by ring. replace (11 / 10 * u * w) with (11 / 10 * (u * w)) in W1 by lra.
  replace (u * (1001 / 1000 * d)) with (1001 / 1000 * (u * d)) in Uw by lra. lra.
Qed.
Lemma micro_near d : / 10000000 <= d <= 1 -> Rabs (RN (stats_delta d * 1000000) - d * 1000000) <= / 1000000000.
Proof.
  intros H. pose proof (stats_near d H) as S. pose proof u_value as U. pose proof tiny20 as T.
  assert (4 * u * d <= 4 * u * 1) by (apply Rmult_le_compat_l; [rewrite U; lra|lra]).
  rewrite U in *. apply Rabs_le_inv in S. assert (E := RN_error (stats_delta d * 1000000)). rewrite U in E.
  assert (A : Rabs (stats_delta d * 1000000) <= 2000000) by (apply Rabs_le; lra).
  assert (/ 9007199254740992 * Rabs (stats_delta d * 1000000) <= / 9007199254740992 * 2000000) by (apply Rmult_le_compat_l; lra).
  apply Rabs_le_inv in E. apply Rabs_le. lra.
Qed.
Lemma write_near d : / 10000000 <= d <= 1 -> Rabs (IZR (write_step d) - d * 1000000) <= / 2 + / 1000000000.
Proof.
  intros H. pose proof (micro_near d H) as M. unfold write_step. pose proof (nearest_error (RN (stats_delta d * 1000000))) as N.
  apply Rabs_le_inv in M. apply Rabs_le_inv in N. apply Rabs_le. lra.
Qed.
Lemma write_exact d k : / 10000000 <= d <= 1 -> Rabs (d * 1000000 - IZR k) <= / 1000 -> write_step d = k.
Proof.
  intros H K. pose proof (micro_near d H) as M. unfold write_step. apply nearest_int. apply Rabs_le_inv in M. apply Rabs_le_inv in K. apply Rabs_def1; lra.
Qed.
Lemma decimal_near k : (1 <= k <= 65535)%Z -> Rabs (RN (IZR k / 1000000) - IZR k / 1000000) <= 11 / 10 * u * (IZR k / 1000000).
Proof.
  intros [A B]. apply IZR_le in A. apply IZR_le in B. assert (E := RN_error (IZR k / 1000000)). rewrite (Rabs_pos_eq (IZR k / 1000000)) in E by lra.
  pose proof tiny_pos as T0. pose proof tiny_small as T. pose proof u_value as U. pose proof u_pos as U0.
  assert (Tu : tiny / 32 <= / 100000000000 * u) by (clear -T U; lra).
  assert (u * 1 <= u * IZR k) by (apply Rmult_le_compat_l; lra). eapply Rle_trans; [exact E|]. unfold Rdiv in *. lra.
Qed.
Lemma decimal_range k : (1 <= k <= 65535)%Z -> / 10000000 <= RN (IZR k / 1000000) <= 7 / 100.
Proof.
  intros H. pose proof (decimal_near k H) as E. destruct H as [A B]. apply IZR_le in A. apply IZR_le in B. pose proof u_value as U.
  assert (11 / 10 * u * (IZR k / 1000000) <= / 10000 * (IZR k / 1000000)) by (apply Rmult_le_compat_r; [lra|rewrite U; lra]).
  apply Rabs_le_inv in E. lra.
Qed.
Lemma read_near k : (1 <= k <= 65535)%Z -> Rabs (read_step k - IZR k / 1000000) <= 6 * u * (IZR k / 1000000).
Proof.
  intros H. pose proof (decimal_near k H) as E. pose proof (decimal_range k H) as [R1 R2]. unfold read_step. set (d := RN (IZR k / 1000000)) in *.
  pose proof (stats_near d ltac:(lra)) as S. destruct H as [A B]. apply IZR_le in A. apply IZR_le in B. pose proof u_value as U. pose proof u_pos as U0.
  set (q := IZR k / 1000000) in *. assert (Q : 0 < q) by (unfold q; lra).
  assert (11 / 10 * u * q <= / 10000 * q) by (apply Rmult_le_compat_r; [lra|rewrite U; lra]).
  assert (D : d <= 10001 / 10000 * q) by (apply Rabs_le_inv in E; lra).
  assert (4 * u * d <= 4 * u * (10001 / 10000 * q)) by (apply Rmult_le_compat_l; lra).
  replace (stats_delta d - q) with ((stats_delta d - d) + (d - q)) by ring. eapply Rle_trans; [apply Rabs_triang|].
  assert (0 < u * q) by (apply Rmult_lt_0_compat; lra).
  replace (4 * u * (10001 / 10000 * q)) with (4 * (10001 / 10000) * (u * q)) in * by lra. replace (11 / 10 * u * q) with (11 / 10 * (u * q)) in * by lra.
  replace (6 * u * q) with (6 * (u * q)) by ring. lra.
Qed.
Lemma step_stable k : (1 <= k <= 65535)%Z ->
  write_step (RN (IZR k / 1000000)) = k /\ write_step (read_step k) = k /\ read_step (write_step (read_step k)) = read_step k.
Proof.
  intros H. pose proof (decimal_near k H) as E. pose proof (decimal_range k H) as [R1 R2]. pose proof (read_near k H) as N. pose proof u_value as U.
  assert (W : write_step (read_step k) = k); [|split; [|split; [exact W|now rewrite W]]]; destruct H as [A B]; apply IZR_le in A; apply IZR_le in B.
  - assert (6 * u * (IZR k / 1000000) <= / 1000000000000 * (IZR k / 1000000)) by (apply Rmult_le_compat_r; [lra|rewrite U; lra]).
    apply Rabs_le_inv in N. apply write_exact; [lra|]. apply Rabs_le. lra.
  - assert (11 / 10 * u * (IZR k / 1000000) <= / 1000000000000 * (IZR k / 1000000)) by (apply Rmult_le_compat_r; [lra|rewrite U; lra]).
    apply Rabs_le_inv in E. apply write_exact; [lra|]. apply Rabs_le. lra.
Qed.
Lemma any_step d : / 1000000 <= d <= 65535 / 1000000 ->
  (1 <= write_step d <= 65535)%Z /\ Rabs (read_step (write_step d) - d) <= 51 / 100000000.
Proof.
  intros H. pose proof (write_near d ltac:(lra)) as W. apply Rabs_le_inv in W.
  assert (K : (1 <= write_step d <= 65535)%Z).
  { split.
    - apply Znot_gt_le. intros G. assert (write_step d <= 0)%Z as Q by lia. apply IZR_le in Q. lra.
    - apply Znot_gt_le. intros G. assert (65536 <= write_step d)%Z as Q by lia. apply IZR_le in Q. lra. }
  split; [exact K|]. pose proof (read_near _ K) as N. destruct K as [A B]. apply IZR_le in A. apply IZR_le in B. pose proof u_value as U.
  assert (6 * u * (IZR (write_step d) / 1000000) <= / 1000000000000 * (IZR (write_step d) / 1000000)) by (apply Rmult_le_compat_r; [lra|rewrite U; lra]).
  apply Rabs_le_inv in N. apply Rabs_le. lra.
Qed.

(** ** Records *)
Lemma recall_finite xs : Forall (fun x => Rabs x < edge) xs -> recall_all (map store xs) = Some (map RN32 xs).
Proof.
  induction 1 as [|x xs H _ IH]; cbn [map recall_all]; [reflexivity|]. rewrite (store_finite x H). cbn [recalled]. now rewrite IH.
Qed.
Lemma recall_singles xs : Forall single xs -> map RN32 xs = xs.
Proof. induction 1 as [|x xs H _ IH]; cbn [map]; [reflexivity|]. now rewrite IH, RN32_id. Qed.
Lemma close_all xs : Forall2 close xs (map RN32 xs) /\ Forall2 close (map RN32 xs) xs.
Proof.
  induction xs as [|x xs [IH1 IH2]]; cbn [map]; [split; constructor|]. destruct (close_stored x). split; apply Forall2_cons; auto.
Qed.
Lemma recall_below xs ys : recall_all (map store xs) = Some ys -> Forall (fun y => single y /\ Rabs y < edge) ys.
Proof.
  revert ys. induction xs as [|x xs IH]; intros ys H; cbn [map recall_all] in H; [injection H as <-; constructor|].
  destruct (store x) as [y|] eqn:S; cbn [recalled] in H; [|discriminate]. destruct (recall_all (map store xs)) as [zs|]; [|discriminate].
  injection H as <-. apply Forall_cons; [|now apply IH]. split; [|now apply (recalled_below y x)]. destruct (stored_below x y S) as [_ ->]. apply RN32_single.
Qed.
Lemma reread_equal k dt xs : (1 <= k <= 65535)%Z -> dt = read_step k -> Forall (fun x => Rabs x < edge) xs ->
  exists r, reread dt xs = Some r /\ same_record (dt, xs) r /\ same_record r (dt, xs).
Proof.
  intros Hk -> Hx. unfold reread. rewrite (recall_finite xs Hx). eexists. split; [reflexivity|]. destruct (step_stable k Hk) as (_ & _ & ->).
  destruct (close_all xs). repeat split; auto.
Qed.
Lemma reread_again dt xs r : / 1000000 <= dt <= 65535 / 1000000 -> reread dt xs = Some r -> reread (fst r) (snd r) = Some r.
Proof.
  intros Hd. unfold reread. destruct (recall_all (map store xs)) as [ys|] eqn:E; [|discriminate]. intros Q. injection Q as <-. cbn [fst snd].
  apply recall_below in E. rewrite recall_finite by (eapply Forall_impl; [|exact E]; cbn; tauto).
  rewrite recall_singles by (eapply Forall_impl; [|exact E]; cbn; tauto). destruct (any_step dt Hd) as [K _]. destruct (step_stable _ K) as (_ & _ & ->). reflexivity.
Qed.
