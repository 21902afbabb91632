(* Proofs about offsets in double precision. *)
From Coq Require Import Lra Lia Psatz.
From Flocq Require Import Relative.
From Verif Require Import FloatModel FloatSpec FloatProofs FloatStatModel FloatStatSpec FloatStatProofs FloatOffsetModel FloatOffsetSpec.

Lemma RN_Rabs x : RN (Rabs x) = Rabs (RN x).
Proof. apply round_NE_abs. apply FLT_exp_valid. reflexivity. Qed.
Lemma offset_RN sx p : offset sx p = RN (distance sx p).
Proof. unfold offset, distance. symmetry. apply RN_Rabs. Qed.
Lemma offset_error sx p : double sx -> double p -> Rabs (offset sx p - distance sx p) <= u * distance sx p.
Proof.
  intros D1 D2. rewrite offset_RN. unfold distance. rewrite RN_Rabs.
  apply Rle_trans with (1 := Rabs_triang_inv2 _ _). now apply sub_error.
Qed.
Lemma above sx p x : double x -> x < offset sx p -> x < distance sx p.
Proof. intros D H. apply Rnot_le_lt. intros Q. apply RN_mono in Q. rewrite (RN_id x D), <- offset_RN in Q. lra. Qed.
Lemma below sx p x : double x -> offset sx p < x -> distance sx p < x.
Proof. intros D H. apply Rnot_le_lt. intros Q. apply RN_mono in Q. rewrite (RN_id x D), <- offset_RN in Q. lra. Qed.

Lemma trim_inside sx lo hi ps p : double lo -> double hi -> In p (trim_loop sx lo hi ps) -> In p ps /\ lo < distance sx p < hi.
Proof.
  intros Dl Dh. induction ps as [|q t IH]; cbn; [easy|].
  destruct (Rlt_dec hi (offset sx q)) as [H1|H1], (Rlt_dec lo (offset sx q)) as [H2|H2]; try destruct (Rlt_dec (offset sx q) hi) as [H3|H3]; cbn; try lra; intros I;
    try (destruct I as [<-|I]; [split; [now left|split; [now apply above|now apply below]]|]); try (destruct I; fail); destruct (IH I); auto.
Qed.
Lemma trim_exact sx lo hi ps : double sx -> Forall double ps -> Forall (fun p => clear_of sx p lo /\ clear_of sx p hi) ps ->
  trim_loop sx lo hi ps = filter (strictly_between sx lo hi) (until sx hi ps).
Proof.
  intros Ds. induction ps as [|p t IH]; intros D C; cbn; [reflexivity|]. inversion_clear D as [|? ? Dp D']. inversion_clear C as [|? ? [C1 C2] C'].
  specialize (IH D' C'). pose proof (offset_error sx p Ds Dp) as E. apply Rabs_le_inv in E. unfold clear_of in C1, C2.
  assert (X : forall x, u * distance sx p < Rabs (distance sx p - x) -> (x < offset sx p <-> x < distance sx p) /\ (offset sx p < x <-> distance sx p < x)).
  { intros y Cy. unfold Rabs in Cy. destruct (Rcase_abs (distance sx p - y)); split; split; lra. }
  destruct (X lo C1) as [X1 _]. destruct (X hi C2) as [X2 X3]. unfold strictly_between at 1.
  destruct (Rlt_dec hi (offset sx p)), (Rlt_dec hi (distance sx p)), (Rlt_dec lo (offset sx p)), (Rlt_dec lo (distance sx p)); try tauto;
    try (destruct (Rlt_dec (offset sx p) hi), (Rlt_dec (distance sx p) hi); try tauto); cbn [filter]; try reflexivity; try (f_equal; exact IH); exact IH.
Qed.
Lemma trim_refused sx lo hi ps : (trim_offsets sx lo hi ps = None <-> trim_loop sx lo hi ps = []) /\
  forall l, trim_offsets sx lo hi ps = Some l -> l = trim_loop sx lo hi ps /\ l <> [].
Proof.
  unfold trim_offsets. destruct (trim_loop sx lo hi ps) as [|p t]; split.
  - tauto.
  - discriminate.
  - split; discriminate.
  - intros l E. injection E as <-. split; [reflexivity|discriminate].
Qed.

(** The distance of the centre. *)
Lemma present_some l : present (map Some l) = l.
Proof. induction l as [|x l IH]; cbn; congruence. Qed.
Lemma center_error sx ps m : double sx -> Forall double ps -> ps <> [] -> INR (length ps) <= 1073741824 ->
  a_mean (map Some (offsets sx ps)) m ->
  Rabs (m - exact_mean (map (distance sx) ps)) <= 4 * INR (length ps) * u * exact_mean (map (distance sx) ps) + tiny.
Proof.
  intros Ds D Ne L Hm. pose proof u_pos as U0. assert (U1 : u <= / 1000) by (rewrite u_value; lra).
  assert (Lo : length (map Some (offsets sx ps)) = length ps) by (unfold offsets; now rewrite !map_length).
  pose proof (mean_error (map Some (offsets sx ps)) m) as E. rewrite present_some, Lo in E.
  assert (F : Forall double (offsets sx ps)).
  { apply Forall_forall. intros x Hx. apply in_map_iff in Hx. destruct Hx as (p & <- & _). rewrite offset_RN. apply RN_double. }
  specialize (E F ltac:(destruct ps; [easy|discriminate]) L Hm).
  assert (S : forall ps, Forall double ps -> Rabs (Rsum (offsets sx ps) - Rsum (map (distance sx) ps)) <= u * Rsum (map (distance sx) ps) /\
    Rsum (map Rabs (offsets sx ps)) = Rsum (offsets sx ps) /\ 0 <= Rsum (map (distance sx) ps)).
  { clear -Ds U0. induction ps as [|p t IH]; intros D; cbn [offsets map Rsum]; [rewrite Rminus_0_r, Rabs_R0; lra|].
    inversion_clear D as [|? ? Dp D']. destruct (IH D') as (I1 & I2 & I3). fold (offsets sx t). pose proof (offset_error sx p Ds Dp) as Ep.
    pose proof (Rabs_pos (sx - p)) as P. fold (distance sx p) in P. split; [|split].
    - match goal with |- Rabs (?a + ?b - (?c + ?d)) <= _ => replace (a + b - (c + d)) with ((a - c) + (b - d)) by ring end.
      apply Rle_trans with (1 := Rabs_triang _ _). lra.
    - rewrite I2. unfold offset. now rewrite Rabs_Rabsolu.
    - lra. }
  destruct (S ps D) as (S1 & S2 & S3). unfold exact_mean, mean_size in *. rewrite S2 in E. unfold offsets in E at 2 3 4. 
  rewrite !map_length in *. fold (offsets sx ps) in E.
  assert (N1 : 1 <= INR (length ps)). { destruct ps; [easy|]. cbn [length]. rewrite S_INR. pose proof (pos_INR (length ps)). lra. }
  set (n := INR (length ps)) in *. set (a := Rsum (offsets sx ps)) in *. set (b := Rsum (map (distance sx) ps)) in *.
  assert (I0 : 0 < / n) by (apply Rinv_0_lt_compat; lra).
  assert (E1 : Rabs (a / n - b / n) <= u * (b / n)).
  { replace (a / n - b / n) with ((a - b) * / n) by (unfold Rdiv; ring). rewrite Rabs_mult, (Rabs_pos_eq (/ n)) by lra.
    replace (u * (b / n)) with (u * b * / n) by (unfold Rdiv; ring). apply Rmult_le_compat_r; lra. }
  assert (B0 : 0 <= b / n) by (apply Rmult_le_pos; lra).
  set (M := b / n) in *. assert (UM : u * M <= / 1000 * M) by (apply Rmult_le_compat_r; lra).
  assert (A1 : a / n <= 1.001 * M) by (apply Rabs_le_inv in E1; lra).
  assert (NU : 0 <= n * u) by (apply Rmult_le_pos; lra).
  assert (E2 : 2 * n * u * (a / n) <= 2 * n * u * (1.001 * M)) by (apply Rmult_le_compat_l; lra).
  replace (m - M) with ((m - a / n) + (a / n - M)) by ring. apply Rle_trans with (1 := Rabs_triang _ _).
  assert (KM : u * M <= n * (u * M)) by (assert (0 <= u * M) by (apply Rmult_le_pos; lra); assert (0 <= (n - 1) * (u * M)) by (apply Rmult_le_pos; lra); lra).
  replace (4 * n * u * M) with (4 * (n * (u * M))) by ring.
  assert (0 <= n * (u * M)) by (apply Rmult_le_pos; [lra|apply Rmult_le_pos; lra]). lra.
Qed.

(** The resolution limit. *)
Lemma least_diffs ps d l r : diffs ps = d :: l -> closest ps r -> least d l = RN r.
Proof.
  intros E [(i & Hi & Q) H]. destruct (least_le l d) as [L1 L2]. pose proof (least_in l d) as L3. rewrite <- E in L3.
  apply Rle_antisym.
  - rewrite <- Q. unfold step. rewrite <- diffs_nth by exact Hi.
    assert (I : In (nth i (diffs ps) 0) (diffs ps)) by (apply nth_In; rewrite diffs_length; lia).
    rewrite E in I at 2. destruct I as [I|I]; [rewrite <- I; exact L1|now apply L2].
  - destruct (In_nth _ _ 0 L3) as (k & Hk & K). rewrite diffs_length in Hk. rewrite <- K, diffs_nth by lia. apply RN_mono, H. lia.
Qed.
Lemma kres_error pi_ ps r : 0 < pi_ -> Forall double ps -> closest ps r -> 0 < r ->
  exists k, kres pi_ ps = Some k /\ Rabs (k - pi_ / r) <= 3 * u * (pi_ / r) + tiny.
Proof.
  intros Hp D C Hr. pose proof u_pos as U0. assert (U1 : u <= / 1000) by (rewrite u_value; lra). pose proof tiny_pos as T0.
  unfold kres. destruct (diffs ps) as [|d l] eqn:E.
  { destruct C as [(i & Hi & _) _]. pose proof (diffs_length ps) as L. rewrite E in L. cbn in L. lia. }
  rewrite (least_diffs ps d l r E C). eexists. split; [reflexivity|].
  assert (Er : Rabs (RN r - r) <= u * r).
  { destruct C as [(i & Hi & Q) _]. rewrite <- Q. unfold step. rewrite Forall_forall in D.
    rewrite <- (Rabs_pos_eq (nth (S i) ps 0 - nth i ps 0)) at 3 by (unfold step in Q; lra).
    apply sub_error; apply D, nth_In; lia. }
  set (s := RN r) in *. apply Rabs_le_inv in Er. assert (ur : u * r <= / 1000 * r) by (apply Rmult_le_compat_r; lra).
  assert (s0 : 0 < s) by lra.
  assert (Ir : 0 < / r) by (apply Rinv_0_lt_compat; lra). assert (Is : 0 < / s) by (apply Rinv_0_lt_compat; lra).
  assert (Q0 : 0 < pi_ / r) by (apply Rmult_lt_0_compat; lra). assert (Q1 : 0 < pi_ / s) by (apply Rmult_lt_0_compat; lra).
  assert (E1 : Rabs (pi_ / s - pi_ / r) <= 1.01 * u * (pi_ / r)).
  { replace (pi_ / s - pi_ / r) with (pi_ / r * ((r - s) * / s)) by (field; lra). rewrite Rabs_mult, (Rabs_pos_eq (pi_ / r)) by lra.
    rewrite Rmult_comm. apply Rmult_le_compat_r; [lra|]. rewrite Rabs_mult, (Rabs_pos_eq (/ s)) by lra.
    apply Rmult_le_reg_r with s; [exact s0|]. rewrite Rmult_assoc, Rinv_l, Rmult_1_r by lra. apply Rabs_le. 
    assert (u * s >= u * (r - / 1000 * r)) by (apply Rle_ge, Rmult_le_compat_l; lra). split; nra. }
  pose proof (RN_error (pi_ / s)) as E2. rewrite (Rabs_pos_eq (pi_ / s)) in E2 by lra.
  set (K := pi_ / r) in *. assert (uK : u * K <= / 1000 * K) by (apply Rmult_le_compat_r; lra).
  assert (E3 : pi_ / s <= 1.1 * K) by (apply Rabs_le_inv in E1; lra).
  assert (E4 : u * (pi_ / s) <= u * (1.1 * K)) by (apply Rmult_le_compat_l; lra).
  replace (RN (pi_ / s) - K) with ((RN (pi_ / s) - pi_ / s) + (pi_ / s - K)) by ring. apply Rle_trans with (1 := Rabs_triang _ _).
  assert (0 < u * K) by (apply Rmult_lt_0_compat; lra). lra.
Qed.
