(* Proofs about the least-squares straight line. *)
From Verif Require Import PyFacts NumFacts Detrend.

(** Sum of [f i] for i < n. *)
Definition isum (n : nat) (f : nat -> Qc) : Qc := Qcsum (map f (seq 0 n)).

Lemma isum_ext n f g : (forall i, i < n -> f i = g i) -> isum n f = isum n g.
Proof.
  intros H. unfold isum. f_equal. apply map_ext_in. intros i Hi. apply H.
  apply in_seq in Hi. lia.
Qed.
Lemma isum_S n f : isum (S n) f = (isum n f + f n)%Qc.
Proof.
  unfold isum. rewrite seq_S, map_app, Qcsum_app. cbn [map plus]. unfold Qcsum at 2. cbn. ring.
Qed.
Lemma isum_plus n f g : isum n (fun i => (f i + g i)%Qc) = (isum n f + isum n g)%Qc.
Proof. induction n; [cbn; unfold isum; cbn; ring|]. rewrite !isum_S, IHn. ring. Qed.
Lemma isum_scale n c f : isum n (fun i => (c * f i)%Qc) = (c * isum n f)%Qc.
Proof. induction n; [unfold isum; cbn; ring|]. rewrite !isum_S, IHn. ring. Qed.
Lemma isum_minus n f g : isum n (fun i => (f i - g i)%Qc) = (isum n f - isum n g)%Qc.
Proof. induction n; [unfold isum; cbn; ring|]. rewrite !isum_S, IHn. ring. Qed.
Lemma isum_const n c : isum n (fun _ => c) = (QcN n * c)%Qc.
Proof.
  induction n; [unfold isum; cbn; change (QcN 0) with 0%Qc; ring|].
  rewrite isum_S, IHn, QcN_S. ring.
Qed.
Lemma isum_nonneg n f : (forall i, i < n -> (0 <= f i)%Qc) -> (0 <= isum n f)%Qc.
Proof.
  induction n; intros H; [apply Qcle_refl|]. rewrite isum_S.
  assert (A := IHn (fun i Hi => H i (Nat.lt_lt_succ_r _ _ Hi))). assert (B := H n (Nat.lt_succ_diag_r n)).
  qclra.
Qed.
Lemma isum_nonneg_0 n f : (forall i, i < n -> (0 <= f i)%Qc) -> isum n f = 0%Qc ->
  forall i, i < n -> f i = 0%Qc.
Proof.
  induction n; intros H E i Hi; [lia|]. rewrite isum_S in E.
  assert (A := isum_nonneg n f (fun i Hi => H i (Nat.lt_lt_succ_r _ _ Hi))).
  assert (B := H n (Nat.lt_succ_diag_r n)).
  assert (E1 : isum n f = 0%Qc) by (apply Qcle_antisym; [|exact A]; rewrite <- E; qclra).
  destruct (Nat.eq_dec i n) as [->|].
  - rewrite E1 in E. rewrite <- E. ring.
  - apply IHn; auto; lia.
Qed.

Lemma Qcsum_isum l : Qcsum l = isum (length l) (fun i => nth i l 0%Qc).
Proof.
  unfold isum. f_equal. symmetry. apply nth_ext with (d := 0%Qc) (d' := 0%Qc).
  - now rewrite map_length, seq_length.
  - intros i Hi. rewrite map_length, seq_length in Hi.
    rewrite (nth_map_lt _ _ _ 0%Qc 0) by (now rewrite seq_length). now rewrite seq_nth.
Qed.

Definition rmp (n i : nat) : Qc := (QcN i - QcZ (Z.of_nat n - 1) / Q2Qc 2)%Qc.

Lemma length_ramp n : length (ramp n) = n.
Proof. unfold ramp. now rewrite map_length, seq_length. Qed.
Lemma nth_ramp n i : i < n -> nth i (ramp n) 0%Qc = rmp n i.
Proof.
  intros H. unfold ramp. rewrite (nth_map_lt _ _ _ 0%Qc 0) by (now rewrite seq_length).
  now rewrite seq_nth.
Qed.

Lemma dot_isum a b : length a = length b ->
  dot a b = isum (length a) (fun i => (nth i a 0 * nth i b 0)%Qc).
Proof.
  intros H. unfold dot. rewrite Qcsum_isum.
  rewrite length_map2, <- H, Nat.min_id. apply isum_ext. intros i Hi.
  rewrite (nth_map2 _ _ _ i 0%Qc 0%Qc 0%Qc); auto; lia.
Qed.

Lemma sum_index n : isum n QcN = (QcN n * QcZ (Z.of_nat n - 1) / Q2Qc 2)%Qc.
Proof.
  induction n.
  - unfold isum; cbn. unfold Qcdiv. change (QcN 0) with 0%Qc. ring.
  - rewrite isum_S, IHn, QcN_S. replace (Z.of_nat (S n) - 1)%Z with (Z.of_nat n) by lia.
    rewrite QcZ_sub. change (QcZ 1) with 1%Qc. change (QcZ (Z.of_nat n)) with (QcN n).
    replace (Q2Qc 2) with (1 + 1)%Qc by (apply Qc_is_canon; reflexivity). field. discriminate.
Qed.
Lemma sum_rmp n : isum n (rmp n) = 0%Qc.
Proof.
  unfold rmp. rewrite isum_minus, sum_index, isum_const. field. discriminate.
Qed.

Lemma length_detrend l : length (detrend l) = length l.
Proof. unfold detrend. rewrite length_map2, length_ramp. lia. Qed.
Lemma nth_detrend l i : i < length l ->
  nth i (detrend l) 0%Qc = (nth i l 0 - (mean l + slope l * rmp (length l) i))%Qc.
Proof.
  intros H. unfold detrend.
  rewrite (nth_map2 _ _ _ i 0%Qc 0%Qc 0%Qc); [|rewrite length_ramp; exact H|exact H].
  now rewrite nth_ramp.
Qed.

Lemma Qc_sq_nonneg x : (0 <= x * x)%Qc. Proof. qcnra. Qed.
Lemma Qc_sq_0 x : (x * x)%Qc = 0%Qc -> x = 0%Qc.
Proof. intros H. apply Qcmult_integral in H. tauto. Qed.

Definition ssq n := isum n (fun i => (rmp n i * rmp n i)%Qc).
Lemma ssq_0 n i : ssq n = 0%Qc -> i < n -> rmp n i = 0%Qc.
Proof.
  intros H Hi. apply Qc_sq_0.
  apply (isum_nonneg_0 n (fun i => (rmp n i * rmp n i)%Qc)); auto. intros; apply Qc_sq_nonneg.
Qed.
Lemma slope_eq l : slope l = if Qceqb (ssq (length l)) 0 then 0%Qc else
   (isum (length l) (fun i => (rmp (length l) i * nth i l 0)%Qc) / ssq (length l))%Qc.
Proof.
  unfold slope. rewrite !dot_isum by (rewrite ?length_ramp; reflexivity).
  rewrite !length_ramp.
  rewrite (isum_ext _ _ (fun i => (rmp (length l) i * rmp (length l) i)%Qc))
    by (intros; now rewrite !nth_ramp).
  rewrite (isum_ext _ (fun i => (nth i (ramp (length l)) 0 * nth i l 0)%Qc) (fun i => (rmp (length l) i * nth i l 0)%Qc))
    by (intros; now rewrite !nth_ramp).
  reflexivity.
Qed.

Lemma detrend_sum l : Qcsum (detrend l) = 0%Qc.
Proof.
  rewrite Qcsum_isum, length_detrend.
  rewrite (isum_ext _ _ _ (nth_detrend l)).
  rewrite isum_minus, isum_plus, isum_scale, sum_rmp, isum_const, <- Qcsum_isum.
  unfold mean. destruct l as [|a l]; [unfold Qcsum; cbn; change (QcN 0) with 0%Qc; ring|].
  assert (QcN (length (a :: l)) <> 0%Qc) by (apply Qcpos_neq0, QcN_pos; cbn; lia).
  field. assumption.
Qed.

(** Orthogonal to the ramp. *)
Lemma detrend_ramp l : isum (length l) (fun i => (rmp (length l) i * nth i (detrend l) 0)%Qc) = 0%Qc.
Proof.
  set (n := length l).
  rewrite (isum_ext n _ (fun i => (rmp n i * nth i l 0 - (mean l * rmp n i + slope l * (rmp n i * rmp n i)))%Qc))
    by (intros i Hi; rewrite nth_detrend by exact Hi; fold n; ring).
  rewrite isum_minus, isum_plus, !isum_scale, sum_rmp. fold (ssq n).
  rewrite slope_eq. fold n. destruct (Qceqb_spec (ssq n) 0) as [E|E].
  - rewrite (isum_ext n _ (fun _ => 0%Qc)); [rewrite isum_const; ring|].
    intros i Hi. rewrite (ssq_0 n i E Hi). ring.
  - field. exact E.
Qed.

(** No trend against the sample index either. *)
Lemma detrend_no_trend l :
  isum (length l) (fun i => (QcN i * nth i (detrend l) 0)%Qc) = 0%Qc.
Proof.
  set (n := length l).
  rewrite (isum_ext n _ (fun i => (rmp n i * nth i (detrend l) 0 + QcZ (Z.of_nat n - 1) / Q2Qc 2 * nth i (detrend l) 0)%Qc))
    by (intros; unfold rmp; ring).
  rewrite isum_plus, isum_scale. unfold n at 1 2. rewrite detrend_ramp.
  replace (isum n (fun i => nth i (detrend l) 0%Qc)) with (Qcsum (detrend l))
    by (rewrite Qcsum_isum, length_detrend; reflexivity).
  rewrite detrend_sum. ring.
Qed.

(** The residual is the record minus some straight line. *)
Lemma detrend_minus_line l : exists c k, forall i, i < length l ->
  nth i (detrend l) 0%Qc = (nth i l 0 - (c + k * QcN i))%Qc.
Proof.
  exists (mean l - slope l * (QcZ (Z.of_nat (length l) - 1) / Q2Qc 2))%Qc, (slope l).
  intros i Hi. rewrite nth_detrend by exact Hi. unfold rmp. ring.
Qed.

(** A list that is a line minus ... : uniqueness of the decomposition. *)
Lemma residual_unique n f g c k : 
  isum n f = 0%Qc -> isum n (fun i => (QcN i * f i)%Qc) = 0%Qc ->
  isum n g = 0%Qc -> isum n (fun i => (QcN i * g i)%Qc) = 0%Qc ->
  (forall i, i < n -> f i = (g i + (c + k * QcN i))%Qc) ->
  forall i, i < n -> f i = g i.
Proof.
  intros F0 F1 G0 G1 H i Hi.
  assert (Z : isum n (fun i => ((f i - g i) * (f i - g i))%Qc) = 0%Qc).
  { rewrite (isum_ext n _ (fun i => ((c * f i + k * (QcN i * f i)) - (c * g i + k * (QcN i * g i)))%Qc)).
    - rewrite isum_minus, !isum_plus, !isum_scale, F0, F1, G0, G1. ring.
    - intros j Hj. rewrite (H j Hj). ring. }
  assert (D : (f i - g i)%Qc = 0%Qc).
  { apply Qc_sq_0. apply (isum_nonneg_0 n (fun i => ((f i - g i) * (f i - g i))%Qc)); auto.
    intros; apply Qc_sq_nonneg. }
  replace (f i) with (f i - g i + g i)%Qc by ring. rewrite D. ring.
Qed.

Lemma isum_nth_sum l : isum (length l) (fun i => nth i l 0%Qc) = Qcsum l.
Proof. now rewrite Qcsum_isum. Qed.

(** The characterisation of detrend: the only list that differs from [l] by a
    straight line and has neither mean nor trend. *)
Lemma detrend_unique l r : length r = length l -> Qcsum r = 0%Qc ->
  isum (length l) (fun i => (QcN i * nth i r 0)%Qc) = 0%Qc ->
  (exists c k, forall i, i < length l -> nth i r 0%Qc = (nth i l 0 - (c + k * QcN i))%Qc) ->
  r = detrend l.
Proof.
  intros L S0 S1 (c & k & H). destruct (detrend_minus_line l) as (c' & k' & H').
  apply nth_ext with (d := 0%Qc) (d' := 0%Qc); [now rewrite length_detrend|].
  intros i Hi. rewrite L in Hi.
  apply (residual_unique (length l) (fun i => nth i r 0%Qc) (fun i => nth i (detrend l) 0%Qc) (c' - c)%Qc (k' - k)%Qc); auto.
  - rewrite <- L, isum_nth_sum. exact S0.
  - rewrite <- (length_detrend l), isum_nth_sum. apply detrend_sum.
  - apply detrend_no_trend.
  - intros j Hj. rewrite H, H' by exact Hj. ring.
Qed.

Lemma detrend_line n c k :
  detrend (map (fun i => (c + k * QcN i)%Qc) (seq 0 n)) = repeat 0%Qc n.
Proof.
  symmetry. apply detrend_unique.
  - now rewrite repeat_length, map_length, seq_length.
  - apply Qcsum_repeat0.
  - rewrite (isum_ext _ _ (fun _ => 0%Qc)); [rewrite isum_const; ring|].
    intros i _. rewrite nth_repeat_any. ring.
  - exists c, k. intros i Hi. rewrite map_length, seq_length in Hi.
    rewrite nth_repeat_any, (nth_map_lt _ _ _ 0%Qc 0) by (now rewrite seq_length).
    rewrite seq_nth by exact Hi. cbn. ring.
Qed.
Lemma detrend_idem l : detrend (detrend l) = detrend l.
Proof.
  symmetry. apply detrend_unique; auto using detrend_sum.
  - rewrite length_detrend. apply detrend_no_trend.
  - exists 0%Qc, 0%Qc. intros. ring.
Qed.
Lemma detrend_scale c l : detrend (map (Qcmult c) l) = map (Qcmult c) (detrend l).
Proof.
  symmetry. apply detrend_unique.
  - now rewrite !map_length, length_detrend.
  - rewrite <- (map_id (detrend l)). 
    replace (Qcsum (map (Qcmult c) (map (fun x => x) (detrend l)))) with (c * Qcsum (detrend l))%Qc.
    + rewrite detrend_sum. ring.
    + rewrite map_id. symmetry. apply Qcsum_scale.
  - rewrite map_length.
    rewrite (isum_ext _ _ (fun i => (c * (QcN i * nth i (detrend l) 0))%Qc)).
    + rewrite isum_scale, detrend_no_trend. ring.
    + intros i Hi. rewrite (nth_map_lt _ _ _ 0%Qc 0%Qc) by (now rewrite length_detrend). ring.
  - destruct (detrend_minus_line l) as (a & k & H). exists (c * a)%Qc, (c * k)%Qc.
    intros i Hi. rewrite map_length in Hi.
    rewrite !(nth_map_lt _ _ _ 0%Qc 0%Qc) by (rewrite ?length_detrend; exact Hi).
    rewrite H by exact Hi. ring.
Qed.
Lemma detrend_add a b : length a = length b ->
  detrend (map2 Qcplus a b) = map2 Qcplus (detrend a) (detrend b).
Proof.
  intros L. assert (Lm : length (map2 Qcplus a b) = length a) by (rewrite length_map2; lia).
  assert (N : forall i, i < length a ->
     nth i (map2 Qcplus (detrend a) (detrend b)) 0%Qc = (nth i (detrend a) 0 + nth i (detrend b) 0)%Qc).
  { intros i Hi. apply nth_map2; rewrite length_detrend; lia. }
  symmetry. apply detrend_unique.
  - rewrite !length_map2, !length_detrend. reflexivity.
  - rewrite Qcsum_isum, length_map2, !length_detrend, <- L, Nat.min_id.
    rewrite (isum_ext _ _ _ N), isum_plus.
    rewrite <- (length_detrend a) at 1. rewrite isum_nth_sum, detrend_sum.
    rewrite L, <- (length_detrend b), isum_nth_sum, detrend_sum. ring.
  - rewrite Lm.
    rewrite (isum_ext _ _ (fun i => (QcN i * nth i (detrend a) 0 + QcN i * nth i (detrend b) 0)%Qc))
      by (intros i Hi; rewrite N by exact Hi; ring).
    rewrite isum_plus, detrend_no_trend. rewrite L, detrend_no_trend. ring.
  - destruct (detrend_minus_line a) as (c1 & k1 & H1). destruct (detrend_minus_line b) as (c2 & k2 & H2).
    exists (c1 + c2)%Qc, (k1 + k2)%Qc. rewrite Lm. intros i Hi.
    rewrite N, H1, H2 by lia. rewrite (nth_map2 _ _ _ i 0%Qc 0%Qc 0%Qc) by lia. ring.
Qed.

(** Least squares: no straight line leaves a smaller residual. *)
Lemma detrend_least l c k :
  (isum (length l) (fun i => nth i (detrend l) 0 * nth i (detrend l) 0) <=
   isum (length l) (fun i => (nth i l 0 - (c + k * QcN i)) * (nth i l 0 - (c + k * QcN i))))%Qc.
Proof.
  set (n := length l). destruct (detrend_minus_line l) as (c' & k' & H).
  set (d := fun i => nth i (detrend l) 0%Qc).
  set (e := fun i => ((c' - c) + (k' - k) * QcN i)%Qc).
  rewrite (isum_ext n (fun i => (nth i l 0 - (c + k * QcN i)) * (nth i l 0 - (c + k * QcN i)))%Qc
     (fun i => (d i * d i + e i * e i + ((Q2Qc 2 * (c' - c)) * d i + (Q2Qc 2 * (k' - k)) * (QcN i * d i)))%Qc)).
  2:{ intros i Hi. unfold d, e. rewrite H by exact Hi.
      replace (Q2Qc 2) with (1 + 1)%Qc by (apply Qc_is_canon; reflexivity). ring. }
  rewrite !isum_plus, !isum_scale.
  replace (isum n d) with 0%Qc
    by (unfold d, n; rewrite <- (length_detrend l), isum_nth_sum; symmetry; apply detrend_sum).
  replace (isum n (fun i => (QcN i * d i)%Qc)) with 0%Qc by (symmetry; apply detrend_no_trend).
  assert (E := isum_nonneg n (fun i => (e i * e i)%Qc) (fun i _ => Qc_sq_nonneg (e i))).
  change (isum n (fun i => (nth i (detrend l) 0 * nth i (detrend l) 0)%Qc)) with (isum n (fun i => (d i * d i)%Qc)).
  rewrite !Qcmult_0_r, !Qcplus_0_r. qclra.
Qed.
