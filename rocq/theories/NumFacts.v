From Verif Require Export Num.
From Coq Require Import Sorting.Permutation.

Lemma Qcleb_spec x y : reflect (x <= y)%Qc (Qcleb x y).
Proof.
  unfold Qcleb, Qcle. destruct (Qle_bool (this x) (this y)) eqn:E; constructor.
  - now apply Qle_bool_iff.
  - intro H. apply Qle_bool_iff in H. congruence.
Qed.
Lemma Qcltb_spec x y : reflect (x < y)%Qc (Qcltb x y).
Proof.
  unfold Qcltb, Qclt. destruct (Qle_bool (this y) (this x)) eqn:E; constructor.
  - apply Qle_bool_iff in E. now apply Qle_not_lt.
  - destruct (Qlt_le_dec (this x) (this y)) as [|H]; auto.
    apply Qle_bool_iff in H. congruence.
Qed.
Lemma Qceqb_spec x y : reflect (x = y) (Qceqb x y).
Proof.
  unfold Qceqb. destruct (Qeq_bool (this x) (this y)) eqn:E; constructor.
  - apply Qeq_bool_iff in E. now apply Qc_is_canon.
  - intros ->. rewrite Qeq_bool_refl in E. discriminate.
Qed.

Lemma Qceqb_eq x y : Qceqb x y = true <-> x = y.
Proof. destruct (Qceqb_spec x y); split; congruence. Qed.
Lemma Qcltb_lt x y : Qcltb x y = true <-> (x < y)%Qc.
Proof. destruct (Qcltb_spec x y); split; intuition congruence. Qed.
Lemma Qcleb_le x y : Qcleb x y = true <-> (x <= y)%Qc.
Proof. destruct (Qcleb_spec x y); split; intuition congruence. Qed.

(** ** Transfer to Q *)
Lemma this_plus x y : (this (x + y)%Qc == this x + this y)%Q.
Proof. exact (Qred_correct (this x + this y)%Q). Qed.
Lemma this_mult x y : (this (x * y)%Qc == this x * this y)%Q.
Proof. exact (Qred_correct (this x * this y)%Q). Qed.
Lemma this_opp x : (this (- x)%Qc == - this x)%Q.
Proof. exact (Qred_correct (- this x)%Q). Qed.
Lemma this_minus x y : (this (x - y)%Qc == this x - this y)%Q.
Proof. unfold Qcminus. rewrite this_plus, this_opp. reflexivity. Qed.
Lemma this_inv x : (this (/ x)%Qc == / this x)%Q.
Proof. exact (Qred_correct (/ this x)%Q). Qed.
Lemma this_div x y : (this (x / y)%Qc == this x / this y)%Q.
Proof. unfold Qcdiv. rewrite this_mult, this_inv. reflexivity. Qed.
Lemma this_Q2Qc q : (this (Q2Qc q) == q)%Q.
Proof. exact (Qred_correct q). Qed.
Lemma this_QcZ z : (this (QcZ z) == inject_Z z)%Q.
Proof. apply this_Q2Qc. Qed.
Lemma this_QcN n : (this (QcN n) == inject_Z (Z.of_nat n))%Q.
Proof. apply this_Q2Qc. Qed.
Lemma this_0 : (this 0%Qc == 0)%Q. Proof. reflexivity. Qed.
Lemma this_1 : (this 1%Qc == 1)%Q. Proof. reflexivity. Qed.

Lemma Qc_neq_Q x y : x <> y -> ~ (this x == this y)%Q.
Proof. intros H E; apply H; now apply Qc_is_canon. Qed.
Lemma Qc_eq_Q x y : x = y -> (this x == this y)%Q.
Proof. intros ->; reflexivity. Qed.

Ltac qc_norm_all :=
  repeat first
    [ rewrite this_plus in * | rewrite this_minus in * | rewrite this_opp in *
    | rewrite this_mult in * | rewrite this_0 in * | rewrite this_1 in *
    | rewrite this_QcZ in * | rewrite this_QcN in * | rewrite this_Q2Qc in * ].

Ltac qc_hyps :=
  repeat match goal with
  | H : @eq Qc ?a ?b |- _ => apply Qc_eq_Q in H
  | H : Qcle _ _ |- _ => unfold Qcle in H
  | H : Qclt _ _ |- _ => unfold Qclt in H
  | H : ~ Qcle _ _ |- _ => apply Qcnot_le_lt in H; unfold Qclt in H
  | H : ~ Qclt _ _ |- _ => apply Qcnot_lt_le in H; unfold Qcle in H
  end.
Ltac qc_goal :=
  match goal with
  | |- @eq Qc _ _ => apply Qc_is_canon
  | |- Qcle _ _ => unfold Qcle
  | |- Qclt _ _ => unfold Qclt
  | |- ~ Qcle _ _ => apply Qclt_not_le; unfold Qclt
  | |- ~ Qclt _ _ => apply Qcle_not_lt; unfold Qcle
  | |- False => idtac
  | |- not (@eq Qc _ _) => let H := fresh in intro H; apply Qc_eq_Q in H
  end.
Ltac qc2q := qc_hyps; qc_goal; qc_norm_all.
Ltac qclra := intros; qc2q; lra.
Ltac qcnra := intros; qc2q; nra.

(** destruct a boolean comparison of rationals found in the goal or context *)
Ltac qcase1 :=
  match goal with
  | |- context [Qcltb ?a ?b] => destruct (Qcltb_spec a b)
  | |- context [Qcleb ?a ?b] => destruct (Qcleb_spec a b)
  | |- context [Qceqb ?a ?b] => destruct (Qceqb_spec a b)
  | H : context [Qcltb ?a ?b] |- _ => destruct (Qcltb_spec a b)
  | H : context [Qcleb ?a ?b] |- _ => destruct (Qcleb_spec a b)
  | H : context [Qceqb ?a ?b] |- _ => destruct (Qceqb_spec a b)
  end.
Ltac qcases := repeat qcase1.

(** ** Injections *)
Lemma QcZ_add a b : QcZ (a + b) = (QcZ a + QcZ b)%Qc.
Proof. qc2q. rewrite inject_Z_plus. reflexivity. Qed.
Lemma QcZ_mul a b : QcZ (a * b) = (QcZ a * QcZ b)%Qc.
Proof. qc2q. rewrite inject_Z_mult. reflexivity. Qed.
Lemma QcZ_opp a : QcZ (- a) = (- QcZ a)%Qc.
Proof. qc2q. rewrite inject_Z_opp. reflexivity. Qed.
Lemma QcZ_sub a b : QcZ (a - b) = (QcZ a - QcZ b)%Qc.
Proof. unfold Z.sub. rewrite QcZ_add, QcZ_opp. reflexivity. Qed.
Lemma QcZ_le a b : (QcZ a <= QcZ b)%Qc <-> (a <= b)%Z.
Proof. unfold Qcle. rewrite !this_QcZ, <- Zle_Qle. tauto. Qed.
Lemma QcZ_lt a b : (QcZ a < QcZ b)%Qc <-> (a < b)%Z.
Proof. unfold Qclt. rewrite !this_QcZ, <- Zlt_Qlt. tauto. Qed.
Lemma QcZ_inj a b : QcZ a = QcZ b -> a = b.
Proof. intro H. apply Qc_eq_Q in H. rewrite !this_QcZ in H. now apply inject_Z_injective. Qed.
Lemma QcZ_0 : QcZ 0 = 0%Qc. Proof. qc2q. reflexivity. Qed.
Lemma QcZ_1 : QcZ 1 = 1%Qc. Proof. qc2q. reflexivity. Qed.
Lemma QcN_add a b : QcN (a + b) = (QcN a + QcN b)%Qc.
Proof. unfold QcN. rewrite Nat2Z.inj_add. apply QcZ_add. Qed.
Lemma QcN_mul a b : QcN (a * b) = (QcN a * QcN b)%Qc.
Proof. unfold QcN. rewrite Nat2Z.inj_mul. apply QcZ_mul. Qed.
Lemma QcN_S a : QcN (S a) = (QcN a + 1)%Qc.
Proof. unfold QcN. rewrite Nat2Z.inj_succ. unfold Z.succ. now rewrite QcZ_add, QcZ_1. Qed.
Lemma QcN_sub a b : b <= a -> QcN (a - b) = (QcN a - QcN b)%Qc.
Proof. intro. unfold QcN. rewrite Nat2Z.inj_sub by auto. apply QcZ_sub. Qed.
Lemma QcN_0 : QcN 0 = 0%Qc. Proof. apply QcZ_0. Qed.
Lemma QcN_1 : QcN 1 = 1%Qc. Proof. apply QcZ_1. Qed.
Lemma QcN_le a b : (QcN a <= QcN b)%Qc <-> a <= b.
Proof. unfold QcN. rewrite QcZ_le. lia. Qed.
Lemma QcN_lt a b : (QcN a < QcN b)%Qc <-> a < b.
Proof. unfold QcN. rewrite QcZ_lt. lia. Qed.
Lemma QcN_inj a b : QcN a = QcN b -> a = b.
Proof. intro H. apply QcZ_inj in H. lia. Qed.
Lemma QcN_nonneg n : (0 <= QcN n)%Qc.
Proof. rewrite <- QcN_0. apply QcN_le. lia. Qed.
Lemma QcN_pos n : 0 < n -> (0 < QcN n)%Qc.
Proof. rewrite <- QcN_0. apply QcN_lt. Qed.

(** ** absolute value *)
Lemma Qcabs_nonneg x : (0 <= Qcabs x)%Qc.
Proof. unfold Qcabs. qcases; qclra. Qed.
Lemma Qcabs_opp x : Qcabs (- x)%Qc = Qcabs x.
Proof. unfold Qcabs. qcases; try reflexivity; qclra. Qed.
Lemma Qcabs_0 x : Qcabs x = 0%Qc <-> x = 0%Qc.
Proof. unfold Qcabs. split; qcases; intros; subst; try assumption; try reflexivity; qclra. Qed.
Lemma Qcabs_pos x : (0 <= x)%Qc -> Qcabs x = x.
Proof. unfold Qcabs. qcases; intros; auto; qclra. Qed.
Lemma Qcabs_mult x y : Qcabs (x * y)%Qc = (Qcabs x * Qcabs y)%Qc.
Proof. unfold Qcabs. qcases; try reflexivity; qc2q; nra. Qed.
Lemma Qcabs_triang x y : (Qcabs (x + y) <= Qcabs x + Qcabs y)%Qc.
Proof. unfold Qcabs. qcases; qclra. Qed.
Lemma Qcabs_minus x y : Qcabs (x - y)%Qc = Qcabs (y - x)%Qc.
Proof. rewrite <- Qcabs_opp. f_equal. ring. Qed.
Lemma Qcabs_le x y : (Qcabs x <= y)%Qc <-> (- y <= x /\ x <= y)%Qc.
Proof. unfold Qcabs. qcases; (split; [intro; split | intros [? ?]]); qclra. Qed.

(** ** floor and round *)
Lemma Qcfloor_spec x : (QcZ (Qcfloor x) <= x /\ x < QcZ (Qcfloor x) + 1)%Qc.
Proof.
  unfold Qcfloor; split; qc2q.
  - apply Qfloor_le.
  - pose proof (Qlt_floor (this x)) as H. rewrite inject_Z_plus in H. exact H.
Qed.
Lemma Qcfloor_unique x z : (QcZ z <= x)%Qc -> (x < QcZ z + 1)%Qc -> Qcfloor x = z.
Proof.
  intros H1 H2. destruct (Qcfloor_spec x) as [H3 H4].
  rewrite <- QcZ_1, <- QcZ_add in *.
  assert (QcZ z < QcZ (Qcfloor x + 1))%Qc as A by (eapply Qcle_lt_trans; eauto).
  assert (QcZ (Qcfloor x) < QcZ (z + 1))%Qc as B by (eapply Qcle_lt_trans; eauto).
  rewrite QcZ_lt in A. rewrite QcZ_lt in B. lia.
Qed.
Lemma Qcfloor_QcZ z : Qcfloor (QcZ z) = z.
Proof. apply Qcfloor_unique; qclra. Qed.
Lemma Qcfloor_mono x y : (x <= y)%Qc -> (Qcfloor x <= Qcfloor y)%Z.
Proof.
  intros H. destruct (Qcfloor_spec x) as [H1 H2], (Qcfloor_spec y) as [H3 H4].
  rewrite <- QcZ_1, <- QcZ_add in *.
  assert (QcZ (Qcfloor x) < QcZ (Qcfloor y + 1))%Qc as A
    by (eapply Qcle_lt_trans; [|exact H4]; eapply Qcle_trans; eauto).
  rewrite QcZ_lt in A. lia.
Qed.

Definition half : Qc := Q2Qc (1#2).
Lemma half_spec : (half + half = 1)%Qc. Proof. unfold half; qclra. Qed.

Lemma round_half_even_near x : (Qcabs (x - QcZ (round_half_even x)) <= half)%Qc.
Proof.
  destruct (Qcfloor_spec x) as [H1 H2]. unfold round_half_even, half.
  apply Qcabs_le. 
  qcases; try destruct (Z.even (Qcfloor x)); rewrite ?QcZ_add, ?QcZ_1; split; qclra.
Qed.
Lemma round_half_even_QcZ z : round_half_even (QcZ z) = z.
Proof.
  unfold round_half_even. rewrite Qcfloor_QcZ. qcases; auto; exfalso; qclra.
Qed.
(** [round] returns the nearest integer whenever it is unique. *)
Lemma round_half_even_unique x z : (Qcabs (x - QcZ z) < half)%Qc -> round_half_even x = z.
Proof.
  intros H. pose proof (round_half_even_near x) as H0.
  assert (QcZ (round_half_even x) - QcZ z < 1)%Qc as A.
  { unfold half, Qcabs in *. qcases; qclra. }
  assert (QcZ z - QcZ (round_half_even x) < 1)%Qc as B.
  { unfold half, Qcabs in *. qcases; qclra. }
  rewrite <- QcZ_sub, <- QcZ_1 in A, B. rewrite QcZ_lt in A. rewrite QcZ_lt in B. lia.
Qed.
Lemma round_half_even_nonneg x : (0 <= x)%Qc -> (0 <= round_half_even x)%Z.
Proof.
  intros H. unfold round_half_even.
  assert (0 <= Qcfloor x)%Z. { rewrite <- (Qcfloor_QcZ 0). apply Qcfloor_mono. rewrite QcZ_0; auto. }
  qcases; try destruct (Z.even _); lia.
Qed.
Lemma round_half_even_opp x : round_half_even (- x)%Qc = (- round_half_even x)%Z.
Proof.
  destruct (Qcfloor_spec x) as [H1 H2].
  destruct (Qceqb_spec x (QcZ (Qcfloor x))) as [E|E].
  - rewrite E. rewrite <- QcZ_opp, !round_half_even_QcZ. reflexivity.
  - assert (F : Qcfloor (- x)%Qc = (- Qcfloor x - 1)%Z).
    { apply Qcfloor_unique; rewrite QcZ_sub, QcZ_opp, QcZ_1; [qclra|].
      apply Qc_neq_Q in E. qc2q. lra. }
    unfold round_half_even. rewrite F, QcZ_sub, QcZ_opp, QcZ_1.
    qcases; try (exfalso; qclra); try lia.
    replace (- Qcfloor x - 1)%Z with (- (Qcfloor x + 1))%Z by lia.
    rewrite Z.even_opp. rewrite Z.even_add. destruct (Z.even (Qcfloor x)); simpl; lia.
Qed.

(** ** sums *)
Lemma Qcsum_app l m : Qcsum (l ++ m) = (Qcsum l + Qcsum m)%Qc.
Proof. induction l as [|a l IH]; simpl; [ring|]. rewrite IH. ring. Qed.
Lemma Qcsum_perm l m : Permutation l m -> Qcsum l = Qcsum m.
Proof. induction 1; simpl; try congruence; ring. Qed.
Lemma Qcsum_scale c l : Qcsum (map (Qcmult c) l) = (c * Qcsum l)%Qc.
Proof. induction l as [|a l IH]; simpl; [ring|]. rewrite IH. ring. Qed.
Lemma Qcsum_plus {A} (f g : A -> Qc) l :
  Qcsum (map (fun a => (f a + g a)%Qc) l) = (Qcsum (map f l) + Qcsum (map g l))%Qc.
Proof. induction l as [|a l IH]; simpl; [ring|]. rewrite IH. ring. Qed.
Lemma Qcsum_const {A} c (l : list A) : Qcsum (map (fun _ => c) l) = (QcN (length l) * c)%Qc.
Proof. induction l as [|a l IH]; simpl length; simpl map; simpl Qcsum.
  - rewrite QcN_0. ring. - rewrite IH, QcN_S. ring. Qed.
Lemma Qcsum_le {A} (f g : A -> Qc) l :
  (forall a, In a l -> (f a <= g a)%Qc) -> (Qcsum (map f l) <= Qcsum (map g l))%Qc.
Proof.
  induction l as [|a l IH]; simpl; intros H; [qclra|].
  apply Qcplus_le_compat; auto.
Qed.
Lemma Qcsum_nonneg l : (forall a, In a l -> (0 <= a)%Qc) -> (0 <= Qcsum l)%Qc.
Proof.
  induction l as [|a l IH]; simpl; intros H; [qclra|].
  assert (0 <= a)%Qc by auto. assert (0 <= Qcsum l)%Qc by auto. qclra.
Qed.
Lemma Qcsum_repeat0 n : Qcsum (repeat 0%Qc n) = 0%Qc.
Proof. induction n as [|n IH]; simpl; auto. rewrite IH. ring. Qed.

(** Field side conditions. *)
Lemma Qcpos_neq0 x : (0 < x)%Qc -> x <> 0%Qc.
Proof. intros H ->. qclra. Qed.
Lemma Qcinv_pos x : (0 < x)%Qc -> (0 < / x)%Qc.
Proof. intro H. unfold Qclt in *. rewrite this_inv, this_0 in *. now apply Qinv_lt_0_compat. Qed.
Lemma Qcdiv_pos x y : (0 < x)%Qc -> (0 < y)%Qc -> (0 < x / y)%Qc.
Proof. intros H1 H2. apply Qcinv_pos in H2. unfold Qcdiv. qc2q. nra. Qed.
Lemma Qcle_div x y z : (0 < z)%Qc -> ((x / z <= y)%Qc <-> (x <= y * z)%Qc).
Proof.
  intros Hz. assert (E : (x = x / z * z)%Qc) by (field; apply Qcpos_neq0; auto).
  split; intro H.
  - rewrite E. qcnra.
  - rewrite E in H. destruct (Qclt_le_dec y (x / z)) as [L|L]; auto. exfalso. qcnra.
Qed.
Lemma Qclt_div x y z : (0 < z)%Qc -> ((x / z < y)%Qc <-> (x < y * z)%Qc).
Proof.
  intros Hz. assert (E : (x = x / z * z)%Qc) by (field; apply Qcpos_neq0; auto).
  split; intro H.
  - rewrite E. qcnra.
  - rewrite E in H. destruct (Qclt_le_dec (x / z) y) as [L|L]; auto. exfalso. qcnra.
Qed.

Lemma Qcdiv_nonneg x z : (0 <= x)%Qc -> (0 < z)%Qc -> (0 <= x / z)%Qc.
Proof.
  intros H Hz. assert (I := Qcinv_pos z Hz). unfold Qcdiv.
  assert (J : (0 <= / z)%Qc) by (now apply Qclt_le_weak).
  replace 0%Qc with (0 * / z)%Qc by ring. now apply Qcmult_le_compat_r.
Qed.
Lemma Qceq_le x y : x = y -> (x <= y)%Qc.
Proof. intros ->. apply Qcle_refl. Qed.
