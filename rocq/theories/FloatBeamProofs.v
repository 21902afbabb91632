(* Proofs about the frequency-domain beamformer in double precision. *)
From Coq Require Import Lra Lia Psatz String.
From Verif Require Import FloatModel FloatSpec FloatProofs FloatStatModel FloatStatSpec FloatStatProofs FloatPhaseModel FloatPhaseSpec FloatPhaseProofs
  FloatBeamModel FloatBeamSpec.
Local Notation double := FloatModel.double.
Local Open Scope R_scope.

(** ** Complex numbers *)
Definition cadd (z w : complex) : complex := (fst z + fst w, snd z + snd w).
Definition csub (z w : complex) : complex := (fst z - fst w, snd z - snd w).
Definition cmul (z w : complex) : complex := (fst z * fst w - snd z * snd w, fst z * snd w + snd z * fst w).
Definition cabs (z : complex) : R := norm (fst z) (snd z).
Lemma cabs_pos z : 0 <= cabs z. Proof. apply norm_nonneg. Qed.
Lemma cabs_add z w : cabs (cadd z w) <= cabs z + cabs w.
Proof. apply norm_triangle. Qed.
Lemma cabs_mul z w : cabs (cmul z w) = cabs z * cabs w.
Proof.
  unfold cabs, cmul, norm. cbn [fst snd]. rewrite <- sqrt_mult_alt.
  - f_equal. ring.
  - pose proof (Rle_0_sqr (fst z)). pose proof (Rle_0_sqr (snd z)). unfold Rsqr in *. lra.
Qed.
Lemma cabs_conj z : cabs (conj z) = cabs z.
Proof. unfold cabs, conj, norm. cbn. f_equal. ring. Qed.
Lemma cabs_sum z : cabs z <= Rabs (fst z) + Rabs (snd z).
Proof. apply norm_le_sum. Qed.
Lemma cabs_near z w : cabs z <= cabs w + cabs (csub z w).
Proof. replace z with (cadd w (csub z w)) at 1; [apply cabs_add|]. destruct z, w. unfold cadd, csub. cbn. f_equal; ring. Qed.
Lemma csub_trans x y z : cabs (csub x z) <= cabs (csub x y) + cabs (csub y z).
Proof. replace (csub x z) with (cadd (csub x y) (csub y z)); [apply cabs_add|]. unfold cadd, csub. cbn. f_equal; ring. Qed.
Lemma cabs_dot p q r s : Rabs (p * r) + Rabs (q * s) <= norm p q * norm r s.
Proof.
  assert (N : forall a b, norm a b = norm (Rabs a) (Rabs b)).
  { intros a b. unfold norm. f_equal. rewrite <- !Rabs_mult, !Rabs_pos_eq; [reflexivity| |]; apply Rle_0_sqr. }
  rewrite !Rabs_mult, (N p q), (N r s). pose proof (cabs_mul (Rabs p, - Rabs q) (Rabs r, Rabs s)) as M. unfold cabs, cmul in M. cbn [fst snd] in M.
  pose proof (cabs_conj (Rabs p, Rabs q)) as C. unfold cabs, conj in C. cbn [fst snd] in C. rewrite C in M. rewrite <- M.
  pose proof (norm_part (Rabs p * Rabs r - - Rabs q * Rabs s) (Rabs p * Rabs s + - Rabs q * Rabs r)) as [P _].
  pose proof (Rle_abs (Rabs p * Rabs r - - Rabs q * Rabs s)). lra.
Qed.

(** ** One product of complex numbers *)
Definition floor : R := / IZR (2 ^ 900).
Lemma floor_pos : 0 < floor. Proof. apply Rinv_0_lt_compat, IZR_lt. reflexivity. Qed.
Lemma tiny_floor K : floor <= K -> tiny <= / 1000 * (u * K).
Proof.
  intros H. apply Rle_trans with (/ 1000 * (u * floor)); [|pose proof u_pos; apply Rmult_le_compat_l; [lra|apply Rmult_le_compat_l; lra]].
  unfold tiny, floor. rewrite u_value. apply Rmult_le_reg_r with (IZR (2 ^ 1070)); [apply IZR_lt; reflexivity|]. rewrite Rinv_l by (apply not_0_IZR; discriminate).
  replace (2 ^ 1070)%Z with (2 ^ 170 * 2 ^ 900)%Z by reflexivity. rewrite mult_IZR. set (b := IZR (2 ^ 900)). assert (0 < b) by (apply IZR_lt; reflexivity).
  replace (/ 1000 * (/ 9007199254740992 * / b) * (IZR (2 ^ 170) * b)) with (IZR (2 ^ 170) * / 9007199254740992000) by (field; lra).
  apply Rmult_le_reg_r with 9007199254740992000; [lra|]. rewrite Rmult_assoc, Rinv_l by lra. rewrite Rmult_1_r, Rmult_1_l. apply IZR_le. intros Q. discriminate Q.
Qed.
Definition near (e : R) (q : complex * R) (a : complex) : Prop :=
  cabs (csub a (fst q)) <= e * snd q /\ cabs (fst q) <= snd q.
Lemma near_size e q a : near e q a -> cabs a <= (1 + e) * snd q.
Proof. intros (N & S). pose proof (cabs_near a (fst q)). lra. Qed.
Lemma item_error e e' q q' a b : 0 <= e <= / 1000 -> 0 <= e' <= / 1000 -> near e q a -> near e' q' b -> floor <= snd q * snd q' ->
  let w := snd q * snd q' in
  cabs (csub (RN (fst a * fst b) + RN (- (snd a * snd b)), RN (fst a * snd b) + RN (snd a * fst b)) (cmul (fst q) (fst q'))) <= (e + e' + e * e' + 21 / 10 * u) * w /\
  Rabs (RN (fst a * fst b)) + Rabs (RN (- (snd a * snd b))) <= 1003 / 1000 * w /\
  Rabs (RN (fst a * snd b)) + Rabs (RN (snd a * fst b)) <= 1003 / 1000 * w.
Proof.
  intros He He' Na Nb Hf w. pose proof u_pos as U0. pose proof tiny_pos as T0. assert (U1 : u <= / 1000000000000000) by (rewrite u_value; lra).
  pose proof (tiny_floor _ Hf) as T. fold w in T, Hf. pose proof floor_pos as F0.
  pose proof (near_size _ _ _ Na) as Sa. pose proof (near_size _ _ _ Nb) as Sb. destruct Na as (Na & Sq). destruct Nb as (Nb & Sq').
  pose proof (cabs_pos (fst q)) as X0. pose proof (cabs_pos (fst q')) as Y0. set (X := snd q) in *. set (Y := snd q') in *.
  assert (X1 : 0 <= X) by lra. assert (Y1 : 0 <= Y) by lra. assert (Uw : 0 <= u * w) by (apply Rmult_le_pos; lra).
  assert (P : cabs a * cabs b <= 10021 / 10000 * w).
  { apply Rle_trans with ((1 + e) * X * ((1 + e') * Y)); [apply Rmult_le_compat; auto using cabs_pos|].
    replace ((1 + e) * X * ((1 + e') * Y)) with ((1 + e) * (1 + e') * w) by (unfold w; ring). apply Rmult_le_compat_r; [lra|].
    apply Rle_trans with ((1 + / 1000) * (1 + / 1000)); [apply Rmult_le_compat; lra|lra]. }
  pose proof (cabs_dot (fst a) (snd a) (fst b) (snd b)) as C1. pose proof (cabs_dot (fst a) (snd a) (snd b) (fst b)) as C2.
  replace (norm (snd b) (fst b)) with (norm (fst b) (snd b)) in C2 by (unfold norm; f_equal; ring). fold (cabs a) (cabs b) in C1, C2.
  pose proof (RN_error (fst a * fst b)) as E1. pose proof (RN_error (- (snd a * snd b))) as E2. rewrite Rabs_Ropp in E2.
  pose proof (RN_error (fst a * snd b)) as E3. pose proof (RN_error (snd a * fst b)) as E4.
  assert (M1 : u * Rabs (fst a * fst b) + u * Rabs (snd a * snd b) <= 10021 / 10000 * (u * w)).
  { rewrite <- Rmult_plus_distr_l. apply Rle_trans with (u * (10021 / 10000 * w)); [apply Rmult_le_compat_l; lra|lra]. }
  assert (M2 : u * Rabs (fst a * snd b) + u * Rabs (snd a * fst b) <= 10021 / 10000 * (u * w)).
  { rewrite <- Rmult_plus_distr_l. apply Rle_trans with (u * (10021 / 10000 * w)); [apply Rmult_le_compat_l; lra|lra]. }
  assert (uw : u * w <= / 1000000000000000 * w) by (apply Rmult_le_compat_r; lra).
  assert (B : forall x y, Rabs y <= Rabs x + Rabs (y - x)).
  { intros x y. replace y with (x + (y - x)) at 1 by ring. apply Rabs_triang. }
  split; [|split].
  - eapply Rle_trans; [apply (csub_trans _ (cmul a b))|].
    assert (D : cabs (csub (cmul a b) (cmul (fst q) (fst q'))) <= (e + e' + e * e') * w).
    { replace (csub (cmul a b) (cmul (fst q) (fst q'))) with (cadd (cmul (csub a (fst q)) b) (cmul (fst q) (csub b (fst q')))) by (unfold cadd, csub, cmul; cbn; f_equal; ring).
      eapply Rle_trans; [apply cabs_add|]. rewrite !cabs_mul.
      assert (K1 : cabs (csub a (fst q)) * cabs b <= e * X * ((1 + e') * Y)) by (apply Rmult_le_compat; auto using cabs_pos).
      assert (K2 : cabs (fst q) * cabs (csub b (fst q')) <= X * (e' * Y)) by (apply Rmult_le_compat; auto using cabs_pos).
      replace ((e + e' + e * e') * w) with (e * X * ((1 + e') * Y) + X * (e' * Y)) by (unfold w; ring). lra. }
    assert (G : cabs (csub (RN (fst a * fst b) + RN (- (snd a * snd b)), RN (fst a * snd b) + RN (snd a * fst b)) (cmul a b)) <= 21 / 10 * (u * w)).
    { eapply Rle_trans; [apply cabs_sum|]. unfold csub, cmul. cbn [fst snd].
      replace (RN (fst a * fst b) + RN (- (snd a * snd b)) - (fst a * fst b - snd a * snd b)) with ((RN (fst a * fst b) - fst a * fst b) + (RN (- (snd a * snd b)) - - (snd a * snd b))) by ring.
      replace (RN (fst a * snd b) + RN (snd a * fst b) - (fst a * snd b + snd a * fst b)) with ((RN (fst a * snd b) - fst a * snd b) + (RN (snd a * fst b) - snd a * fst b)) by ring.
      pose proof (Rabs_triang (RN (fst a * fst b) - fst a * fst b) (RN (- (snd a * snd b)) - - (snd a * snd b))).
      pose proof (Rabs_triang (RN (fst a * snd b) - fst a * snd b) (RN (snd a * fst b) - snd a * fst b)). lra. }
    lra.
  - pose proof (B (fst a * fst b) (RN (fst a * fst b))) as B1. pose proof (B (- (snd a * snd b)) (RN (- (snd a * snd b)))) as B2. rewrite Rabs_Ropp in B2. lra.
  - pose proof (B (fst a * snd b) (RN (fst a * snd b))) as B1. pose proof (B (snd a * fst b) (RN (snd a * fst b))) as B2. lra.
Qed.

(** ** A row times a column *)
Fixpoint cdot (p q : list (complex * R)) : complex :=
  match p, q with x :: p, y :: q => cadd (cmul (fst x) (fst y)) (cdot p q) | _, _ => (0, 0) end.
Fixpoint wdot (p q : list (complex * R)) : R :=
  match p, q with x :: p, y :: q => snd x * snd y + wdot p q | _, _ => 0 end.
Fixpoint sized (p q : list (complex * R)) : Prop :=
  match p, q with x :: p, y :: q => floor <= snd x * snd y /\ sized p q | _, _ => True end.
Lemma wdot_nonneg p : forall q, sized p q -> 0 <= wdot p q.
Proof.
  induction p as [|x p IH]; intros [|y q] H; cbn in *; try lra. destruct H as [H1 H2]. specialize (IH _ H2). pose proof floor_pos. lra.
Qed.
Lemma terms_error e e' p a : 0 <= e <= / 1000 -> 0 <= e' <= / 1000 -> Forall2 (near e) p a -> forall q b, Forall2 (near e') q b -> sized p q ->
  List.length p = List.length q ->
  cabs (csub (Rsum (products_re a b), Rsum (products_im a b)) (cdot p q)) <= (e + e' + e * e' + 21 / 10 * u) * wdot p q /\
  Rsum (map Rabs (products_re a b)) <= 1003 / 1000 * wdot p q /\ Rsum (map Rabs (products_im a b)) <= 1003 / 1000 * wdot p q.
Proof.
  intros He He' H. induction H as [|x a0 p a N H IH]; intros q b H' S L.
  - destruct q; [|discriminate]. inversion H'; subst. cbn. rewrite !Rmult_0_r. split; [|lra].
    replace (csub (0, 0) (0, 0)) with ((0, 0) : complex) by (unfold csub; cbn; f_equal; ring). eapply Rle_trans; [apply cabs_sum|]. cbn. rewrite Rabs_R0. lra.
  - destruct H' as [|y b0 q b N' H']; [discriminate|]. destruct S as [S1 S2]. destruct (IH q b H' S2 ltac:(now injection L)) as (I1 & I2 & I3).
    destruct (item_error e e' x y a0 b0 He He' N N' S1) as (J1 & J2 & J3). cbn zeta in *.
    unfold products_re, products_im in *. cbn [combine flat_map fst snd app map Rsum wdot cdot]. fold (products_re a b) (products_im a b) in *.
    split; [|split; lra]. set (w := wdot p q) in *. set (w0 := snd x * snd y) in *.
    match goal with |- cabs ?z <= _ => replace z with (cadd (csub (RN (fst a0 * fst b0) + RN (- (snd a0 * snd b0)), RN (fst a0 * snd b0) + RN (snd a0 * fst b0)) (cmul (fst x) (fst y)))
        (csub (Rsum (products_re a b), Rsum (products_im a b)) (cdot p q))) by (unfold cadd, csub; cbn [fst snd]; f_equal; ring) end.
    eapply Rle_trans; [apply cabs_add|]. lra.
Qed.
Lemma products_double a b : Forall double (products_re a b) /\ Forall double (products_im a b).
Proof.
  unfold products_re, products_im. split; apply Forall_forall; intros x Hx; apply in_flat_map in Hx; destruct Hx as (q & _ & Hx);
    cbn in Hx; destruct Hx as [<-|[<-|[]]]; apply RN_double.
Qed.
Lemma products_length a : forall b, List.length a = List.length b ->
  List.length (products_re a b) = (2 * List.length a)%nat /\ List.length (products_im a b) = (2 * List.length a)%nat.
Proof.
  unfold products_re, products_im. induction a as [|x a IH]; intros [|y b] L; try discriminate; [split; reflexivity|].
  cbn [combine flat_map app List.length]. destruct (IH b ltac:(now injection L)) as [E1 E2]. rewrite E1, E2. split; lia.
Qed.
Definition adding (n : R) : R := (41 / 10 * n + 21 / 10) * u.
Lemma dot_error e e' p a q b z : 0 <= e <= / 1000 -> 0 <= e' <= / 1000 -> Forall2 (near e) p a -> Forall2 (near e') q b -> sized p q ->
  List.length p = List.length q -> INR (List.length p) <= 500000000 -> dot_of a b z ->
  cabs (csub z (cdot p q)) <= (e + e' + e * e' + adding (INR (List.length p))) * wdot p q /\ double (fst z) /\ double (snd z).
Proof.
  intros He He' H H' S L N [(t & Pt & Et) (t' & Pt' & Et')]. pose proof u_pos as U0.
  destruct (terms_error e e' p a He He' H q b H' S L) as (T1 & T2 & T3). pose proof (wdot_nonneg p q S) as W0.
  assert (La : List.length a = List.length p) by (clear -H; induction H; cbn; congruence).
  assert (Lb : List.length b = List.length q) by (clear -H'; induction H'; cbn; congruence).
  destruct (products_double a b) as [D1 D2]. destruct (products_length a b ltac:(congruence)) as [L1 L2].
  assert (Ln : INR (2 * List.length a) = 2 * INR (List.length p)) by (rewrite mult_INR, La; reflexivity).
  pose proof (perm_error t _ Pt D1 ltac:(rewrite L1, Ln; lra)) as E1. pose proof (perm_error t' _ Pt' D2 ltac:(rewrite L2, Ln; lra)) as E2.
  rewrite L1, Ln in E1. rewrite L2, Ln in E2. rewrite <- Et in E1. rewrite <- Et' in E2.
  split; [|rewrite Et, Et'; split; eapply perm_double; eassumption].
  set (n := INR (List.length p)) in *. set (w := wdot p q) in *. assert (n0 : 0 <= n) by apply pos_INR. assert (uw : 0 <= u * w) by (apply Rmult_le_pos; lra).
  assert (nuw : 0 <= n * (u * w)) by (apply Rmult_le_pos; lra).
  assert (B : forall l, Rsum (map Rabs l) <= 1003 / 1000 * w -> 1.01 * (2 * n - 1) * u * Rsum (map Rabs l) <= 204 / 100 * (n * (u * w))).
  { intros l Hl. pose proof (Rsum_size_nonneg l) as Z. assert (A : 1.01 * (2 * n - 1) * u * Rsum (map Rabs l) <= 1.01 * (2 * n) * u * (1003 / 1000 * w)).
    { apply Rle_trans with (1.01 * (2 * n) * u * Rsum (map Rabs l)); [apply Rmult_le_compat_r; [exact Z|]; apply Rmult_le_compat_r; lra|].
      apply Rmult_le_compat_l; [|exact Hl]. apply Rmult_le_pos; lra. }
    replace (1.01 * (2 * n) * u * (1003 / 1000 * w)) with (2.02606 * (n * (u * w))) in A by lra. lra. }
  pose proof (B _ T2) as B1. pose proof (B _ T3) as B2.
  eapply Rle_trans; [apply (csub_trans _ (Rsum (products_re a b), Rsum (products_im a b)))|].
  assert (G : cabs (csub z (Rsum (products_re a b), Rsum (products_im a b))) <= 408 / 100 * (n * (u * w))).
  { eapply Rle_trans; [apply cabs_sum|]. cbn [csub fst snd]. lra. }
  unfold adding. lra.
Qed.
Lemma cdot_size p : forall q, Forall (fun x => cabs (fst x) <= snd x) p -> Forall (fun x => cabs (fst x) <= snd x) q -> cabs (cdot p q) <= wdot p q.
Proof.
  assert (Z : cabs (0, 0) <= 0) by (eapply Rle_trans; [apply cabs_sum|]; cbn; rewrite Rabs_R0; lra).
  induction p as [|x p IH]; intros [|y q] Hp Hq; cbn [cdot wdot]; try exact Z.
  inversion_clear Hp as [|? ? H1 H2]. inversion_clear Hq as [|? ? G1 G2]. eapply Rle_trans; [apply cabs_add|]. rewrite cabs_mul. specialize (IH q H2 G2).
  assert (cabs (fst x) * cabs (fst y) <= snd x * snd y) by (apply Rmult_le_compat; auto using cabs_pos). lra.
Qed.

(** ** Spectra, weights and steering *)
Definition base : R := / IZR (2 ^ 420).
Lemma base_floor x y : base <= x -> base <= y -> floor <= x * y.
Proof.
  intros Hx Hy. assert (B : 0 < base) by (apply Rinv_0_lt_compat, IZR_lt; reflexivity). apply Rle_trans with (base * base); [|apply Rmult_le_compat; lra].
  unfold base, floor. rewrite <- Rinv_mult, <- mult_IZR. apply Rinv_le; [apply IZR_lt; reflexivity|]. apply IZR_le. intros Q. discriminate Q.
Qed.
Lemma low_base x : / IZR (2 ^ 400) <= x -> 1000 * base <= x.
Proof.
  intros H. apply Rle_trans with (2 := H). unfold base. apply Rmult_le_reg_r with (IZR (2 ^ 420)); [apply IZR_lt; reflexivity|].
  rewrite Rmult_assoc, Rinv_l by (apply not_0_IZR; discriminate). replace (2 ^ 420)%Z with (2 ^ 400 * 2 ^ 20)%Z by reflexivity.
  rewrite mult_IZR, <- Rmult_assoc, Rinv_l by (apply not_0_IZR; discriminate). change (2 ^ 20)%Z with 1048576%Z. lra.
Qed.
Lemma base_small : base <= / 1000.
Proof. unfold base. apply Rinv_le; [lra|]. apply IZR_le. intros Q. discriminate Q. Qed.
Definition sound (F : complex) : Prop := double (fst F) /\ double (snd F) /\ / IZR (2 ^ 400) <= cabs F <= IZR (2 ^ 400).
(** The exact spectrum without the weight of the offsets, and this weight. *)
Definition plain (weighting : string) (F : complex) : complex :=
  if String.eqb weighting "invamp" then (fst F / cabs F, snd F / cabs F) else F.
Definition factor (weighting : string) (x : R) : R := if String.eqb weighting "sqrt" then x else 1.
Lemma contribution_split weighting x F : contribution weighting x F = (factor weighting x * fst (plain weighting F), factor weighting x * snd (plain weighting F)).
Proof.
  unfold contribution, factor, plain. destruct (String.eqb_spec weighting "invamp") as [->|N]; [cbn; f_equal; unfold cabs; ring|].
  destruct (String.eqb weighting "sqrt"); [reflexivity|]. destruct F. cbn. f_equal; ring.
Qed.
Lemma scale_abs k z : cabs (k * fst z, k * snd z) = Rabs k * cabs z.
Proof. apply norm_scale. Qed.
Lemma plain_low weighting F : sound F -> 1000 * base <= cabs (plain weighting F).
Proof.
  intros (_ & _ & L & _). unfold plain. destruct (String.eqb weighting "invamp"); [|now apply low_base].
  pose proof base_small as B. pose proof (low_base _ L) as Q. assert (Z : 0 < base) by (apply Rinv_0_lt_compat, IZR_lt; reflexivity).
  replace (fst F / cabs F, snd F / cabs F) with (/ cabs F * fst F, / cabs F * snd F) by (f_equal; unfold Rdiv; ring).
  rewrite scale_abs, Rabs_pos_eq, Rinv_l by (try (left; apply Rinv_0_lt_compat); lra). lra.
Qed.
Lemma spectrum_near hypot_ weighting F : good_hypot hypot_ -> sound F -> near (5 * u) (plain weighting F, cabs (plain weighting F)) (spectrum hypot_ weighting F).
Proof.
  intros Gh (D1 & D2 & Hl & Hh). pose proof u_pos as U0. pose proof tiny_pos as T0. assert (U1 : u <= / 1000000000000000) by (rewrite u_value; lra).
  unfold near, spectrum, plain. cbn [fst snd]. destruct (String.eqb weighting "invamp").
  2:{ replace (csub F F) with ((0, 0) : complex) by (unfold csub; f_equal; ring). split; [|lra]. eapply Rle_trans; [apply cabs_sum|]. cbn. rewrite Rabs_R0.
      assert (0 <= u * cabs F) by (apply Rmult_le_pos; [lra|apply cabs_pos]). lra. }
  pose proof (Gh _ _ D1 D2) as G. fold (cabs F) in G. set (M := cabs F) in *. set (m := hypot_ (fst F) (snd F)) in *.
  assert (M0 : 0 < M) by (apply Rlt_le_trans with (2 := Hl); apply Rinv_0_lt_compat, IZR_lt; reflexivity).
  pose proof (tiny_u M Hl) as TM. pose proof (inv_u M ltac:(lra)) as TI. pose proof (tiny_u 1 ltac:(rewrite <- Rinv_1; apply Rinv_le; [lra|apply IZR_le; intros Q; discriminate Q])) as T1.
  assert (uM : 0 <= u * M) by (apply Rmult_le_pos; lra). assert (I0 : 0 < / M) by now apply Rinv_0_lt_compat. assert (uI : 0 <= u * / M) by (apply Rmult_le_pos; lra).
  assert (uMs : u * M <= / 1000000000000000 * M) by (apply Rmult_le_compat_r; lra).
  assert (Em : Rabs (m - M) <= 201 / 100 * (u * M)) by lra. apply Rabs_le_inv in Em.
  assert (m0 : 0 < m) by lra. set (r := RN (1 / m)).
  assert (Er : Rabs (r - / M) <= 304 / 100 * (u * / M)).
  { pose proof (RN_error (1 / m)) as E. fold r in E. assert (K : Rabs (1 / m - / M) <= 2011 / 1000 * (u * / M)).
    { replace (1 / m - / M) with (- ((m - M) * / m * / M)) by (field; lra). rewrite Rabs_Ropp, !Rabs_mult, (Rabs_pos_eq (/ M)), (Rabs_pos_eq (/ m)) by (left; auto using Rinv_0_lt_compat).
      rewrite <- Rmult_assoc. apply Rmult_le_compat_r; [lra|]. apply Rmult_le_reg_r with m; [exact m0|]. rewrite Rmult_assoc, Rinv_l, Rmult_1_r by lra.
      apply Rle_trans with (201 / 100 * (u * M)); [apply Rabs_le; lra|]. assert (u * m >= u * (M - / 10000000000000 * M)) by (apply Rle_ge, Rmult_le_compat_l; lra). lra. }
    assert (B : Rabs (1 / m) <= / M + 2011 / 1000 * (u * / M)). { replace (1 / m) with (/ M + (1 / m - / M)) by ring. eapply Rle_trans; [apply Rabs_triang|]. rewrite (Rabs_pos_eq (/ M)) by lra. lra. }
    assert (B' : u * Rabs (1 / m) <= u * (/ M + 2011 / 1000 * (u * / M))) by (apply Rmult_le_compat_l; lra).
    assert (uuI : u * (u * / M) <= / 1000000000000000 * (u * / M)) by (apply Rmult_le_compat_r; lra).
    replace (r - / M) with ((r - 1 / m) + (1 / m - / M)) by ring. eapply Rle_trans; [apply Rabs_triang|]. lra. }
  assert (S1 : cabs (fst F / M, snd F / M) = 1).
  { replace (fst F / M, snd F / M) with (/ M * fst F, / M * snd F) by (f_equal; unfold Rdiv; ring). rewrite scale_abs, Rabs_pos_eq by lra. exact (Rinv_l M (Rgt_not_eq _ _ M0)). }
  rewrite S1. split; [|lra]. rewrite Rmult_1_r.
  assert (C1 : cabs (csub (r * fst F, r * snd F) (fst F / M, snd F / M)) <= 304 / 100 * u).
  { replace (csub (r * fst F, r * snd F) (fst F / M, snd F / M)) with ((r - / M) * fst F, (r - / M) * snd F) by (unfold csub; cbn; f_equal; unfold Rdiv; ring).
    rewrite scale_abs. apply Rle_trans with (304 / 100 * (u * / M) * M); [apply Rmult_le_compat_r; [lra|exact Er]|]. right. field. lra. }
  assert (R1 : Rabs r * M <= 1001 / 1000).
  { assert (Rabs r <= / M + 304 / 100 * (u * / M)).
    { replace r with (/ M + (r - / M)) by ring. eapply Rle_trans; [apply Rabs_triang|]. rewrite (Rabs_pos_eq (/ M)) by lra. lra. }
    apply Rle_trans with ((/ M + 304 / 100 * (u * / M)) * M); [apply Rmult_le_compat_r; lra|]. replace ((/ M + 304 / 100 * (u * / M)) * M) with (1 + 304 / 100 * u) by (field; lra). lra. }
  assert (Z : csub (RN (fst F * r), RN (snd F * r)) (fst F / M, snd F / M) = cadd (RN (fst F * r) - fst F * r, RN (snd F * r) - snd F * r) (csub (r * fst F, r * snd F) (fst F / M, snd F / M))).
  { unfold csub, cadd. cbn. f_equal; ring. }
  rewrite Z. eapply Rle_trans; [apply cabs_add|].
  assert (P : forall y, Rabs y <= M -> Rabs (RN (y * r) - y * r) <= u * (Rabs r * Rabs y) + tiny / 32).
  { intros y _. pose proof (RN_error (y * r)) as E. rewrite Rabs_mult, (Rmult_comm (Rabs y)) in E. exact E. }
  assert (Q : cabs (RN (fst F * r) - fst F * r, RN (snd F * r) - snd F * r) <= 145 / 100 * u).
  { destruct (norm_part (fst F) (snd F)) as [N1 N2]. fold (cabs F) in N1, N2. fold M in N1, N2. pose proof (P _ N1) as P1. pose proof (P _ N2) as P2.
    set (ar := Rabs r) in *. assert (r0 : 0 <= ar) by apply Rabs_pos.
    assert (X : cabs (u * (ar * Rabs (fst F)), u * (ar * Rabs (snd F))) <= 1001 / 1000 * u).
    { replace (u * (ar * Rabs (fst F)), u * (ar * Rabs (snd F))) with (u * ar * fst (Rabs (fst F), Rabs (snd F)), u * ar * snd (Rabs (fst F), Rabs (snd F))) by (cbn; f_equal; ring).
      rewrite scale_abs. assert (cabs (Rabs (fst F), Rabs (snd F)) = M).
      { unfold M, cabs, norm. cbn. f_equal. rewrite <- !Rabs_mult, !Rabs_pos_eq; [reflexivity| |]; apply Rle_0_sqr. }
      rewrite H, Rabs_pos_eq by (apply Rmult_le_pos; lra). replace (u * ar * M) with (ar * M * u) by ring. apply Rmult_le_compat_r; lra. }
    assert (Mono : forall a b c d, Rabs a <= c -> Rabs b <= d -> norm a b <= norm c d).
    { intros a b c d Ha Hb. unfold norm. apply sqrt_le_1_alt. assert (a * a <= c * c).
      { replace (a * a) with (Rabs a * Rabs a) by (rewrite <- Rabs_mult; apply Rabs_pos_eq, Rle_0_sqr). apply Rmult_le_compat; auto using Rabs_pos. }
      assert (b * b <= d * d). { replace (b * b) with (Rabs b * Rabs b) by (rewrite <- Rabs_mult; apply Rabs_pos_eq, Rle_0_sqr). apply Rmult_le_compat; auto using Rabs_pos. } lra. }
    eapply Rle_trans; [apply (Mono _ _ (u * (ar * Rabs (fst F)) + tiny / 32) (u * (ar * Rabs (snd F)) + tiny / 32) P1 P2)|].
    eapply Rle_trans; [apply norm_triangle|]. unfold cabs in X. cbn [fst snd] in X. pose proof (norm_le_sum (tiny / 32) (tiny / 32)) as Y. rewrite Rabs_pos_eq in Y by lra. lra. }
  lra.
Qed.
Lemma near_conj e z X a : near e (z, X) a -> near e (conj z, X) (conj a).
Proof.
  intros (N & S). unfold near in *. cbn [fst snd] in *. rewrite cabs_conj. split; [|exact S].
  replace (csub (conj a) (conj z)) with (conj (csub a z)) by (unfold csub, conj; cbn; f_equal; ring). now rewrite cabs_conj.
Qed.
Definition con (weighting : string) (i : R * complex) : complex := contribution weighting (fst i) (snd i).
Definition fit (weighting : string) (i : R * complex) : Prop := sound (snd i) /\ (weighting = "sqrt"%string -> 1 / 1000 <= Rabs (fst i)).
Lemma con_abs weighting i : cabs (con weighting i) = Rabs (factor weighting (fst i)) * cabs (plain weighting (snd i)).
Proof. unfold con. rewrite contribution_split. apply scale_abs. Qed.
Lemma factor_low weighting i : fit weighting i -> 1 / 1000 <= Rabs (factor weighting (fst i)).
Proof. intros [_ H]. unfold factor. destruct (String.eqb_spec weighting "sqrt"); [auto|]. rewrite Rabs_R1. lra. Qed.
Lemma con_low weighting i : fit weighting i -> base <= cabs (con weighting i).
Proof.
  intros H. rewrite con_abs. pose proof (factor_low _ _ H) as L. pose proof (plain_low weighting _ (proj1 H)) as P.
  assert (Z : 0 < base) by (apply Rinv_0_lt_compat, IZR_lt; reflexivity).
  apply Rle_trans with (1 / 1000 * (1000 * base)); [lra|]. apply Rmult_le_compat; lra.
Qed.
Lemma entry_near hypot_ weighting a b m : good_hypot hypot_ -> fit weighting a -> fit weighting b ->
  correlation_of (spectrum hypot_ weighting (snd a)) (spectrum hypot_ weighting (snd b)) m ->
  near (21 * u) (cmul (con weighting a) (conj (con weighting b)), cabs (con weighting a) * cabs (con weighting b)) (weighted (pair_weight weighting (fst a) (fst b)) m).
Proof.
  intros Gh Ha Hb Hm. pose proof u_pos as U0. pose proof tiny_pos as T0. assert (U1 : u <= / 1000000000000000) by (rewrite u_value; lra).
  pose proof (spectrum_near hypot_ weighting (snd a) Gh (proj1 Ha)) as Na. pose proof (near_conj _ _ _ _ (spectrum_near hypot_ weighting (snd b) Gh (proj1 Hb))) as Nb.
  pose proof (plain_low weighting _ (proj1 Ha)) as La. pose proof (plain_low weighting _ (proj1 Hb)) as Lb.
  assert (Z : 0 < base) by (apply Rinv_0_lt_compat, IZR_lt; reflexivity).
  pose proof (base_floor (cabs (plain weighting (snd a))) (cabs (plain weighting (snd b))) ltac:(lra) ltac:(lra)) as Hf.
  destruct (dot_error (5 * u) (5 * u) [(plain weighting (snd a), cabs (plain weighting (snd a)))] _ [(conj (plain weighting (snd b)), cabs (plain weighting (snd b)))] _ m
    ltac:(lra) ltac:(lra) (Forall2_cons _ _ Na (Forall2_nil _)) (Forall2_cons _ _ Nb (Forall2_nil _)) ltac:(cbn; auto) eq_refl ltac:(cbn; lra) Hm) as (E & D1 & D2).
  cbn [List.length INR cdot wdot fst snd] in E. rewrite Rplus_0_r in E. unfold adding in E.
  set (pa := plain weighting (snd a)) in *. set (pb := plain weighting (snd b)) in *. set (H := cabs pa * cabs pb) in *.
  assert (H0 : 0 < H) by (pose proof floor_pos; lra). assert (uH : 0 <= u * H) by (apply Rmult_le_pos; lra).
  assert (Ec : cadd (cmul pa (conj pb)) (0, 0) = cmul pa (conj pb)) by (unfold cadd, cmul; cbn; f_equal; ring). rewrite Ec in E.
  set (z := cmul pa (conj pb)) in *. assert (Hz : cabs z = H) by (unfold z; rewrite cabs_mul, cabs_conj; reflexivity).
  assert (uuH : u * (u * H) <= / 1000000000000000 * (u * H)) by (apply Rmult_le_compat_r; lra).
  assert (E' : cabs (csub m z) <= 163 / 10 * (u * H)) by lra. clear E.
  pose proof (factor_low _ _ Ha) as Ka. pose proof (factor_low _ _ Hb) as Kb. set (ka := factor weighting (fst a)) in *. set (kb := factor weighting (fst b)) in *.
  set (k := ka * kb). assert (K0 : / 1000000 <= Rabs k) by (unfold k; rewrite Rabs_mult; apply Rle_trans with (1 / 1000 * (1 / 1000)); [lra|apply Rmult_le_compat; lra]).
  set (w := pair_weight weighting (fst a) (fst b)). assert (Hw : Rabs (w - k) <= 101 / 100 * (u * Rabs k)).
  { assert (uk : u * / 1000000 <= u * Rabs k) by (apply Rmult_le_compat_l; lra). unfold w, pair_weight, k, ka, kb, factor in *. destruct (String.eqb weighting "sqrt").
    - pose proof (RN_error (fst a * fst b)) as E. pose proof (tiny_u (/ 1000000) ltac:(apply Rinv_le; [lra|apply IZR_le; intros Q; discriminate Q])) as T. lra.
    - rewrite Rmult_1_l, Rminus_eq_0, Rabs_R0, Rabs_R1. lra. }
  assert (C1 : con weighting a = (ka * fst pa, ka * snd pa)) by (unfold con; apply contribution_split).
  assert (C2 : con weighting b = (kb * fst pb, kb * snd pb)) by (unfold con; apply contribution_split).
  assert (Cz : cmul (con weighting a) (conj (con weighting b)) = (k * fst z, k * snd z)) by (rewrite C1, C2; unfold z, cmul, conj, k; cbn; f_equal; ring).
  assert (Ch : cabs (con weighting a) * cabs (con weighting b) = Rabs k * H).
  { rewrite C1, C2, !scale_abs. unfold k, H. rewrite Rabs_mult. ring. }
  rewrite Cz, Ch. unfold near, weighted. cbn [fst snd]. split; [|rewrite scale_abs, Hz; lra].
  set (ak := Rabs k) in *. set (V := ak * H). assert (V0 : 0 < V) by (apply Rmult_lt_0_compat; lra). assert (uV : 0 <= u * V) by (apply Rmult_le_pos; lra).
  assert (TV : tiny <= / 1000 * (u * V)).
  { apply tiny_floor. apply Rle_trans with (/ 1000000 * (1000 * base * (1000 * base))).
    - replace (/ 1000000 * (1000 * base * (1000 * base))) with (base * base) by lra. apply base_floor; lra.
    - apply Rmult_le_compat; try lra; [apply Rmult_le_pos; lra|]. apply Rmult_le_compat; lra. }
  assert (Aw : Rabs w <= ak + 101 / 100 * (u * ak)). { replace w with (k + (w - k)) by ring. eapply Rle_trans; [apply Rabs_triang|]. fold ak. lra. }
  assert (uak : u * ak <= / 1000000000000000 * ak) by (apply Rmult_le_compat_r; lra).
  assert (uHs : u * H <= / 1000000000000000 * H) by (apply Rmult_le_compat_r; lra).
  assert (Am : cabs m <= H + 163 / 10 * (u * H)) by (pose proof (cabs_near m z); lra).
  assert (Amw : Rabs w * cabs m <= 1001 / 1000 * V).
  { apply Rle_trans with ((ak * (10001 / 10000)) * (H * (10001 / 10000))); [apply Rmult_le_compat; auto using Rabs_pos, cabs_pos; lra|].
    replace (ak * (10001 / 10000) * (H * (10001 / 10000))) with (10001 / 10000 * (10001 / 10000) * V) by (unfold V; lra). lra. }
  assert (S1 : cabs (csub (w * fst m, w * snd m) (k * fst z, k * snd z)) <= 174 / 10 * (u * V)).
  { replace (csub (w * fst m, w * snd m) (k * fst z, k * snd z)) with (cadd (w * fst (csub m z), w * snd (csub m z)) ((w - k) * fst z, (w - k) * snd z)) by (unfold csub, cadd; cbn; f_equal; ring).
    eapply Rle_trans; [apply cabs_add|]. rewrite !scale_abs, Hz.
    assert (X1 : Rabs w * cabs (csub m z) <= ak * (10001 / 10000) * (163 / 10 * (u * H))) by (apply Rmult_le_compat; auto using Rabs_pos, cabs_pos; lra).
    assert (X2 : Rabs (w - k) * H <= 101 / 100 * (u * ak) * H) by (apply Rmult_le_compat_r; lra).
    replace (ak * (10001 / 10000) * (163 / 10 * (u * H))) with (10001 / 10000 * (163 / 10) * (u * V)) in X1 by (unfold V; lra).
    replace (101 / 100 * (u * ak) * H) with (101 / 100 * (u * V)) in X2 by (unfold V; ring). lra. }
  assert (S2 : cabs (csub (RN (fst m * w), RN (snd m * w)) (w * fst m, w * snd m)) <= 21 / 10 * (u * V)).
  { eapply Rle_trans; [apply cabs_sum|]. cbn [csub fst snd]. rewrite (Rmult_comm w (fst m)), (Rmult_comm w (snd m)).
    pose proof (RN_error (fst m * w)) as R1. pose proof (RN_error (snd m * w)) as R2. destruct (norm_part (fst m) (snd m)) as [P1 P2]. fold (cabs m) in P1, P2.
    assert (Y1 : u * Rabs (fst m * w) <= u * (1001 / 1000 * V)).
    { apply Rmult_le_compat_l; [lra|]. apply Rle_trans with (2 := Amw). rewrite Rabs_mult, Rmult_comm. apply Rmult_le_compat_l; auto using Rabs_pos. }
    assert (Y2 : u * Rabs (snd m * w) <= u * (1001 / 1000 * V)).
    { apply Rmult_le_compat_l; [lra|]. apply Rle_trans with (2 := Amw). rewrite Rabs_mult, Rmult_comm. apply Rmult_le_compat_l; auto using Rabs_pos. }
    lra. }
  eapply Rle_trans; [apply (csub_trans _ (w * fst m, w * snd m))|]. fold ak V. lra.
Qed.

(** The steering vector. *)
Lemma wave_error v f x : / 1000000 <= v -> Rabs f <= 1000000000 -> Rabs x <= 1000000000 ->
  Rabs (wave_angle v f x - phase v f x) <= (6 * Rabs (phase v f x) + 1) * u.
Proof.
  intros Hv Hf Hx. pose proof u_pos as U0. pose proof tiny_pos as T0. assert (U1 : u <= / 1000000000000000) by (rewrite u_value; lra).
  pose proof PI_RGT_0 as P0. pose proof PI_4 as P4. pose proof PI2_1 as P2.
  assert (Ts : 100000000000000000000000000000 * tiny <= / 10 * u).
  { assert (I1 : / IZR (2 ^ 400) <= / 100000000000000000000000000000) by (apply Rinv_le; [lra|apply IZR_le; intros K; discriminate K]).
    pose proof (tiny_u (/ IZR (2 ^ 400)) (Rle_refl _)) as K. assert (u * / IZR (2 ^ 400) <= u * / 100000000000000000000000000000) by (apply Rmult_le_compat_l; lra). lra. }
  assert (P1 : Rabs (RN PI - PI) <= 11 / 10 * (u * Rabs PI) + 0).
  { pose proof (RN_error PI) as E. rewrite (Rabs_right PI) in * by lra. assert (u * 1 <= u * PI) by (apply Rmult_le_compat_l; lra). lra. }
  pose proof (mul_err (11 / 10) 0 _ _ 2 ltac:(lra) ltac:(lra) P1) as E0. rewrite (Rmult_comm (RN PI)), (Rmult_comm PI) in E0.
  assert (E0' : Rabs (RN (2 * RN PI) - 2 * PI) <= 23 / 10 * (u * Rabs (2 * PI)) + 0).
  { rewrite (Rabs_right (2 * PI)) in * by lra. assert (u * 1 <= u * (2 * PI)) by (apply Rmult_le_compat_l; lra). lra. }
  pose proof (mul_err (23 / 10) 0 _ _ f ltac:(lra) ltac:(lra) E0') as E1.
  assert (E1' : Rabs (RN (RN (2 * RN PI) * f) - 2 * PI * f) <= 34 / 10 * (u * Rabs (2 * PI * f)) + tiny) by lra.
  pose proof (mul_err (34 / 10) tiny _ _ (/ v) ltac:(lra) ltac:(lra) E1') as E2. fold (RN (RN (2 * RN PI) * f) / v) (2 * PI * f / v) in E2.
  assert (Iv : 0 <= Rabs (/ v) <= 1000000).
  { split; [apply Rabs_pos|]. rewrite Rabs_pos_eq by (left; apply Rinv_0_lt_compat; lra). replace 1000000 with (/ / 1000000) by (apply Rinv_inv). apply Rinv_le; lra. }
  assert (Tv : 0 <= tiny * Rabs (/ v) <= tiny * 1000000) by (split; [apply Rmult_le_pos; lra|apply Rmult_le_compat_l; lra]).
  assert (E2' : Rabs (RN (RN (RN (2 * RN PI) * f) / v) - 2 * PI * f / v) <= 45 / 10 * (u * Rabs (2 * PI * f / v)) + 3000000 * tiny) by lra.
  pose proof (mul_err (45 / 10) (3000000 * tiny) _ _ x ltac:(lra) ltac:(lra) E2') as E3. fold (wave_angle v f x) in E3.
  replace (2 * PI * f / v * x) with (phase v f x) in E3 by (unfold phase; field; lra).
  assert (Q : 3000000 * tiny * Rabs x <= 3000000 * tiny * 1000000000) by (apply Rmult_le_compat_l; lra).
  assert (0 <= u * Rabs (phase v f x)) by (apply Rmult_le_pos; auto using Rabs_pos; lra). lra.
Qed.
Definition turn (v f : R) (i : R * complex) : complex := (cos (phase v f (fst i)), sin (phase v f (fst i))).
Lemma turn_abs v f i : cabs (turn v f i) = 1.
Proof. unfold cabs, turn, norm. cbn [fst snd]. pose proof (sin2_cos2 (phase v f (fst i))) as H. unfold Rsqr in H. rewrite Rplus_comm, H. apply sqrt_1. Qed.
Lemma steering_near cos_ sin_ T v f i : good_cos cos_ -> good_sin sin_ ->
  / 1000000 <= v -> Rabs f <= 1000000000 -> Rabs (fst i) <= 1000000000 -> Rabs (phase v f (fst i)) <= T ->
  near ((12 * T + 6) * u) (conj (turn v f i), 1) (steering cos_ sin_ v f (fst i)).
Proof.
  intros Gc Gs Hv Hf Hx HT. pose proof u_pos as U0. pose proof (wave_error v f (fst i) Hv Hf Hx) as E. set (t := phase v f (fst i)) in *. set (t' := wave_angle v f (fst i)) in *.
  assert (D : double (- t')) by (apply Generic_fmt.generic_format_opp, RN_double).
  pose proof (Gc _ D) as Ec. pose proof (Gs _ D) as Es. pose proof (cos_lip (- t') (- t)) as Lc. pose proof (sin_lip (- t') (- t)) as Ls.
  replace (- t' - - t) with (- (t' - t)) in Lc, Ls by ring. rewrite Rabs_Ropp in Lc, Ls. rewrite (cos_neg t) in Lc. rewrite (sin_neg t) in Ls.
  assert (B : (6 * Rabs t + 1) * u <= (6 * T + 1) * u) by (apply Rmult_le_compat_r; lra).
  unfold near, steering. cbn [fst snd]. rewrite Rmult_1_r, cabs_conj, turn_abs. split; [|lra].
  eapply Rle_trans; [apply cabs_sum|]. unfold csub, conj, turn. cbn [fst snd]. fold t t'.
  replace (cos_ (- t') - cos t) with ((cos_ (- t') - cos (- t')) + (cos (- t') - cos t)) by ring.
  replace (sin_ (- t') - - sin t) with ((sin_ (- t') - sin (- t')) + (sin (- t') - - sin t)) by ring.
  pose proof (Rabs_triang (cos_ (- t') - cos (- t')) (cos (- t') - cos t)). pose proof (Rabs_triang (sin_ (- t') - sin (- t')) (sin (- t') - - sin t)). lra.
Qed.

(** ** The power *)
Section Beam.
Variables (weighting : string) (v f : R).
Let c := con weighting.
Let X i := cabs (c i).
Let tu := turn v f.
Definition beam (I : list (R * complex)) : complex := (beam_re weighting f v I, beam_im weighting f v I).
Lemma beam_cons i I : beam (i :: I) = cadd (cmul (tu i) (c i)) (beam I).
Proof. destruct i as [x F]. unfold beam, cadd, cmul, tu, turn, c, con. reflexivity. Qed.
Lemma strength_cons i I : strength weighting (i :: I) = X i + strength weighting I.
Proof. now destruct i as [x F]. Qed.
Lemma row_dot cb Xb I : cdot (map (fun i => (tu i, 1)) I) (map (fun i => (cmul (c i) (conj cb), X i * Xb)) I) = cmul (beam I) (conj cb) /\
  wdot (map (fun i => (tu i, 1)) I) (map (fun i => (cmul (c i) (conj cb), X i * Xb)) I) = strength weighting I * Xb.
Proof.
  induction I as [|i I [IH1 IH2]].
  - cbn [map cdot wdot]. split; [unfold beam, cmul, conj; cbn; f_equal; ring|cbn; ring].
  - cbn [map cdot wdot fst snd]. rewrite IH1, IH2, beam_cons, strength_cons. split; [|ring]. unfold cadd, cmul. cbn [fst snd]. f_equal; ring.
Qed.
Lemma col_dot B G I : cdot (map (fun i => (cmul B (conj (c i)), G * X i)) I) (map (fun i => (conj (tu i), 1)) I) = cmul B (conj (beam I)) /\
  wdot (map (fun i => (cmul B (conj (c i)), G * X i)) I) (map (fun i => (conj (tu i), 1)) I) = G * strength weighting I.
Proof.
  induction I as [|i I [IH1 IH2]].
  - cbn [map cdot wdot]. split; [unfold beam, cmul, conj; cbn; f_equal; ring|cbn; ring].
  - cbn [map cdot wdot fst snd]. rewrite IH1, IH2, beam_cons, strength_cons. split; [|ring]. unfold cadd, cmul, conj. cbn [fst snd]. f_equal; ring.
Qed.
Lemma beam_size I : cabs (beam I) <= strength weighting I.
Proof.
  induction I as [|i I IH]; [eapply Rle_trans; [apply cabs_sum|]; cbn; rewrite Rabs_R0; lra|]. rewrite beam_cons, strength_cons.
  eapply Rle_trans; [apply cabs_add|]. rewrite cabs_mul. unfold tu. rewrite turn_abs. fold (X i). lra.
Qed.
Lemma strength_low I i : Forall (fit weighting) I -> In i I -> base <= strength weighting I.
Proof.
  assert (P : forall J, 0 <= strength weighting J).
  { induction J as [|j J IH]; [cbn; lra|]. rewrite strength_cons. pose proof (cabs_pos (c j)). unfold X. lra. }
  induction I as [|j I IH]; intros Fs Hi; [destruct Hi|]. rewrite strength_cons. inversion_clear Fs as [|? ? F1 F2]. pose proof (con_low weighting j F1) as L.
  specialize (P I). unfold X, c. lra.
Qed.
Variables (cos_ sin_ : R -> R) (hypot_ : R -> R -> R) (T : R).
Hypotheses (Gc : good_cos cos_) (Gs : good_sin sin_) (Gh : good_hypot hypot_) (Hv : / 1000000 <= v) (Hf : Rabs f <= 1000000000) (HT : 0 <= T <= 1000000000).
Definition fine (i : R * complex) : Prop := fit weighting i /\ Rabs (fst i) <= 1000000000 /\ Rabs (phase v f (fst i)) <= T.
Let s (i : R * complex) := steering cos_ sin_ v f (fst i).
Let g (i : R * complex) : R * complex := (fst i, spectrum hypot_ weighting (snd i)).
Let st := (12 * T + 6) * u.
Let ro n := st + 21 * u + st * (21 * u) + adding n.
Lemma st_small : 0 <= st <= / 100000.
Proof.
  unfold st. pose proof u_pos as U0. assert (U1 : u <= / 1000000000000000) by (rewrite u_value; lra). split; [apply Rmult_le_pos; lra|].
  apply Rle_trans with (12000000006 * u); [apply Rmult_le_compat_r; lra|]. rewrite u_value. lra.
Qed.
Lemma adding_small n : 0 <= n <= 500000000 -> 0 <= adding n <= / 1000000.
Proof. intros H. unfold adding. pose proof u_pos as U0. split; [apply Rmult_le_pos; lra|]. apply Rle_trans with (2050000003 * u); [apply Rmult_le_compat_r; lra|]. rewrite u_value. lra. Qed.
Lemma steers I : Forall fine I -> Forall2 (near st) (map (fun i => (conj (tu i), 1)) I) (map s I) /\ Forall2 (near st) (map (fun i => (tu i, 1)) I) (map conj (map s I)).
Proof.
  induction 1 as [|i I (Hi & Hx & Hp) H [IH1 IH2]]; [split; constructor|].
  pose proof (steering_near cos_ sin_ T v f i Gc Gs Hv Hf Hx Hp) as N. fold st in N. cbn [map]. split; constructor; auto.
  apply near_conj in N. replace (conj (conj (turn v f i))) with (tu i) in N; [exact N|]. unfold conj, tu, turn. cbn. f_equal. ring.
Qed.
Lemma columns b : forall I col, Forall fine I -> fit weighting b ->
  Forall2 (fun a z => exists m, correlation_of (snd a) (snd (g b)) m /\ z = weighted (pair_weight weighting (fst a) (fst (g b))) m) (map g I) col ->
  Forall2 (near (21 * u)) (map (fun i => (cmul (c i) (conj (c b)), X i * X b)) I) col.
Proof.
  induction I as [|i I IH]; intros col HI Hb H; cbn [map] in *; inversion H as [|? z ? col' (m & Hm & ->) H']; subst; constructor.
  - inversion_clear HI as [|? ? (Hi & _) _]. exact (entry_near hypot_ weighting i b m Gh Hi Hb Hm).
  - apply IH; auto. now inversion_clear HI.
Qed.
Lemma row_sized b I : Forall fine I -> fit weighting b -> sized (map (fun i => (tu i, 1)) I) (map (fun i => (cmul (c i) (conj (c b)), X i * X b)) I).
Proof.
  intros H Hb. induction H as [|i I (Hi & _) _ IH]; cbn [map sized fst snd]; [exact Logic.I|]. split; [|exact IH]. rewrite Rmult_1_l. apply base_floor; now apply con_low.
Qed.
Lemma entry_error I b r : Forall fine I -> fit weighting b -> INR (List.length I) <= 500000000 ->
  entry_of weighting (map s I) (map g I) (g b) r -> near (ro (INR (List.length I))) (cmul (beam I) (conj (c b)), strength weighting I * X b) r.
Proof.
  intros HI Hb Hn (col & Hc & Hd). pose proof st_small as S. pose proof u_pos as U0. assert (U1 : u <= / 1000000000000000) by (rewrite u_value; lra).
  destruct (steers I HI) as [_ N2]. pose proof (columns b I col HI Hb Hc) as N1.
  destruct (dot_error st (21 * u) _ _ _ _ r ltac:(lra) ltac:(lra) N2 N1 (row_sized b I HI Hb) ltac:(now rewrite !map_length) ltac:(now rewrite map_length) Hd) as (E & _).
  destruct (row_dot (c b) (X b) I) as [Q1 Q2]. rewrite Q1, Q2, map_length in E. unfold near. cbn [fst snd]. split; [exact E|].
  rewrite cabs_mul, cabs_conj. apply Rmult_le_compat_r; [apply cabs_pos|apply beam_size].
Qed.
Lemma beam_near I p : Forall fine I -> INR (List.length I) <= 500000000 ->
  (exists rs, Forall2 (entry_of weighting (map s I) (map g I)) (map g I) rs /\ dot_of rs (map s I) p) ->
  cabs (csub p (cabs (beam I) * cabs (beam I), 0)) <= (24.1 * T + 8.3 * INR (List.length I) + 38) * u * (strength weighting I * strength weighting I) /\ double (fst p) /\ double (snd p).
Proof.
  intros HI Hn (rs & Hr & Hd). pose proof st_small as S. pose proof u_pos as U0. assert (U1 : u <= / 1000000000000000) by (rewrite u_value; lra).
  set (n := INR (List.length I)) in *. assert (n0 : 0 <= n) by apply pos_INR. pose proof (adding_small n ltac:(lra)) as A.
  assert (Rs : 0 <= ro n <= / 10000).
  { unfold ro. assert (0 <= st * (21 * u) <= / 100000 * (21 * u)) by (split; [apply Rmult_le_pos; lra|apply Rmult_le_compat_r; lra]). lra. }
  set (B := beam I) in *. set (G := strength weighting I) in *.
  assert (N1 : Forall2 (near (ro n)) (map (fun i => (cmul B (conj (c i)), G * X i)) I) rs).
  { assert (K : forall J, (forall j, In j J -> In j I) -> forall rs, Forall2 (entry_of weighting (map s I) (map g I)) (map g J) rs ->
      Forall2 (near (ro n)) (map (fun i => (cmul B (conj (c i)), G * X i)) J) rs).
    { induction J as [|j J IH]; intros HJ rs0 H0; cbn [map] in *; inversion H0; subst; constructor.
      - apply entry_error; auto. assert (Ij : In j I) by (apply HJ; now left). now destruct (proj1 (Forall_forall _ _) HI j Ij).
      - apply IH; auto. intros k Hk. apply HJ. now right. }
    apply (K I); auto. }
  destruct (steers I HI) as [N2 _].
  assert (Sz : sized (map (fun i => (cmul B (conj (c i)), G * X i)) I) (map (fun i => (conj (tu i), 1)) I)).
  { assert (K : forall J, (forall j, In j J -> In j I) -> sized (map (fun i => (cmul B (conj (c i)), G * X i)) J) (map (fun i => (conj (tu i), 1)) J)).
    { induction J as [|j J IH]; intros HJ; cbn [map sized fst snd]; [exact Logic.I|]. split; [|apply IH; intros k Hk; apply HJ; now right].
      assert (Ij : In j I) by (apply HJ; now left). rewrite Rmult_1_r.
      assert (Fi : Forall (fit weighting) I) by (eapply Forall_impl; [|exact HI]; now intros a []).
      apply base_floor; [now apply (strength_low I j)|]. apply con_low. exact (proj1 (Forall_forall _ _) Fi j Ij). }
    apply K; auto. }
  destruct (dot_error (ro n) st _ _ _ _ p ltac:(lra) ltac:(lra) N1 N2 Sz ltac:(now rewrite !map_length) ltac:(now rewrite map_length) Hd) as (E & D). split; [|exact D].
  destruct (col_dot B G I) as [Q1 Q2]. rewrite Q1, Q2, map_length in E. fold n G B in E.
  assert (P : cmul B (conj B) = (cabs B * cabs B, 0)).
  { unfold cmul, conj, cabs, norm. cbn [fst snd]. f_equal; [|ring]. rewrite sqrt_sqrt; [ring|]. pose proof (Rle_0_sqr (fst B)). pose proof (Rle_0_sqr (snd B)). unfold Rsqr in *. lra. }
  rewrite P in E. eapply Rle_trans; [exact E|]. apply Rmult_le_compat_r; [apply Rle_0_sqr|].
  assert (Q : ro n * st <= / 10000 * st) by (apply Rmult_le_compat_r; lra). assert (Q' : st * (21 * u) <= / 100000 * (21 * u)) by (apply Rmult_le_compat_r; lra).
  unfold ro in *. set (ad := adding n) in *. assert (Ad : ad = (41 / 10 * n + 21 / 10) * u) by reflexivity. assert (St : st = (12 * T + 6) * u) by reflexivity.
  assert (nu : 0 <= n * u) by (apply Rmult_le_pos; lra). assert (Tu : 0 <= T * u) by (apply Rmult_le_pos; lra). lra.
Qed.
End Beam.
Lemma map_steer cos_ sin_ v f xs : forall Fs : list complex, List.length Fs = List.length xs ->
  map (steering cos_ sin_ v f) xs = map (fun i : R * complex => steering cos_ sin_ v f (fst i)) (combine xs Fs).
Proof. induction xs as [|x xs IH]; intros [|F Fs] L; try discriminate; [reflexivity|]. cbn. f_equal. apply IH. now injection L. Qed.
Lemma combine_spectrum hypot_ weighting xs : forall Fs : list complex,
  combine xs (map (spectrum hypot_ weighting) Fs) = map (fun i : R * complex => (fst i, spectrum hypot_ weighting (snd i))) (combine xs Fs).
Proof. induction xs as [|x xs IH]; intros [|F Fs]; try reflexivity. cbn. f_equal. apply IH. Qed.
Lemma beam_power_abs weighting xs Fs f v : beam_power weighting xs Fs f v = cabs (beam weighting v f (combine xs Fs)) * cabs (beam weighting v f (combine xs Fs)).
Proof.
  unfold beam_power, cabs, norm, beam. cbn [fst snd]. rewrite sqrt_sqrt; [reflexivity|].
  pose proof (Rle_0_sqr (beam_re weighting f v (combine xs Fs))). pose proof (Rle_0_sqr (beam_im weighting f v (combine xs Fs))). unfold Rsqr in *. lra.
Qed.
Lemma power_bounds weighting xs Fs f v : 0 <= beam_power weighting xs Fs f v <= in_phase weighting xs Fs.
Proof.
  rewrite beam_power_abs. split; [apply Rle_0_sqr|]. unfold in_phase. pose proof (beam_size weighting v f (combine xs Fs)). apply Rmult_le_compat; auto using cabs_pos.
Qed.
Lemma beam_power_error cos_ sin_ hypot_ weighting T xs Fs f v p : good_cos cos_ -> good_sin sin_ -> good_hypot hypot_ -> usual xs Fs f v -> / 1000000 <= v ->
  off_source weighting xs -> INR (List.length xs) <= 500000000 -> 0 <= T <= 1000000000 -> Forall (fun x => Rabs (phase v f x) <= T) xs ->
  beam_of cos_ sin_ hypot_ weighting xs Fs f v p ->
  let e := beam_error T (List.length xs) * in_phase weighting xs Fs in
  Rabs (fst p - beam_power weighting xs Fs f v) <= e /\ Rabs (snd p) <= e /\ Rabs (hypot_ (fst p) (snd p) - beam_power weighting xs Fs f v) <= e.
Proof.
  intros Gc Gs Gh (Hx & _ & L & HF & Hf & _) Hv Ho Hn HT Hp Hb e. pose proof u_pos as U0. pose proof tiny_pos as T0. assert (U1 : u <= / 1000000000000000) by (rewrite u_value; lra).
  set (I := combine xs Fs) in *. assert (LI : List.length I = List.length xs) by (unfold I; rewrite combine_length; lia).
  assert (Hn' : INR (List.length I) <= 500000000) by (rewrite LI; exact Hn).
  assert (Fi : Forall (fine weighting v f T) I).
  { apply Forall_forall. intros [x F] Hi. pose proof (in_combine_l _ _ _ _ Hi) as I1. pose proof (in_combine_r _ _ _ _ Hi) as I2.
    rewrite Forall_forall in Hx, HF, Hp. destruct (Hx x I1) as [_ X]. destruct (HF F I2) as (D1 & D2 & M). unfold fine, fit, sound. cbn [fst snd].
    split; [split; [auto|]|split; [exact X|exact (Hp x I1)]]. intros W. pose proof (Ho W) as O. rewrite Forall_forall in O. now apply O. }
  unfold beam_of in Hb. cbv zeta in Hb. rewrite (map_steer cos_ sin_ v f xs Fs L), combine_spectrum in Hb. fold I in Hb.
  destruct (beam_near weighting v f cos_ sin_ hypot_ T Gc Gs Gh Hv Hf HT I p Fi Hn' Hb) as (E & D1 & D2).
  pose proof (beam_power_abs weighting xs Fs f v) as Q. fold I in Q. rewrite <- Q in E. clear Q. change (@List.length (R * complex) I) with (@List.length (R * (R * R)) I) in E. rewrite LI in E. pose proof (power_bounds weighting xs Fs f v) as PB. unfold e, beam_error. unfold in_phase in *. fold I in PB |- *.
  set (G2 := strength weighting I * strength weighting I) in *. set (P := beam_power weighting xs Fs f v) in *. set (n := INR (List.length xs)) in *.
  assert (n0 : 0 <= n) by apply pos_INR. assert (uG : 0 <= u * G2) by (apply Rmult_le_pos; lra). assert (uGs : u * G2 <= / 1000000000000000 * G2) by (apply Rmult_le_compat_r; lra).
  set (a := (24.1 * T + 8.3 * n + 38) * u) in *.
  assert (A0 : 0 <= a) by (apply Rmult_le_pos; lra).
  assert (K : a * G2 + 3 * (u * G2) <= (25 * T + 9 * n + 41) * u * G2).
  { assert (0 <= T * (u * G2)) by (apply Rmult_le_pos; lra). assert (0 <= n * (u * G2)) by (apply Rmult_le_pos; lra). unfold a. lra. }
  destruct (norm_part (fst (csub p (P, 0))) (snd (csub p (P, 0)))) as [N1 N2]. fold (cabs (csub p (P, 0))) in N1, N2. cbn [csub fst snd] in N1, N2. rewrite Rminus_0_r in N2.
  split; [lra|]. split; [lra|].
  pose proof (Gh _ _ D1 D2) as H. fold (cabs p) in H.
  assert (C : Rabs (cabs p - P) <= a * G2).
  { pose proof (cabs_near p (P, 0)) as C1. pose proof (cabs_near (P, 0) p) as C2.
    assert (Z : cabs (P, 0) = P). { unfold cabs, norm. cbn [fst snd]. rewrite Rmult_0_l, Rplus_0_r. apply sqrt_square. lra. }
    assert (Y : cabs (csub (P, 0) p) = cabs (csub p (P, 0))). { unfold cabs, csub, norm. cbn. f_equal. ring. }
    rewrite Z in *. rewrite Y in C2. apply Rabs_le. lra. }
  assert (Fl : floor <= G2).
  { assert (NI : I <> []).
    { intros Q. assert (X : xs = []) by (apply length_zero_iff_nil; rewrite <- LI, Q; reflexivity). rewrite X in Hb. destruct Hb as (rs & _ & (t & Pt & _) & _). apply Permutation_length in Pt. pose proof (leaves_length t) as L1. rewrite Pt in L1.
      clear -L1. unfold products_re in L1. destruct rs; cbn in L1; lia. }
    assert (Ei : exists i, In i I) by (revert NI; generalize I; intros [|i J] H0; [easy|exists i; now left]). destruct Ei as [i Hi].
    assert (Fw : Forall (fit weighting) I) by (eapply Forall_impl; [|exact Fi]; now intros z []).
    pose proof (strength_low weighting I i Fw Hi) as S. now apply base_floor. }
  pose proof (tiny_floor G2 Fl) as TF. assert (AG : 0 <= a * G2 <= 1 * G2).
  { split; [apply Rmult_le_pos; lra|]. apply Rmult_le_compat_r; [lra|]. unfold a. apply Rle_trans with (100000000000 * u); [apply Rmult_le_compat_r; lra|]. rewrite u_value. lra. }
  assert (Cp : cabs p <= P + a * G2) by (apply Rabs_le_inv in C; lra).
  assert (Q : u * cabs p <= u * (105 / 100 * G2)).
  { apply Rmult_le_compat_l; [lra|]. assert (a * G2 <= / 20 * G2); [|lra]. apply Rmult_le_compat_r; [lra|]. unfold a. apply Rle_trans with (100000000000 * u); [apply Rmult_le_compat_r; lra|]. rewrite u_value. lra. }
  replace (hypot_ (fst p) (snd p) - P) with ((hypot_ (fst p) (snd p) - cabs p) + (cabs p - P)) by ring. eapply Rle_trans; [apply Rabs_triang|]. lra.
Qed.

(** There is a result for every array. *)
Lemma some_sum l : l <> [] -> exists s, sum_of l s.
Proof. intros H. destruct (some_tree l H) as [t Ht]. exists (fsum t), t. split; [rewrite Ht; apply Permutation_refl|reflexivity]. Qed.
Lemma some_dot a b : a <> [] -> b <> [] -> exists z, dot_of a b z.
Proof.
  intros Ha Hb. destruct a as [|x a], b as [|y b]; try easy.
  destruct (some_sum (products_re (x :: a) (y :: b)) ltac:(discriminate)) as [s Hs]. destruct (some_sum (products_im (x :: a) (y :: b)) ltac:(discriminate)) as [s' Hs'].
  now exists (s, s').
Qed.
Lemma some_beam cos_ sin_ hypot_ weighting xs Fs f v : xs <> [] -> List.length Fs = List.length xs -> exists p, beam_of cos_ sin_ hypot_ weighting xs Fs f v p.
Proof.
  intros Hx L. unfold beam_of. cbv zeta. set (gs := combine xs _).
  assert (Lg : List.length gs = List.length xs) by (unfold gs; rewrite combine_length, map_length; lia).
  assert (Hg : gs <> []) by (intros Q; rewrite Q in Lg; destruct xs; easy). set (st := map (steering cos_ sin_ v f) xs).
  assert (Hs : st <> []) by (unfold st; destruct xs; easy).
  assert (C : forall l b, exists col, Forall2 (fun a z => exists m, correlation_of (snd a) (snd b) m /\ z = weighted (pair_weight weighting (fst a) (fst b)) m) l col).
  { induction l as [|a l IH]; intros b; [exists []; constructor|]. destruct (IH b) as [col Hc]. destruct (some_dot [snd a] [conj (snd b)] ltac:(easy) ltac:(easy)) as [m Hm].
    exists (weighted (pair_weight weighting (fst a) (fst b)) m :: col). constructor; [now exists m|exact Hc]. }
  assert (En : forall b, exists r, entry_of weighting st gs b r).
  { intros b. destruct (C gs b) as [col Hc]. assert (Nc : col <> []) by (intros Q; rewrite Q in Hc; inversion Hc as [E|]; now apply Hg).
    assert (Ns : map conj st <> []) by (intros Q; apply map_eq_nil in Q; contradiction). destruct (some_dot (map conj st) col Ns Nc) as [r Hr]. exists r, col. now split. }
  assert (Rs : forall l, exists rs, Forall2 (entry_of weighting st gs) l rs).
  { induction l as [|b l [rs IH]]; [exists []; constructor|]. destruct (En b) as [r Hr]. exists (r :: rs). now constructor. }
  destruct (Rs gs) as [rs Hr]. assert (Nr : rs <> []) by (intros Q; rewrite Q in Hr; inversion Hr as [E|]; now apply Hg).
  destruct (some_dot rs st Nr Hs) as [p Hp]. exists p, rs. now split.
Qed.
