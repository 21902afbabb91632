(* Proofs on stacking and on normalised traces with infinities, NaN and overflow. *)
From Coq Require Import Lra Lia.
From Verif Require Import FloatModel FloatSpec FloatProofs FloatNormProofs FloatTracesModel FloatTracesSpec FloatTracesProofs FloatIeeeModel FloatIeeeSpec.
Local Open Scope R_scope.
Local Notation double := FloatModel.double.

Lemma round_RN : forall x, round radix2 (SpecFloat.fexp 53 1024) (round_mode mode_NE) x = RN x.
Proof. reflexivity. Qed.
Lemma double_B2R : forall x : b64, double (B2R x).
Proof. intros x. exact (generic_format_B2R 53 1024 x). Qed.
Lemma max_below : bpow radix2 1024 = IZR (2 ^ 1024).
Proof. symmetry. apply (IZR_Zpower radix2 1024). lia. Qed.

Lemma of_Z_spec : forall n, (1 <= n <= 2 ^ 53)%Z -> is_finite (of_Z n) = true /\ B2R (of_Z n) = IZR n /\ Bsign (of_Z n) = false.
Proof.
  intros n H. pose proof (binary_normalize_correct 53 1024 prec64 emax64 mode_NE n 0 false) as C. cbv zeta in C.
  rewrite round_RN in C. fold (of_Z n) in C.
  assert (E : F2R (Float radix2 n 0) = IZR n) by (unfold F2R; cbn; lra). rewrite E in C.
  assert (D : RN (IZR n) = IZR n) by (apply RN_int; lia). rewrite D in C.
  assert (P : 0 < IZR n) by (apply IZR_lt; lia).
  rewrite Rlt_bool_true in C.
  - destruct C as [C1 [C2 C3]]. repeat split; auto. rewrite C3, Rcompare_Gt by lra. reflexivity.
  - rewrite Rabs_pos_eq by lra. rewrite max_below. apply IZR_lt. apply Z.le_lt_trans with (2 ^ 53)%Z; [lia|reflexivity].
Qed.
Lemma of_Z_shape : forall n, (1 <= n <= 2 ^ 53)%Z -> exists m e H, of_Z n = B754_finite false m e H.
Proof.
  intros n H. destruct (of_Z_spec n H) as [F [V S]]. assert (P : 0 < IZR n) by (apply IZR_lt; lia).
  destruct (of_Z n) as [s|s| |s m e B]; cbn in F, V, S; try discriminate; [lra|]. subst s. eauto.
Qed.

(** ** Overflow *)
Lemma scaled_double : forall e n, (-1074 <= e)%Z -> (1 <= n <= 2 ^ 53)%Z -> double (bpow radix2 e * IZR n).
Proof.
  intros e n He Hn. destruct (Z.eq_dec n (2 ^ 53)) as [->|N].
  - replace (bpow radix2 e * IZR (2 ^ 53)) with (bpow radix2 (e + 53)).
    + apply generic_format_bpow. unfold fexp, FLT_exp. lia.
    + rewrite bpow_plus. f_equal.
  - apply generic_format_FLT. exists (Float radix2 n e); cbn -[Z.pow].
    + unfold F2R. cbn. ring.
    + rewrite Z.abs_eq by lia. change (Zpower radix2 53) with (2 ^ 53)%Z. lia.
    + exact He.
Qed.
Lemma RN_abs_le : forall x y, double y -> Rabs x <= y -> Rabs (RN x) <= y.
Proof. intros x y D H. apply abs_round_le_generic; auto; [apply FLT_exp_valid; reflexivity|apply valid_rnd_N]. Qed.

Lemma mult_ok : forall x y : b64, is_finite x = true -> is_finite y = true -> Rabs (RN (B2R x * B2R y)) < bpow radix2 1024 ->
  is_finite (bmult x y) = true /\ B2R (bmult x y) = RN (B2R x * B2R y).
Proof.
  intros x y Fx Fy H. pose proof (Bmult_correct 53 1024 prec64 emax64 mode_NE x y) as C. rewrite round_RN in C.
  rewrite Rlt_bool_true in C by exact H. destruct C as [C1 [C2 _]]. rewrite Fx, Fy in C2. split; [exact C2|exact C1].
Qed.
Lemma plus_ok : forall x y : b64, is_finite x = true -> is_finite y = true -> Rabs (RN (B2R x + B2R y)) < bpow radix2 1024 ->
  is_finite (bplus x y) = true /\ B2R (bplus x y) = RN (B2R x + B2R y).
Proof.
  intros x y Fx Fy H. pose proof (Bplus_correct 53 1024 prec64 emax64 mode_NE x y Fx Fy) as C. rewrite round_RN in C.
  rewrite Rlt_bool_true in C by exact H. destruct C as [C1 [C2 _]]. split; [exact C2|exact C1].
Qed.
Lemma div_ok : forall x y : b64, is_finite x = true -> B2R y <> 0 -> Rabs (RN (B2R x / B2R y)) < bpow radix2 1024 ->
  is_finite (bdiv x y) = true /\ B2R (bdiv x y) = RN (B2R x / B2R y).
Proof.
  intros x y Fx Ny H. pose proof (Bdiv_correct 53 1024 prec64 emax64 mode_NE x y Ny) as C. rewrite round_RN in C.
  rewrite Rlt_bool_true in C by exact H. destruct C as [C1 [C2 _]]. rewrite Fx in C2. split; [exact C2|exact C1].
Qed.

Lemma stack2_ok : forall e a n b m, (-1074 <= e)%Z -> (1 <= n)%Z -> (1 <= m)%Z -> (n + m <= 2 ^ 53)%Z ->
  bpow radix2 e * IZR (n + m) < bpow radix2 1024 -> within e a -> within e b ->
  within e (stack2 a n b m) /\ B2R (stack2 a n b m) = FloatModel.stack2 (B2R a) n (B2R b) m.
Proof.
  intros e a n b m He Hn Hm Ht Ho [Fa Ha] [Fb Hb].
  destruct (of_Z_spec n ltac:(lia)) as [Fn [Vn _]]. destruct (of_Z_spec m ltac:(lia)) as [Fm [Vm _]].
  destruct (of_Z_spec (n + m) ltac:(lia)) as [Fs [Vs _]].
  pose proof (bpow_gt_0 radix2 e) as Pe.
  assert (Pn : 1 <= IZR n) by (apply IZR_le; lia). assert (Pm : 1 <= IZR m) by (apply IZR_le; lia).
  assert (Ps : IZR (n + m) = IZR n + IZR m) by apply plus_IZR.
  assert (A1 : Rabs (RN (B2R a * IZR n)) <= bpow radix2 e * IZR n).
  { apply RN_abs_le; [apply scaled_double; lia|]. rewrite Rabs_mult, (Rabs_pos_eq (IZR n)) by lra. apply Rmult_le_compat_r; lra. }
  assert (B1 : Rabs (RN (B2R b * IZR m)) <= bpow radix2 e * IZR m).
  { apply RN_abs_le; [apply scaled_double; lia|]. rewrite Rabs_mult, (Rabs_pos_eq (IZR m)) by lra. apply Rmult_le_compat_r; lra. }
  assert (Ln : bpow radix2 e * IZR n <= bpow radix2 e * IZR (n + m)) by (apply Rmult_le_compat_l; lra).
  assert (Lm : bpow radix2 e * IZR m <= bpow radix2 e * IZR (n + m)) by (apply Rmult_le_compat_l; lra).
  destruct (mult_ok a (of_Z n)) as [Xf Xv]; auto; [rewrite Vn; lra|]. rewrite Vn in Xv.
  destruct (mult_ok b (of_Z m)) as [Yf Yv]; auto; [rewrite Vm; lra|]. rewrite Vm in Yv.
  assert (S1 : Rabs (RN (RN (B2R a * IZR n) + RN (B2R b * IZR m))) <= bpow radix2 e * IZR (n + m)).
  { apply RN_abs_le; [apply scaled_double; lia|]. eapply Rle_trans; [apply Rabs_triang|]. rewrite Ps. lra. }
  destruct (plus_ok (bmult a (of_Z n)) (bmult b (of_Z m))) as [Sf Sv]; auto; [rewrite Xv, Yv; lra|]. rewrite Xv, Yv in Sv.
  assert (Q1 : Rabs (RN (RN (RN (B2R a * IZR n) + RN (B2R b * IZR m)) / IZR (n + m))) <= bpow radix2 e).
  { apply RN_abs_le.
    - replace (bpow radix2 e) with (bpow radix2 e * IZR 1) by lra. apply scaled_double; lia.
    - unfold Rdiv. rewrite Rabs_mult, (Rabs_pos_eq (/ _)) by (apply Rlt_le, Rinv_0_lt_compat; lra).
      apply Rle_trans with (bpow radix2 e * IZR (n + m) * / IZR (n + m)).
      + apply Rmult_le_compat_r; [apply Rlt_le, Rinv_0_lt_compat; lra|exact S1].
      + rewrite Rmult_assoc, Rinv_r by lra. lra. }
  assert (E1 : bpow radix2 e <= bpow radix2 e * IZR (n + m)).
  { rewrite <- (Rmult_1_r (bpow radix2 e)) at 1. apply Rmult_le_compat_l; lra. }
  destruct (div_ok (bplus (bmult a (of_Z n)) (bmult b (of_Z m))) (of_Z (n + m))) as [Qf Qv]; auto;
    [rewrite Vs; lra|rewrite Sv, Vs; lra|]. rewrite Sv, Vs in Qv.
  split; [split|]; [exact Qf|unfold stack2; rewrite Qv; exact Q1|exact Qv].
Qed.

Lemma stacks_cons : forall x n l, stacks ((x, n) :: l) = (n + stacks l)%Z.
Proof. reflexivity. Qed.
Lemma stacks_nonneg : forall l, Forall (fun r => (1 <= snd r)%Z) l -> (0 <= stacks l)%Z.
Proof. induction 1 as [|[x n] l H _ IH]; [reflexivity|]. rewrite stacks_cons. cbn in H. lia. Qed.

Lemma stack_all_ok : forall e l a n, (-1074 <= e)%Z -> counted ((a, n) :: l) -> bpow radix2 e * IZR (stacks ((a, n) :: l)) < bpow radix2 1024 ->
  Forall (fun r => within e (fst r)) ((a, n) :: l) ->
  within e (fst (stack_all a n l)) /\ snd (stack_all a n l) = stacks ((a, n) :: l) /\
  B2R (fst (stack_all a n l)) = fst (FloatModel.stack_all (B2R a) n (reals l)).
Proof.
  intros e l. induction l as [|[b m] l IH]; intros a n He [Hc Ht] Ho Hw.
  - rewrite stacks_cons. change (stacks []) with 0%Z. rewrite Z.add_0_r. inversion Hw; subst. auto.
  - inversion Hc as [|? ? Hn Hc']; subst. inversion Hc' as [|? ? Hm Hl]; subst. cbn in Hn, Hm.
    inversion Hw as [|? ? Wa Hw']; subst. inversion Hw' as [|? ? Wb Hl']; subst. cbn in Wa, Wb.
    rewrite !stacks_cons in *. pose proof (stacks_nonneg l Hl) as P. cbn [fst snd] in *.
    pose proof (bpow_gt_0 radix2 e) as Pe.
    destruct (stack2_ok e a n b m) as [W V]; auto; [lia| |].
    { eapply Rle_lt_trans; [|exact Ho]. apply Rmult_le_compat_l; [lra|]. apply IZR_le. lia. }
    cbn [stack_all reals map fst snd FloatModel.stack_all]. fold (reals l). rewrite <- V.
    replace (n + (m + stacks l))%Z with (stacks ((stack2 a n b m, n + m)%Z :: l)) in * by (rewrite stacks_cons; lia).
    apply (IH (stack2 a n b m) (n + m)%Z); auto.
    + split; [constructor; [cbn; lia|exact Hl]|exact Ht].
Qed.

(** ** Samples that are not finite *)
Lemma bmult_bad : forall x m e H, is_finite x = false -> is_finite (bmult x (B754_finite false m e H)) = false.
Proof. intros [s|s| |s m' e' H'] m e H F; try discriminate; reflexivity. Qed.
Lemma bplus_bad_l : forall x y, is_finite x = false -> is_finite (bplus x y) = false.
Proof. intros [s|s| |s m e H] [s'|s'| |s' m' e' H'] F; try discriminate; try reflexivity; destruct s, s'; reflexivity. Qed.
Lemma bplus_bad_r : forall x y, is_finite y = false -> is_finite (bplus x y) = false.
Proof. intros [s|s| |s m e H] [s'|s'| |s' m' e' H'] F; try discriminate; try reflexivity; destruct s, s'; reflexivity. Qed.
Lemma bdiv_bad : forall x m e H, is_finite x = false -> is_finite (bdiv x (B754_finite false m e H)) = false.
Proof. intros [s|s| |s m' e' H'] m e H F; try discriminate; reflexivity. Qed.
Lemma stack2_bad : forall a n b m, (1 <= n)%Z -> (1 <= m)%Z -> (n + m <= 2 ^ 53)%Z ->
  is_finite a = false \/ is_finite b = false -> is_finite (stack2 a n b m) = false.
Proof.
  intros a n b m Hn Hm Ht H. unfold stack2.
  destruct (of_Z_shape n ltac:(lia)) as [m1 [e1 [H1 ->]]]. destruct (of_Z_shape m ltac:(lia)) as [m2 [e2 [H2 ->]]].
  destruct (of_Z_shape (n + m) ltac:(lia)) as [m3 [e3 [H3 ->]]]. apply bdiv_bad. destruct H as [H|H].
  - apply bplus_bad_l, bmult_bad, H.
  - apply bplus_bad_r, bmult_bad, H.
Qed.
Lemma stack_all_bad : forall l a n, counted ((a, n) :: l) -> (exists r, In r ((a, n) :: l) /\ is_finite (fst r) = false) ->
  is_finite (fst (stack_all a n l)) = false.
Proof.
  induction l as [|[b m] l IH]; intros a n [Hc Ht] [r [I F]].
  - destruct I as [<-|[]]. exact F.
  - inversion Hc as [|? ? Hn Hc']; subst. inversion Hc' as [|? ? Hm Hl]; subst. cbn in Hn, Hm.
    rewrite !stacks_cons in Ht. pose proof (stacks_nonneg l Hl) as P. cbn [stack_all].
    apply IH; [split; [constructor; [cbn; lia|exact Hl]|rewrite stacks_cons; lia]|].
    destruct I as [<-|[<-|I]].
    + exists (stack2 a n b m, n + m)%Z. split; [left; reflexivity|]. apply stack2_bad; auto; lia.
    + exists (stack2 a n b m, n + m)%Z. split; [left; reflexivity|]. apply stack2_bad; auto; lia.
    + exists r. split; [right; exact I|exact F].
Qed.

(** A NaN stays. *)
Lemma stack2_nan : forall a n b m, is_nan a = true \/ is_nan b = true -> is_nan (stack2 a n b m) = true.
Proof.
  intros a n b m H. unfold stack2. destruct H as [H|H].
  - destruct a; try discriminate. cbn. destruct (bmult b (of_Z m)); reflexivity.
  - destruct b; try discriminate. replace (bmult B754_nan (of_Z m)) with (B754_nan : b64) by (destruct (of_Z m); reflexivity).
    destruct (bmult a (of_Z n)); reflexivity.
Qed.
Lemma stack_all_nan : forall l a n, (exists r, In r ((a, n) :: l) /\ is_nan (fst r) = true) -> is_nan (fst (stack_all a n l)) = true.
Proof.
  induction l as [|[b m] l IH]; intros a n [r [I F]].
  - destruct I as [<-|[]]. exact F.
  - cbn [stack_all]. apply IH. destruct I as [<-|[<-|I]].
    + eexists. split; [left; reflexivity|]. apply stack2_nan. auto.
    + eexists. split; [left; reflexivity|]. apply stack2_nan. auto.
    + exists r. split; [right; exact I|exact F].
Qed.

(** ** The order of two records *)
Lemma bplus_comm : forall x y, bplus x y = bplus y x.
Proof.
  intros x y. destruct (is_finite x) eqn:Fx; [destruct (is_finite y) eqn:Fy|].
  - pose proof (Bplus_correct 53 1024 prec64 emax64 mode_NE x y Fx Fy) as C.
    pose proof (Bplus_correct 53 1024 prec64 emax64 mode_NE y x Fy Fx) as D.
    rewrite (Rplus_comm (B2R y)) in D. destruct (Rlt_bool _ _).
    + destruct C as [C1 [C2 C3]]. destruct D as [D1 [D2 D3]]. apply B2R_Bsign_inj; auto.
      * unfold bplus. rewrite C1, D1. reflexivity.
      * unfold bplus. rewrite C3, D3. destruct (Rcompare _ _); auto. apply Bool.andb_comm.
    + destruct C as [C1 C2]. destruct D as [D1 _]. apply B2SF_inj. unfold bplus. rewrite C1, D1, C2. reflexivity.
  - destruct x as [s|s| |s m e H], y as [s'|s'| |s' m' e' H']; try discriminate; try reflexivity; destruct s, s'; reflexivity.
  - destruct x as [s|s| |s m e H], y as [s'|s'| |s' m' e' H']; try discriminate; try reflexivity; destruct s, s'; reflexivity.
Qed.
Lemma stack2_swap : forall a n b m, stack2 a n b m = stack2 b m a n.
Proof. intros a n b m. unfold stack2. rewrite bplus_comm, Z.add_comm. reflexivity. Qed.

(** ** Normalisation *)
Lemma maximum_nan_l : forall x y, is_nan x = true -> is_nan (maximum x y) = true.
Proof. intros x y H. unfold maximum. rewrite H. exact H. Qed.
Lemma maximum_nan_r : forall x y, is_nan y = true -> is_nan (maximum x y) = true.
Proof. intros x y H. unfold maximum. destruct (is_nan x) eqn:E; [exact E|]. rewrite H. exact H. Qed.
Lemma fold_nan : forall l a, is_nan a = true \/ (exists z, In z l /\ is_nan z = true) -> is_nan (fold_left maximum l a) = true.
Proof.
  induction l as [|y l IH]; intros a H; cbn.
  - destruct H as [H|[z [[] _]]]. exact H.
  - apply IH. destruct H as [H|[z [[<-|I] N]]].
    + left. now apply maximum_nan_l.
    + left. now apply maximum_nan_r.
    + right. eauto.
Qed.
Lemma largest_nan : forall l, (exists z, In z l /\ is_nan z = true) -> largest l = B754_nan.
Proof.
  intros l [z [I N]]. assert (E : is_nan (largest l) = true).
  { apply fold_nan. right. exists (Babs z). split; [now apply in_map|]. now rewrite is_nan_Babs. }
  destruct (largest l); try discriminate. reflexivity.
Qed.
Definition plus_inf : b64 := B754_infinity false.
Definition positive_or_zero (x : b64) : Prop := is_nan x = false /\ Bsign x = false.
Lemma maximum_pos : forall x y, positive_or_zero x -> positive_or_zero y -> positive_or_zero (maximum x y).
Proof. intros x y [Nx Sx] [Ny Sy]. unfold maximum. rewrite Nx, Ny. destruct (Bltb x y); split; auto. Qed.
Lemma maximum_inf_l : forall y, positive_or_zero y -> maximum plus_inf y = plus_inf.
Proof. intros [s|s| |s m e H] [N S]; try discriminate; cbn in S; subst; reflexivity. Qed.
Lemma maximum_inf_r : forall x, positive_or_zero x -> maximum x plus_inf = plus_inf.
Proof. intros [s|s| |s m e H] [N S]; try discriminate; cbn in S; subst; reflexivity. Qed.
Lemma fold_inf : forall l a, positive_or_zero a -> Forall positive_or_zero l -> a = plus_inf \/ In plus_inf l -> fold_left maximum l a = plus_inf.
Proof.
  induction l as [|y l IH]; intros a Pa Pl H; cbn.
  - destruct H as [H|[]]. exact H.
  - inversion Pl as [|? ? Py Pl']; subst. apply IH; auto; [now apply maximum_pos|]. destruct H as [->|[->|I]]; auto.
    + left. now apply maximum_inf_l.
    + left. now apply maximum_inf_r.
Qed.
Lemma Babs_pos : forall x : b64, is_nan x = false -> positive_or_zero (Babs x).
Proof. intros [s|s| |s m e H] N; try discriminate; split; reflexivity. Qed.
Lemma Babs_inf : forall x : b64, infinite x -> Babs x = plus_inf.
Proof. intros [s|s| |s m e H] [N F]; try discriminate. reflexivity. Qed.
Lemma largest_inf : forall l, (forall z, In z l -> is_nan z = false) -> (exists z, In z l /\ infinite z) -> largest l = plus_inf.
Proof.
  intros l N [z [I J]]. apply fold_inf.
  - split; reflexivity.
  - apply Forall_forall. intros x Hx. apply in_map_iff in Hx. destruct Hx as [w [<- Hw]]. apply Babs_pos. auto.
  - right. rewrite <- (Babs_inf z J). now apply in_map.
Qed.
Lemma maximum_real : forall x y, is_finite x = true -> is_finite y = true ->
  is_finite (maximum x y) = true /\ B2R (maximum x y) = Rmax (B2R x) (B2R y).
Proof.
  intros x y Fx Fy. unfold maximum.
  assert (Nx : is_nan x = false) by (destruct x; try discriminate; reflexivity).
  assert (Ny : is_nan y = false) by (destruct y; try discriminate; reflexivity).
  rewrite Nx, Ny, Bltb_correct by assumption. case Rlt_bool_spec; intros H.
  - split; [exact Fy|]. rewrite Rmax_right; lra.
  - split; [exact Fx|]. rewrite Rmax_left; lra.
Qed.
Lemma fold_real : forall l a, is_finite a = true -> Forall (fun x => is_finite x = true) l ->
  is_finite (fold_left maximum l a) = true /\ B2R (fold_left maximum l a) = fold_left Rmax (map B2R l) (B2R a).
Proof.
  induction l as [|y l IH]; intros a Fa Fl; cbn; [auto|]. inversion Fl; subst.
  destruct (maximum_real a y) as [F V]; auto. destruct (IH (maximum a y)) as [F' V']; auto. split; [exact F'|]. rewrite V', V. reflexivity.
Qed.
Lemma largest_real : forall l, (forall z, In z l -> is_finite z = true) ->
  is_finite (largest l) = true /\ B2R (largest l) = FloatTracesModel.largest (map B2R l).
Proof.
  intros l F. destruct (fold_real (map Babs l) (B754_zero false)) as [G V]; [reflexivity| |].
  - apply Forall_forall. intros x Hx. apply in_map_iff in Hx. destruct Hx as [w [<- Hw]]. rewrite is_finite_Babs. auto.
  - split; [exact G|]. unfold largest. rewrite V. cbn [B2R].
    assert (E : map B2R (map Babs l) = map Rabs (map B2R l)).
    { rewrite !map_map. apply map_ext. intros x. apply B2R_Babs. }
    unfold b64 in *. rewrite E. unfold FloatTracesModel.largest, FloatSlantModel.np_max, greatest. destruct l as [|x l]; cbn; [reflexivity|].
    f_equal. apply Rmax_right, Rabs_pos.
Qed.
Lemma largest_bounds : forall (l : list R) x, In x l -> Rabs x <= FloatTracesModel.largest l.
Proof.
  intros l x I. unfold FloatTracesModel.largest, FloatSlantModel.np_max. apply (in_map Rabs) in I. destruct (map Rabs l) as [|y t]; [destruct I|].
  destruct (greatest_ge t y) as [G1 G2]. destruct I as [E|I]; [rewrite <- E; exact G1|now apply G2].
Qed.
Lemma largest_zero : forall l : list R, (forall x, In x l -> x = 0) -> FloatTracesModel.largest l = 0.
Proof.
  intros l H. unfold FloatTracesModel.largest, FloatSlantModel.np_max. destruct l as [|y t]; [reflexivity|]. cbn [map].
  destruct (greatest_in (map Rabs t) (Rabs y)) as [E|E].
  - rewrite <- E, (H y), Rabs_R0; auto. now left.
  - apply in_map_iff in E. destruct E as [w [E I]]. rewrite <- E, (H w), Rabs_R0; auto. now right.
Qed.

Lemma bdiv_nan : forall x, bdiv x B754_nan = B754_nan.
Proof. intros [s|s| |s m e H]; reflexivity. Qed.
Lemma usual : forall l x p, In x l -> (forall z, In z l -> is_finite z = true /\ Rabs (B2R z) <= p) -> (exists z, In z l /\ Rabs (B2R z) = p) ->
  0 < p -> is_finite (bdiv x (largest l)) = true /\ normalised p (B2R x) (B2R (bdiv x (largest l))).
Proof.
  intros l x p Hx F [z [I E]] P. destruct (largest_real l) as [_ V]; [intros w Hw; now apply F|].
  assert (Q : FloatTracesModel.largest (map B2R l) = p).
  { apply Rle_antisym.
    - unfold FloatTracesModel.largest. destruct (np_max_spec (map Rabs (map B2R l))) as [N _].
      + intros N. apply (in_map B2R) in Hx. apply (in_map Rabs) in Hx. rewrite N in Hx. destruct Hx.
      + apply in_map_iff in N. destruct N as [v [<- N]]. apply in_map_iff in N. destruct N as [w [<- N]]. now apply F.
    - rewrite <- E. apply largest_bounds. now apply in_map. }
  rewrite Q in V. destruct (F x Hx) as [Fx Bx].
  assert (Dp : double p) by (rewrite <- V; apply double_B2R).
  pose proof (quotient_normalised p (B2R x) Dp (double_B2R x) P Bx) as N.
  destruct (div_ok x (largest l)) as [D1 D2]; auto.
  - rewrite V. lra.
  - rewrite V. destruct N as [_ [[N1 N2] _]]. apply Rle_lt_trans with 1; [now apply Rabs_le|]. change 1 with (bpow radix2 0). apply bpow_lt. lia.
  - split; [exact D1|]. rewrite D2, V. exact N.
Qed.
Lemma normalised_ok : forall l x, In x l -> normalised_by l x (bdiv x (largest l)).
Proof.
  intros l x Hx. split; [|split; [|split]].
  - intros N. rewrite (largest_nan l N), bdiv_nan. reflexivity.
  - intros N J. rewrite (largest_inf l N J). split.
    + intros K. destruct x as [s|s| |s m e B]; destruct K; try discriminate. reflexivity.
    + intros K. destruct x as [s|s| |s m e B]; try discriminate; split; reflexivity.
  - intros Z. destruct (largest_real l) as [F V]; [intros z I; apply Z, I|].
    rewrite largest_zero in V by (intros y I; apply in_map_iff in I; destruct I as [z [<- I]]; apply Z, I).
    destruct (Z x Hx) as [Fx Vx].
    assert (E : forall y : b64, is_finite y = true -> B2R y = 0 -> exists s, y = B754_zero s).
    { intros [s|s| |s m e B] Fy Vy; try discriminate; [eauto|]. cbn in Vy. exfalso.
      apply (F2R_neq_0 radix2 (Float radix2 (cond_Zopp s (Z.pos m)) e)); [|exact Vy]. destruct s; discriminate. }
    destruct (E x Fx Vx) as [s ->]. destruct (E _ F V) as [s' ->]. reflexivity.
  - intros p F E P. now apply usual.
Qed.

(** ** The matrix *)
Lemma matrix_each : forall detrend traces i j x, sample (map detrend traces) i j x ->
  exists y t, nth_error (map detrend traces) i = Some t /\ sample (timeseriesmatrix detrend "each" traces) i j y /\ normalised_by t x y.
Proof.
  intros detrend traces i j x [t [Ht Hx]]. exists (bdiv x (largest t)), t. split; [exact Ht|]. split.
  - rewrite nth_error_map in Ht. destruct (nth_error traces i) as [w|] eqn:W; [|discriminate]. injection Ht as <-.
    exists (divided (detrend w) (largest (detrend w))). unfold timeseriesmatrix. cbn. rewrite nth_error_map, W. split; [reflexivity|].
    unfold divided. rewrite nth_error_map, Hx. reflexivity.
  - apply normalised_ok. now apply nth_error_In with j.
Qed.
Lemma matrix_all : forall detrend traces i j x, sample (map detrend traces) i j x ->
  exists y, sample (timeseriesmatrix detrend "all" traces) i j y /\ normalised_by (List.concat (map detrend traces)) x y.
Proof.
  intros detrend traces i j x [t [Ht Hx]]. exists (bdiv x (largest (List.concat (map detrend traces)))). split.
  - exists (divided t (largest (List.concat (map detrend traces)))).
    change (timeseriesmatrix detrend "all" traces) with (map (fun row => divided row (largest (List.concat (map detrend traces)))) (map detrend traces)).
    rewrite nth_error_map, Ht. split; [reflexivity|]. unfold divided. rewrite nth_error_map, Hx. reflexivity.
  - apply normalised_ok. apply in_concat. exists t. split; [now apply nth_error_In with i|now apply nth_error_In with j].
Qed.
Lemma matrix_plain : forall detrend traces s, s <> "each"%string -> s <> "all"%string -> timeseriesmatrix detrend s traces = map detrend traces.
Proof.
  intros detrend traces s H1 H2. unfold timeseriesmatrix. rewrite (proj2 (String.eqb_neq s "all") H2). apply map_ext. intros t.
  unfold row_of. rewrite (proj2 (String.eqb_neq s "each") H1). reflexivity.
Qed.
Lemma matrix_shape : forall detrend s traces, map (@List.length b64) (timeseriesmatrix detrend s traces) = map (@List.length b64) (map detrend traces).
Proof.
  intros detrend s traces. unfold timeseriesmatrix.
  assert (R : map (@List.length b64) (map (row_of detrend s) traces) = map (@List.length b64) (map detrend traces)).
  { rewrite !map_map. apply map_ext. intros t. unfold row_of, divided. destruct (String.eqb s "each"); [apply map_length|reflexivity]. }
  destruct (String.eqb s "all"); [|exact R]. rewrite <- R. rewrite map_map. apply map_ext. intros t. apply map_length.
Qed.
