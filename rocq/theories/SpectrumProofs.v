(* Proofs about the slant-stack spectrum and the resolution wavenumber. *)
From Verif Require Import SpectrumModel SpectrumSpec BeamSpec PyFacts NumFacts BeamProofs BeamPowerProofs BeamArrayProofs
  TransformSpec TransformProofs TransformSlantProofs TransformProps ArraySpec ArrayProofs ArrayMatrixProofs SeriesProofs.
From Coq Require Import Lra Lia Sorted Permutation.
Local Open Scope R_scope.
Local Open Scope list_scope.

(** ** Fourier transform of a padded row *)
Lemma sumC_zero n f : (forall i, (i < n)%nat -> f i = C0) -> sumC n f = C0.
Proof.
  intros H. rewrite (sumC_ext n f (fun _ => C0) H). unfold sumC. apply Csum_0.
Qed.
Lemma fft_n_sum row n k : (List.length row <= n)%nat ->
  fft_n row n k = sumC (List.length row) (fun t => Cmul (RtoC (toR (nth t row 0%Qc)))
     (cexp (- (2 * PI * INR k * INR t / INR n)))).
Proof.
  intros H. unfold fft_n. rewrite firstn_all2 by exact H. rewrite dft_sum, app_length, repeat_length.
  replace (List.length row + (n - List.length row))%nat with n by lia.
  replace n with (List.length row + (n - List.length row))%nat at 1 by lia.
  rewrite sumC_split. rewrite (sumC_zero (n - List.length row)).
  - transitivity (Cadd (sumC (List.length row) (fun t => Cmul (RtoC (toR (nth t row 0%Qc)))
       (cexp (- (2 * PI * INR k * INR t / INR n))))) C0); [|apply C_eq; cbn; ring].
    f_equal. apply sumC_ext. intros i Hi. now rewrite app_nth1 by exact Hi.
  - intros i Hi. rewrite app_nth2 by lia. rewrite nth_repeat, toR_0. apply C_eq; cbn; ring.
Qed.

Lemma Forall2_mapM_nth {A B} (f : A -> B) (l : list A) i d : nth i (map f l) (f d) = f (nth i l d).
Proof. apply map_nth. Qed.

Lemma slant_transform_spec a s rest vels fl fh n df m out T :
  grid a n df m -> sensors a = s :: rest -> slant_stack a vels = Ok out ->
  rect (List.length vels) T out -> (T <= n)%nat ->
  exists fs pw, slant_transform a vels fl fh = Ok (fs, pw) /\ every_mth n df fl fh m fs /\
    rect (List.length vels) (List.length fs) pw /\
    forall i j f, (i < List.length vels)%nat -> nth_error fs j = Some f ->
      entry_at pw i j = Some (fourier T (fun t => entry out i t) (dt (ser s)) (toR f)).
Proof.
  intros G Hs Eo [R1 R2] HT. pose proof (grid_df _ _ _ _ G) as (Hdf & _).
  assert (DF : (df * (QcN n * dt (ser s)) = 1)%Qc).
  { destruct G as (s' & rest' & Hs' & Hn & Pn & Hd & _). rewrite Hs in Hs'. injection Hs' as <- <-.
    unfold internal_df in Hd. rewrite Hn in Hd.
    destruct (Qceqb_spec (QcN n * dt (ser s)) 0%Qc) as [E|E]; [discriminate|]. injection Hd as <-.
    set (q := (QcN n * dt (ser s))%Qc) in *. field. auto. }
  destruct (kept_grid a fl fh n df m G) as (ids & K & L & M).
  destruct G as (s' & rest' & Hs' & Hn & Pn & Hd & Em & Pm). rewrite Hs in Hs'. injection Hs' as <- <-.
  unfold slant_transform. rewrite Hs, Eo. cbn [bind]. unfold BeamModel.kept in K. rewrite Hs, Hd in K. cbn [bind] in K. rewrite Hd. cbn [bind].
  destruct (frequency_keep_ids _ fl fh _) as [ids'|e]; [|discriminate]. cbn [bind] in K |- *.
  destruct (take _ ids') as [fs'|e]; [|discriminate]. cbn [bind] in K |- *. injection K as -> ->.
  eexists; eexists. split; [reflexivity|]. split; [exact M|]. split; [split|].
  - now rewrite map_length.
  - intros r I. apply in_map_iff in I. destruct I as (v & <- & _). now rewrite !map_length.
  - intros i j f Hi Hf. unfold entry_at.
    assert (Hr : nth_error out i = Some (nth i out [])) by (apply nth_error_nth'; lia).
    rewrite (map_nth_error _ _ _ Hr). rewrite map_map. rewrite nth_error_map in Hf |- *.
    destruct (nth_error ids j) as [k|]; [|discriminate]. cbn [option_map] in Hf |- *. injection Hf as <-.
    f_equal. rewrite Nat2Z.id. assert (Lr : List.length (nth i out []) = T) by (apply R2, nth_In; lia).
    rewrite Hn. rewrite fft_n_sum by lia. rewrite Lr. unfold fourier, entry. apply sumC_ext. intros t Ht. do 2 f_equal.
    assert (NZ : INR n <> 0) by (apply not_0_INR; lia).
    assert (DR : toR df * (INR n * toR (dt (ser s))) = 1) by (rewrite <- toR_QcN, <- !toR_mul, DF; apply toR_1).
    assert (E : toR df * toR (dt (ser s)) = / INR n).
    { apply (Rmult_eq_reg_l (INR n)); auto. rewrite Rinv_r by auto. rewrite <- DR. ring. }
    f_equal. rewrite toR_mul, toR_QcN. transitivity (2 * PI * INR k * INR t * (toR df * toR (dt (ser s)))); [rewrite E; field; auto|ring].
Qed.

(** ** Slant stack of a travelling wave *)
Lemma nth_delayed (w : list Qc) d i : (d <= List.length w)%nat -> (i < List.length w)%nat ->
  nth i (delayed d w) 0%Qc = if (i <? d)%nat then nth (List.length w - d + i) w 0%Qc else nth (i - d) w 0%Qc.
Proof.
  intros Hd Hi. unfold delayed. destruct (Nat.ltb_spec i d) as [L|L].
  - rewrite app_nth1 by (rewrite skipn_length; lia). apply nth_skipn.
  - rewrite app_nth2 by (rewrite skipn_length; lia). rewrite skipn_length, nth_firstn by lia. f_equal. lia.
Qed.
Lemma interpolated_integer row i y : interpolated row (QcN i) y -> (i + 1 < List.length row)%nat /\ y = nth i row 0%Qc.
Proof.
  intros (k & Hk & A & B & ->). rewrite <- QcN_S in B. apply QcN_le in A. apply QcN_lt in B.
  assert (k = i) by lia. subst k. split; [exact Hk|]. ring.
Qed.
Lemma telescope (X : nat -> Qc) c n : Qcsum (map (fun k => (X (k + 1)%nat - X k) * ((c + c) / Q2Qc 2))%Qc (seq 0 n)) = ((X n - X 0%nat) * c)%Qc.
Proof.
  assert (E2 : Q2Qc 2 <> 0%Qc) by discriminate.
  assert (Q2 : (Q2Qc 2 = 1 + 1)%Qc) by (apply Qceqb_eq; vm_compute; reflexivity).
  assert (H2 : ((c + c) / Q2Qc 2 = c)%Qc) by (replace (c + c)%Qc with ((1 + 1) * c)%Qc by ring; rewrite <- Q2; field; exact E2).
  rewrite H2. induction n as [|n IH].
  - cbn. ring.
  - rewrite seq_S, map_app, Qcsum_app, IH. cbn [map].
    assert (S1 : forall x, Qcsum [x] = x) by (intros x; unfold Qcsum; cbn; ring).
    rewrite S1. cbn [Nat.add]. rewrite (Nat.add_1_r n). ring.
Qed.
Lemma increasing_nth l : increasing l -> forall i j, (i < j)%nat -> (j < List.length l)%nat -> (nth i l 0 < nth j l 0)%Qc.
Proof.
  induction 1 as [|x l Hl IH Hx]; intros i j Hij Hj; [cbn in Hj; lia|].
  rewrite Forall_forall in Hx. destruct j as [|j]; [lia|]. destruct i as [|i]; cbn in Hj |- *.
  - apply Hx, nth_In. lia.
  - apply IH; lia.
Qed.

Lemma slant_same_wave a s rest x0 xf vels d w v i :
  consistent a -> outside a -> sensors a = s :: rest -> (0 < dt (ser s))%Qc ->
  (forall v, In v vels -> (0 < v)%Qc) ->
  least (map (dist a) (sensors a)) x0 -> greatest (map (dist a) (sensors a)) xf ->
  greatest_delay (map (dist a) (sensors a)) x0 (dt (ser s)) vels d ->
  (Qcfloor d <= Z.of_nat (nsamples (ser s)) - 1)%Z ->
  same_wave a w v -> nth_error vels i = Some v ->
  exists near out, In near (sensors a) /\ dist a near = x0 /\ slant_stack a vels = Ok out /\
    forall t, (Z.of_nat t < Z.of_nat (nsamples (ser s)) - 1 - Qcfloor d)%Z ->
      entry out i t = ((xf - x0) * nth t (amp (ser near)) 0)%Qc.
Proof.
  intros Hc Ho Hs Hdt Hv Lx Gx G Hd Sw Hi.
  assert (Iv : In v vels) by (eapply nth_error_In; eauto).
  assert (Vp : (0 < v)%Qc) by auto.
  destruct (C29_array a s rest x0 vels d Hc Hs Ho Hdt) as (order & out & P & Inc & E & R & H); auto.
  { intros ->. destruct Iv. }
  pose proof Lx as Lx'. destruct Lx as [Ix Mx]. apply in_map_iff in Ix. destruct Ix as (near & En & In0).
  exists near, out. split; [exact In0|]. split; [exact En|]. split; [exact E|]. intros t Ht.
  assert (Li : (i < List.length vels)%nat) by (apply nth_error_Some; congruence).
  specialize (H i t Li Ht). rewrite (nth_error_nth _ _ 0%Qc Hi) in H. destruct H as (g & Hg & Es).
  destruct (Sw near In0) as (d0 & D0 & A0 & X0). rewrite En in X0.
  assert (Hdts : forall u, In u (sensors a) -> dt (ser u) = dt (ser s)).
  { intros u Iu. destruct Hc as (_ & _ & Ag). destruct (Ag u s Iu ltac:(rewrite Hs; now left)) as (Q & _). exact Q. }
  set (c := nth t (amp (ser near)) 0%Qc).
  set (xs := map (dist a) order) in *.
  assert (Lxs : List.length xs = List.length order) by apply map_length.
  assert (Hgc : forall k, (k < List.length xs)%nat -> g k = c).
  { intros k Hk. specialize (Hg k Hk). assert (Hk' : (k < List.length order)%nat) by lia.
    set (u := nth k order near). assert (Iu : In u (sensors a)) by (eapply Permutation_in; [exact P|]; now apply nth_In).
    assert (Eu : nth k xs 0%Qc = dist a u).
    { unfold xs. rewrite (nth_indep _ 0%Qc (dist a near)) by now rewrite map_length. apply map_nth. }
    assert (Er : nth k (map (fun s => amp (ser s)) order) [] = amp (ser u)).
    { rewrite (nth_indep _ [] (amp (ser near))) by now rewrite map_length. apply (map_nth (fun s => amp (ser s))). }
    rewrite Eu, Er in Hg. destruct (Sw u Iu) as (du & Du & Au & Xu). rewrite Au in Hg.
    assert (Ld : (d0 <= du)%nat).
    { apply QcN_le. assert (Y : (x0 <= dist a u)%Qc) by (apply Mx, in_map, Iu).
      rewrite X0, Xu, (Hdts u Iu), (Hdts near In0) in Y.
      destruct (Qclt_le_dec (QcN du) (QcN d0)) as [B|B]; [|exact B]. exfalso. apply (Qcle_not_lt _ _ Y).
      assert (Z : (0 < v * dt (ser s))%Qc).
      { replace 0%Qc with (0 * dt (ser s))%Qc by ring. now apply Qcmult_lt_compat_r. }
      replace (v * (QcN du * dt (ser s)))%Qc with (QcN du * (v * dt (ser s)))%Qc by ring.
      replace (v * (QcN d0 * dt (ser s)))%Qc with (QcN d0 * (v * dt (ser s)))%Qc by ring.
      now apply Qcmult_lt_compat_r. }
    assert (EI : ((QcN t * dt (ser s) + (dist a u - x0) / v) / dt (ser s) = QcN (t + (du - d0)))%Qc).
    { rewrite Xu, X0, (Hdts u Iu), (Hdts near In0), QcN_add, QcN_sub by exact Ld. field.
      split; intros Z; [rewrite Z in Vp|rewrite Z in Hdt]; discriminate. }
    rewrite EI in Hg. apply interpolated_integer in Hg. rewrite delayed_length in Hg by exact Du. destruct Hg as (Hlen & ->).
    unfold c. rewrite A0. rewrite !nth_delayed by lia.
    destruct (Nat.ltb_spec (t + (du - d0)) du), (Nat.ltb_spec t d0); try lia; f_equal; lia. }
  rewrite Es.
  assert (Nz : order <> []).
  { intros Z. rewrite Z in P. apply Permutation_nil in P. rewrite Hs in P. discriminate. }
  assert (Ln : (0 < List.length xs)%nat) by (rewrite Lxs; destruct order; [congruence|cbn; lia]).
  transitivity (Qcsum (map (fun k => (nth (k + 1) xs 0 - nth k xs 0) * ((c + c) / Q2Qc 2))%Qc (seq 0 (List.length xs - 1)))).
  { f_equal. apply map_ext_in. intros k Hk. apply in_seq in Hk. rewrite !Hgc by lia. reflexivity. }
  rewrite (telescope (fun k => nth k xs 0%Qc)). f_equal.
  assert (Pp : forall x, In x (map (dist a) (sensors a)) <-> In x xs).
  { intros x. split; apply Permutation_in; unfold xs; apply Permutation_map; [now apply Permutation_sym|exact P]. }
  assert (First : nth 0 xs 0%Qc = x0).
  { destruct Lx' as [I1 I2]. apply Pp in I1. apply (In_nth _ _ 0%Qc) in I1. destruct I1 as (j & Hj & Ej).
    destruct j as [|j]; [exact Ej|]. exfalso.
    pose proof (increasing_nth xs Inc 0 (S j) ltac:(lia) Hj) as Q. rewrite Ej in Q.
    apply (Qclt_not_le _ _ Q). apply I2, Pp, nth_In. exact Ln. }
  assert (Last : nth (List.length xs - 1) xs 0%Qc = xf).
  { destruct Gx as [I1 I2]. apply Pp in I1. apply (In_nth _ _ 0%Qc) in I1. destruct I1 as (j & Hj & Ej).
    destruct (Nat.eq_dec j (List.length xs - 1)) as [<-|N]; [exact Ej|]. exfalso.
    pose proof (increasing_nth xs Inc j (List.length xs - 1) ltac:(lia) ltac:(lia)) as Q. rewrite Ej in Q.
    apply (Qclt_not_le _ _ Q). apply I2, Pp, nth_In. lia. }
  now rewrite First, Last.
Qed.

(** ** Resolution wavenumber *)
Lemma diffs_spec l g : In g (diffs l) <-> exists i, (S i < List.length l)%nat /\ g = (nth (S i) l 0 - nth i l 0)%Qc.
Proof.
  induction l as [|x [|y l] IH].
  - split; [intros []|intros (i & H & _); cbn in H; lia].
  - split; [intros []|intros (i & H & _); cbn in H; lia].
  - change (diffs (x :: y :: l)) with ((y - x)%Qc :: diffs (y :: l)). cbn [In]. rewrite IH. split.
    + intros [<-|(i & Hi & ->)]; [exists 0%nat; cbn; split; [lia|reflexivity]|]. exists (S i). cbn in Hi |- *. split; [lia|reflexivity].
    + intros ([|i] & Hi & ->); [now left|right]. exists i. cbn in Hi |- *. split; [lia|reflexivity].
Qed.
Lemma kres_gap a : consistent a -> (2 <= List.length (sensors a))%nat ->
  exists g, smallest_gap a g /\ kres a = Ok (Some (PI / toR g)).
Proof.
  intros (_ & Inc & _) H2. unfold kres, position. set (l := map sx (sensors a)) in *.
  assert (Ll : (2 <= List.length l)%nat) by (unfold l; now rewrite map_length).
  destruct (diffs l) as [|d t] eqn:Ed.
  - exfalso. assert (I : In (nth 1 l 0 - nth 0 l 0)%Qc (diffs l)) by (apply diffs_spec; exists 0%nat; split; [lia|reflexivity]).
    rewrite Ed in I. destruct I.
  - destruct (lmin_spec t d) as (A & B & D). set (g := lmin d t) in *.
    assert (I : In g (diffs l)) by (rewrite Ed; destruct D as [->|D]; [now left|now right]).
    assert (M : forall x, In x (diffs l) -> (g <= x)%Qc) by (intros x; rewrite Ed; intros [<-|X]; auto).
    apply diffs_spec in I. destruct I as (i & Hi & Eg).
    assert (Pg : (0 < g)%Qc).
    { pose proof (increasing_nth l Inc i (S i) ltac:(lia) Hi) as Q. rewrite Eg. now apply Qclt_minus_iff in Q. }
    assert (X : forall k, (k < List.length l)%nat -> exists s, In s (sensors a) /\ sx s = nth k l 0%Qc).
    { intros k Hk. assert (J : In (nth k l 0%Qc) l) by now apply nth_In. apply in_map_iff in J. destruct J as (s & J1 & J2). eauto. }
    exists g. split; [split; [exact Pg|split]|].
    + destruct (X i ltac:(lia)) as (s & Is & Es). destruct (X (S i) Hi) as (t' & It & Et).
      exists s, t'. split; [exact Is|]. split; [exact It|]. rewrite Es, Et. auto.
    + intros s t' Is It Lt.
      assert (Is' : In (sx s) l) by now apply in_map. assert (It' : In (sx t') l) by now apply in_map.
      apply (In_nth _ _ 0%Qc) in Is'. apply (In_nth _ _ 0%Qc) in It'.
      destruct Is' as (p & Hp & Ep). destruct It' as (r & Hr & Er). rewrite <- Ep, <- Er in Lt |- *.
      assert (p < r)%nat.
      { destruct (Nat.lt_trichotomy p r) as [?|[->|Q]]; auto; exfalso.
        - now apply Qclt_not_eq in Lt. - apply (Qclt_not_le _ _ Lt), Qclt_le_weak, increasing_nth; auto. }
      assert (Y : (g <= nth (S p) l 0 - nth p l 0)%Qc) by (apply M, diffs_spec; exists p; split; [lia|reflexivity]).
      assert (Z : (nth (S p) l 0 <= nth r l 0)%Qc).
      { destruct (Nat.eq_dec (S p) r) as [->|N]; [apply Qcle_refl|]. apply Qclt_le_weak, increasing_nth; auto; lia. }
      eapply Qcle_trans; [exact Y|]. apply Qcplus_le_compat; [exact Z|apply Qcle_refl].
    + destruct (Qceqb_spec g 0%Qc) as [Z|Z]; [rewrite Z in Pg; discriminate|reflexivity].
Qed.
Lemma kres_few a : (List.length (sensors a) < 2)%nat -> kres a = Err ValueError.
Proof.
  intros H. unfold kres, position. destruct (sensors a) as [|s [|t l]]; auto. cbn in H. lia.
Qed.
Lemma cexp_one t : - (2 * PI) < t < 2 * PI -> cexp t = C1 -> t = 0.
Proof.
  intros B E. assert (E1 : cos t = 1) by (injection E; auto). pose proof PI_RGT_0.
  assert (S0 : sin (t / 2) = 0).
  { replace t with (2 * (t / 2)) in E1 by field. rewrite cos_2a_sin in E1.
    assert (Z : sin (t / 2) * sin (t / 2) = 0) by lra. destruct (Rmult_integral _ _ Z); auto. }
  destruct (Rtotal_order t 0) as [L|[?|L]]; auto; exfalso.
  - assert (0 < sin (- (t / 2))) by (apply sin_gt_0; lra). rewrite sin_neg in *. lra.
  - assert (0 < sin (t / 2)) by (apply sin_gt_0; lra). lra.
Qed.
Lemma cexp_nz t : exists u, Cmul u (cexp t) = C1.
Proof. exists (cexp (- t)). rewrite <- cexp_add. replace (- t + t) with 0 by ring. apply cexp_0. Qed.
Lemma kres_separates a k k1 k2 : consistent a -> kres a = Ok (Some k) ->
  - k < k1 < k -> - k < k2 < k -> indistinguishable a k1 k2 -> k1 = k2.
Proof.
  intros Hc Hk B1 B2 (c & Hcx).
  assert (H2 : (2 <= List.length (sensors a))%nat).
  { destruct (Nat.lt_ge_cases (List.length (sensors a)) 2) as [L|L]; auto. rewrite (kres_few a L) in Hk. discriminate. }
  destruct (kres_gap a Hc H2) as (g & (Pg & (s & t & Is & It & Eg) & _) & E). rewrite E in Hk. injection Hk as <-.
  assert (Pr : 0 < toR g) by (rewrite <- toR_0; now apply toR_lt).
  assert (Q : cexp ((k1 - k2) * toR g) = C1).
  { pose proof (Hcx s Is) as Hs. pose proof (Hcx t It) as Ht.
    assert (Eg' : toR g = toR (sx t) - toR (sx s)) by (rewrite <- Eg; apply toR_sub).
    replace ((k1 - k2) * toR g) with ((k1 * toR (sx t) + - (k2 * toR (sx t))) + (- (k1 * toR (sx s)) + k2 * toR (sx s))) by (rewrite Eg'; ring).
    rewrite !cexp_add, Ht.
    assert (I2 : Cmul (cexp (k2 * toR (sx t))) (cexp (- (k2 * toR (sx t)))) = C1)
      by (rewrite <- cexp_add, Rplus_opp_r; apply cexp_0).
    assert (I1 : Cmul (cexp (k1 * toR (sx s))) (cexp (- (k1 * toR (sx s)))) = C1)
      by (rewrite <- cexp_add, Rplus_opp_r; apply cexp_0).
    rewrite Hs in I1. transitivity (Cmul (Cmul (cexp (k2 * toR (sx t))) (cexp (- (k2 * toR (sx t)))))
      (Cmul (Cmul c (cexp (k2 * toR (sx s)))) (cexp (- (k1 * toR (sx s)))))); [ring|]. rewrite I1, I2. ring. }
  assert (Z : (k1 - k2) * toR g = 0).
  { apply cexp_one; [|exact Q]. assert (- (2 * (PI / toR g)) < k1 - k2 < 2 * (PI / toR g)) as [L1 L2] by lra.
    assert (EP : 2 * (PI / toR g) * toR g = 2 * PI) by (field; lra). split.
    - apply (Rmult_lt_compat_r (toR g)) in L1; auto. lra.
    - apply (Rmult_lt_compat_r (toR g)) in L2; auto. lra. }
  apply Rmult_integral in Z. destruct Z; lra.
Qed.
Lemma cexp_period_nat j : cexp (2 * PI * INR j) = C1.
Proof.
  rewrite <- (cexp_period (2 * PI * INR j) j). replace (2 * PI * INR j - 2 * INR j * PI) with 0 by ring. apply cexp_0.
Qed.
Lemma cexp_period_Z j : cexp (2 * PI * IZR j) = C1.
Proof.
  destruct (Z_le_dec 0 j) as [L|L].
  - rewrite <- (Z2Nat.id j L), <- INR_IZR_INZ. apply cexp_period_nat.
  - assert (E : cexp (2 * PI * IZR (- j)) = C1) by (rewrite <- (Z2Nat.id (- j)) by lia; rewrite <- INR_IZR_INZ; apply cexp_period_nat).
    transitivity (Cmul (cexp (2 * PI * IZR j)) (cexp (2 * PI * IZR (- j)))); [rewrite E; ring|].
    rewrite <- cexp_add, opp_IZR. replace (2 * PI * IZR j + 2 * PI * - IZR j) with 0 by ring. apply cexp_0.
Qed.
Lemma toR_QcZ j : toR (QcZ j) = IZR j.
Proof.
  destruct (Z_le_dec 0 j) as [L|L].
  - rewrite <- (Z2Nat.id j L). change (QcZ (Z.of_nat (Z.to_nat j))) with (QcN (Z.to_nat j)). rewrite toR_QcN. apply INR_IZR_INZ.
  - assert (E : toR (QcZ (- j)) = IZR (- j)).
    { rewrite <- (Z2Nat.id (- j)) by lia. change (QcZ (Z.of_nat (Z.to_nat (- j)))) with (QcN (Z.to_nat (- j))). rewrite toR_QcN. apply INR_IZR_INZ. }
    rewrite opp_IZR in E. assert (Q : (QcZ (- j) = - QcZ j)%Qc) by (replace (- j)%Z with (0 - j)%Z by lia; rewrite QcZ_sub, QcZ_0; ring).
    rewrite Q, toR_opp in E. lra.
Qed.
Lemma alias_grid g x x0 k1 : (0 < g)%Qc -> (exists j, x = x0 + QcZ j * g)%Qc ->
  cexp ((k1 + 2 * (PI / toR g)) * toR x) = Cmul (cexp (2 * (PI / toR g) * toR x0)) (cexp (k1 * toR x)).
Proof.
  intros Pg (j & ->). assert (Pr : 0 < toR g) by (rewrite <- toR_0; now apply toR_lt). rewrite <- cexp_add.
  replace ((k1 + 2 * (PI / toR g)) * toR (x0 + QcZ j * g)) with
    ((2 * (PI / toR g) * toR x0 + k1 * toR (x0 + QcZ j * g)) + 2 * PI * IZR j)
    by (rewrite toR_add, toR_mul, toR_QcZ; field; lra).
  rewrite cexp_add, cexp_period_Z. ring.
Qed.
Lemma alias_indistinguishable a g k1 : (0 < g)%Qc -> evenly_spaced a g ->
  indistinguishable a (k1 + 2 * (PI / toR g)) k1.
Proof.
  intros Pg (x0 & Hx). exists (cexp (2 * (PI / toR g) * toR x0)). intros s Is. exact (alias_grid g (sx s) x0 k1 Pg (Hx s Is)).
Qed.
Lemma evenly_spaced_dist a g : consistent a -> outside a -> evenly_spaced a g ->
  exists x0, forall s, In s (sensors a) -> exists j, (dist a s = x0 + QcZ j * g)%Qc.
Proof.
  intros Hc Ho (x0 & Hx). pose proof Hc as (_ & Inc & _).
  assert (F : forall s, In s (sensors a) -> (first_x a <= sx s /\ sx s <= last_x a)%Qc) by (intros s Is; split; [now apply first_x_le|now apply last_x_ge]).
  unfold dist. destruct Ho as [O|O].
  - exists (x0 - src_x (src a))%Qc. intros s Is. destruct (Hx s Is) as (j & E). destruct (F s Is) as [F1 _]. exists j.
    rewrite Qcabs_pos; [rewrite E; ring|]. apply -> Qcle_minus_iff. eapply Qcle_trans; eauto.
  - exists (src_x (src a) - x0)%Qc. intros s Is. destruct (Hx s Is) as (j & E). destruct (F s Is) as [_ F2]. exists (- j)%Z.
    rewrite Qcabs_minus, Qcabs_pos.
    + rewrite E. replace (- j)%Z with (0 - j)%Z by lia. rewrite QcZ_sub, QcZ_0. ring.
    + apply -> Qcle_minus_iff. apply Qclt_le_weak. eapply Qcle_lt_trans; eauto.
Qed.
Lemma fdbf_cell_alias angle wt st (offs : list Qc) n b t v v' f g x0 :
  v <> 0 -> v' <> 0 -> List.length offs = n -> tensor n b t -> st <> Some "cylindrical"%string -> (0 < g)%Qc ->
  (forall x, In x offs -> exists j, x = x0 + QcZ j * g)%Qc ->
  2 * PI * f / v' = 2 * PI * f / v + 2 * (PI / toR g) ->
  fdbf_cell angle wt st (map toR offs) t v' f = fdbf_cell angle wt st (map toR offs) t v f.
Proof.
  intros Hv Hv' Lo T St Pg Hx Hk. assert (Lm : List.length (map toR offs) = n) by now rewrite map_length.
  destruct (weighted_spectra wt t) as [t'|] eqn:W.
  2: { unfold fdbf_cell. destruct (Req_EM_T v 0), (Req_EM_T v' 0); try contradiction. now rewrite W. }
  rewrite !(fdbf_cell_form angle wt st (map toR offs) n b t t') by auto. do 3 f_equal. apply sumR_ext. intros j Hj. cbv zeta.
  set (z := cexp (- (2 * (PI / toR g) * toR x0))).
  assert (E : forall a, (a < n)%nat -> nth a (steer_vector angle st f v' (map toR offs)) C0 =
             Cmul z (nth a (steer_vector angle st f v (map toR offs)) C0)).
  { intros a Ha. rewrite !nth_steer by lia.
    assert (SP : forall y, steering_phase angle st y = y).
    { intros y. unfold steering_phase. destruct st as [w|]; auto. destruct (String.eqb_spec w "cylindrical"); auto. congruence. }
    rewrite !SP, Hk. rewrite (nth_indep _ 0 (toR 0)) by lia. rewrite map_nth.
    rewrite <- !cexp_conj. unfold z. rewrite <- cexp_conj. rewrite <- Cconj_mul. f_equal.
    apply alias_grid; auto. apply Hx, nth_In. lia. }
  assert (B : beam n (fun a => nth a (steer_vector angle st f v' (map toR offs)) C0) (fun a => receiver_weight wt (nth a (map toR offs) 0)) t' j
            = Cmul (Cconj z) (beam n (fun a => nth a (steer_vector angle st f v (map toR offs)) C0) (fun a => receiver_weight wt (nth a (map toR offs) 0)) t' j)).
  { unfold beam. rewrite <- sumC_mul. apply sumC_ext. intros a Ha. cbv beta. rewrite E, Cconj_mul by exact Ha. ring. }
  rewrite B, Cmod_mul, Cmod_conj. unfold z. rewrite Cmod_cexp. ring.
Qed.
Lemma fdbf_alias angle wt st a vels fl fh n df m g : consistent a -> outside a -> grid a n df m ->
  st <> Some "cylindrical"%string -> (0 < g)%Qc -> evenly_spaced a g ->
  exists fs pw, fdbf angle wt st a vels fl fh = Ok (fs, pw) /\ forall i i' j v v' f,
    nth_error vels i = Some v -> nth_error vels i' = Some v' -> nth_error fs j = Some f -> v <> 0%Qc -> v' <> 0%Qc ->
    2 * PI * toR f / toR v' = 2 * PI * toR f / toR v + 2 * (PI / toR g) ->
    entry_at pw i' j = entry_at pw i j.
Proof.
  intros Hc Ho G St Pg Ev. destruct (flipped a) as [tm offs] eqn:Ef.
  destruct (flipped_spec a tm offs Hc Ho Ef) as (order & P & Em & Eo & _).
  destruct (fdbf_entries angle wt st a vels fl fh n df m tm offs G Ef) as (fs & pw & E & _ & _ & Hf & He).
  destruct (evenly_spaced_dist a g Hc Ho Ev) as (x0 & Hx).
  exists fs, pw. split; [exact E|]. intros i i' j v v' f Hi Hi' Hj Nv Nv' Hk.
  destruct (Hf f (nth_error_In _ _ Hj)) as (k & _ & Ek).
  rewrite (He i' j v' f k Hi' Hj Ek), (He i j v f k Hi Hj Ek). f_equal.
  apply (fdbf_cell_alias angle wt st offs (List.length tm) 1 _ (toR v) (toR v') (toR f) g x0); auto using toR_nonzero, one_block.
  - now rewrite Em, Eo, !map_length.
  - intros x Ix. rewrite Eo in Ix. apply in_map_iff in Ix. destruct Ix as (s & <- & Is). apply Hx. eapply Permutation_in; eauto.
Qed.
