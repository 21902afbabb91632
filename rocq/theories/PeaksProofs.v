(* Proofs about PeaksModel.v. *)
From Verif Require Import PyFacts NumFacts PeaksModel PeaksSpec.
Local Open Scope string_scope.
Local Open Scope nat_scope.
Local Open Scope list_scope.

Lemma shape_eqb_refl s : shape_eqb s s = true.
Proof. destruct s; cbn; rewrite ?Nat.eqb_refl; auto. Qed.
Lemma shape_eqb_eq s t : shape_eqb s t = true <-> s = t.
Proof.
  split; [|intros ->; apply shape_eqb_refl].
  destruct s, t; cbn; try discriminate; rewrite ?andb_true_iff, ?Nat.eqb_eq.
  - intros ->; reflexivity.
  - intros [-> ->]; reflexivity.
Qed.
Lemma stretch_same {A} s (a : nd A) : shp a = s -> stretch s a = Some (dat a).
Proof. intros H. unfold stretch. now rewrite H, shape_eqb_refl. Qed.
Lemma wider_same s : wider_shape s s = s.
Proof. assert (W : forall n, wider n n = n) by (intros n; unfold wider; now destruct (n =? 1)). destruct s; cbn; now rewrite !W. Qed.
Lemma nd_map2_same {A B C} (f : A -> B -> C) s a b : shp a = s -> shp b = s -> nd_map2 f a b = Ok (ND s (map2 f (dat a) (dat b))).
Proof. intros Sa Sb. unfold nd_map2. rewrite Sa, Sb, wider_same, !stretch_same by auto. reflexivity. Qed.

Lemma assoc_In {A} k (l : list (string * A)) v : assoc k l = Some v -> In (k, v) l.
Proof.
  induction l as [|[k' v'] t IH]; cbn [assoc]; [discriminate|].
  destruct (String.eqb_spec k k'); intros H.
  - inversion H; subst; left; reflexivity.
  - right; auto.
Qed.
Lemma assoc_some {A} k (l : list (string * A)) : In k (map fst l) -> exists v, assoc k l = Some v.
Proof.
  induction l as [|[k' v'] t IH]; cbn [assoc map fst In]; [tauto|].
  destruct (String.eqb_spec k k'); [eauto|]. intros [H|H]; [congruence|auto].
Qed.
Lemma assoc_none {A} k (l : list (string * A)) : assoc k l = None <-> ~ In k (map fst l).
Proof.
  split.
  - intros H Hi. apply assoc_some in Hi as [v Hv]. congruence.
  - intros H. destruct (assoc k l) eqn:E; [|reflexivity].
    apply assoc_In in E. apply (in_map fst) in E. tauto.
Qed.
Lemma raw_of_assoc l k i a : assoc k l = Some a -> raw_of l k i = nth i (dat a) NaN.
Proof.
  induction l as [|[k' v'] t IH]; cbn; [discriminate|].
  destruct (String.eqb k k'); [intros [= ->]; reflexivity|auto].
Qed.

Section WF.
  Variables (s : shape) (p : peaks).
  Hypothesis W : well_formed s p.

  Lemma wf_field k a : assoc k (fields p) = Some a ->
    shp a = s /\ List.length (dat a) = size s /\ (forall i, nth i (dat a) NaN = raw p k i).
  Proof.
    intros H. pose proof (assoc_In _ _ _ H) as Hi.
    destruct W as (_ & F & _). rewrite Forall_forall in F. specialize (F _ Hi).
    cbn in F. split; [tauto|]. split; [tauto|].
    intros i. unfold raw. rewrite (raw_of_assoc _ _ _ _ H). reflexivity.
  Qed.
  Lemma wf_base k : k = "frequency" \/ k = "velocity" -> In k (map fst (fields p)).
  Proof.
    destruct W as ((f & v & kw & ->) & _). cbn [map fst In].
    intros [->| ->]; [left|right;left]; reflexivity.
  Qed.
  Lemma field_of_ok k : In k (map fst (fields p)) ->
    exists a, field_of p k = Ok a /\ shp a = s /\ List.length (dat a) = size s
              /\ (forall i, nth i (dat a) NaN = raw p k i).
  Proof.
    intros H. destruct (assoc_some _ _ H) as [a Ha]. exists a.
    unfold field_of. rewrite Ha. split; [reflexivity|]. apply wf_field; assumption.
  Qed.
  Lemma field_of_err k : ~ In k (map fst (fields p)) -> field_of p k = Err AttributeError.
  Proof. intros H. unfold field_of. apply assoc_none in H. rewrite H. reflexivity. Qed.

  Lemma wf_not_derived k : In k (map fst (fields p)) -> ~ derived k.
  Proof.
    intros H. destruct W as (_ & _ & _ & _ & _ & F). rewrite Forall_forall in F.
    specialize (F _ H). unfold derived. tauto.
  Qed.

  Lemma stored_ok k : has_attr p k ->
    exists a, stored p k = Ok a /\ shp a = s /\ List.length (dat a) = size s
              /\ (forall i, i < size s -> nth i (dat a) NaN = value p k i).
  Proof.
    intros H. unfold stored, value.
    destruct (field_of_ok "velocity") as (v & Ev & Sv & Lv & Nv); [apply wf_base; auto|].
    destruct (field_of_ok "frequency") as (f & Ef & Sf & Lf & Nf); [apply wf_base; auto|].
    destruct (String.eqb_spec k "slowness") as [->|N1].
    { rewrite Ev. cbn [bind]. eexists; split; [reflexivity|]. cbn [nd_map shp dat].
      rewrite map_length. split; [auto|]. split; [auto|]. intros i Hi.
      erewrite nth_map_lt by lia. rewrite Nv. reflexivity. }
    destruct (String.eqb_spec k "wavelength") as [->|N2].
    { rewrite Ev, Ef. cbn [bind]. rewrite (nd_map2_same _ s) by auto.
      eexists; split; [reflexivity|]. cbn [shp dat]. rewrite length_map2.
      split; [auto|]. split; [lia|]. intros i Hi.
      rewrite (nth_map2 _ _ _ _ NaN NaN) by lia. rewrite Nv, Nf. reflexivity. }
    destruct (String.eqb_spec k "wavenumber") as [->|N3].
    { rewrite Ev, Ef. cbn [bind]. rewrite (nd_map2_same _ s) by auto. cbn [nd_map shp dat].
      eexists; split; [reflexivity|]. cbn [shp dat]. rewrite length_map2, map_length.
      split; [auto|]. split; [lia|]. intros i Hi.
      rewrite (nth_map2 _ _ _ _ NaN NaN) by (rewrite ?map_length; lia).
      erewrite nth_map_lt by lia. rewrite Nv, Nf. reflexivity. }
    destruct H as [[|[|]]|H]; try contradiction.
    destruct (field_of_ok k H) as (a & Ea & Sa & La & Na).
    exists a. split; [auto|]. split; [auto|]. split; auto.
  Qed.
  Lemma stored_err k : ~ has_attr p k -> stored p k = Err AttributeError.
  Proof.
    intros H. unfold has_attr, derived in H. unfold stored.
    destruct (String.eqb_spec k "slowness"); [tauto|].
    destruct (String.eqb_spec k "wavelength"); [tauto|].
    destruct (String.eqb_spec k "wavenumber"); [tauto|].
    apply field_of_err. tauto.
  Qed.
End WF.

(** set_valid keeps everything but the mask. *)
Lemma value_set_valid p v k i : value (set_valid p v) k i = value p k i.
Proof. reflexivity. Qed.
Lemma wf_set_valid s p v : well_formed s p -> shp v = s -> List.length (dat v) = size s ->
  well_formed s (set_valid p v).
Proof. unfold well_formed, set_valid; cbn [fields valid]. tauto. Qed.
Lemma has_attr_set_valid p v k : has_attr (set_valid p v) k <-> has_attr p k.
Proof. reflexivity. Qed.

Lemma new_peaks_wf s f v ident kw p :
  shp f = s -> List.length (dat f) = size s -> shp v = s -> List.length (dat v) = size s ->
  Forall (fun kv => shp (snd kv) = s /\ List.length (dat (snd kv)) = size s) kw ->
  NoDup ("frequency" :: "velocity" :: map fst kw) ->
  Forall (fun k => k <> "valid" /\ k <> "identifier" /\ k <> "self") (map fst kw) ->
  new_peaks f v ident kw = Ok p -> well_formed s p.
Proof.
  intros Sf Lf Sv Lv F ND FN. unfold new_peaks.
  destruct (existsb _ kw) eqn:E; [discriminate|]. intros [= <-].
  unfold well_formed; cbn [fields valid map fst snd nd_map shp dat].
  split; [eauto|]. split; [auto|]. split; [auto|]. rewrite map_length.
  split; [auto|]. split; [auto|].
  constructor; [repeat split; discriminate|].
  constructor; [repeat split; discriminate|].
  rewrite Forall_forall in *. intros k Hk. specialize (FN k Hk).
  apply in_map_iff in Hk as (kv & <- & Hkv).
  assert (computed (fst kv) = false) as C.
  { destruct (computed (fst kv)) eqn:C; [|reflexivity].
    assert (existsb (fun kv => computed (fst kv)) kw = true); [|congruence].
    apply existsb_exists. eauto. }
  unfold computed in C. rewrite !orb_false_iff in C. destruct C as ((C1 & C2) & C3).
  apply String.eqb_neq in C1, C2, C3. tauto.
Qed.

(** * Masks *)

Lemma where_set_ok s test m o a :
  shp m = s -> shp o = s -> shp a = s ->
  List.length (dat m) = size s -> List.length (dat o) = size s -> List.length (dat a) = size s ->
  exists b, where_set test m o a = Ok b /\ shp b = s /\ List.length (dat b) = size s
    /\ forall i, i < size s ->
         nth i (dat b) false
         = if nth i (dat m) false then test (nth i (dat a) NaN) else nth i (dat o) false.
Proof.
  intros Sm So Sa Lm Lo La. unfold where_set. rewrite So, !stretch_same by auto.
  eexists; split; [reflexivity|]. cbn [shp dat]. split; [auto|].
  rewrite !length_map2. split; [lia|]. intros i Hi.
  rewrite (nth_map2 _ _ _ _ (false, false) NaN) by (rewrite ?length_map2; lia).
  rewrite (nth_map2 pair _ _ _ false false) by lia. reflexivity.
Qed.

Lemma zeros_like_ok {A} s (a : nd A) : shp a = s -> List.length (dat a) = size s ->
  shp (zeros_like a) = s /\ List.length (dat (zeros_like a)) = size s
  /\ forall i, nth i (dat (zeros_like a)) false = false.
Proof.
  intros Sa La. cbn. rewrite map_length. split; [auto|]. split; [auto|].
  intros i. clear. revert i. induction (dat a); intros [|i]; cbn; auto.
Qed.

Lemma reject_ok s p b : well_formed s p -> shp b = s -> List.length (dat b) = size s ->
  exists p', reject p b = (p', Ok tt) /\ well_formed s p'
    /\ fields p' = fields p /\ identifier p' = identifier p /\ npeaks p' = npeaks p
    /\ forall i, is_valid p' i = is_valid p i && negb (nth i (dat b) false).
Proof.
  intros W Sb Lb. pose proof W as (_ & _ & Sv & Lv & _).
  unfold reject. rewrite Sv, Sb, shape_eqb_refl.
  eexists; split; [reflexivity|]. split.
  { apply wf_set_valid; auto. cbn [dat]. rewrite length_map2. lia. }
  split; [reflexivity|]. split; [reflexivity|].
  unfold npeaks; cbn [set_valid valid dat]. rewrite length_map2. split; [lia|].
  intros i. unfold is_valid; cbn [set_valid valid dat].
  destruct (Nat.lt_ge_cases i (size s)).
  - rewrite (nth_map2 _ _ _ _ false false) by lia.
    destruct (nth i (dat b) false), (nth i (dat (valid p)) false); reflexivity.
  - rewrite !nth_overflow by (rewrite ?length_map2; lia). reflexivity.
Qed.

Lemma is_valid_lt s p i : well_formed s p -> is_valid p i = true -> i < size s.
Proof.
  intros (_ & _ & _ & Lv & _) H. destruct (Nat.lt_ge_cases i (size s)); [auto|].
  unfold is_valid in H. rewrite nth_overflow in H by lia. discriminate.
Qed.

Lemma limits_mask_ok s p k lo hi : well_formed s p -> has_attr p k ->
  exists b, limits_mask p k lo hi = Ok b /\ shp b = s /\ List.length (dat b) = size s
    /\ forall i, is_valid p i = true ->
         nth i (dat b) false = outside lo hi (value p k i).
Proof.
  intros W H. pose proof W as (_ & _ & Sv & Lv & _).
  destruct (stored_ok s p W k H) as (a & Ea & Sa & La & Na).
  destruct (zeros_like_ok s a Sa La) as (Sz & Lz & Nz).
  assert (Hlt : forall i, is_valid p i = true -> i < size s)
    by (intros i; apply is_valid_lt; auto).
  unfold limits_mask. rewrite Ea. cbn [bind]. unfold outside.
  destruct lo as [mn|], hi as [mx|].
  - destruct (where_set_ok s (fun x => flt_lt mx x) (valid p) (zeros_like a) a)
      as (b & Eb & Sb & Lb & Nb); auto.
    rewrite Eb. cbn [bind]. rewrite (nd_map2_same _ s) by auto. cbn [bind].
    edestruct (where_set_ok s (fun x => flt_lt x mn)) as (b' & Eb' & Sb' & Lb' & Nb');
      [| | | | | |rewrite Eb'; exists b'; split; [reflexivity|split; [auto|split; [auto|]]]];
      cbn [shp dat]; rewrite ?length_map2; auto; try lia.
    intros i Hi. pose proof (Hlt i Hi) as Hl. rewrite (Nb' i Hl). cbn [dat].
    rewrite (nth_map2 _ _ _ _ false false) by lia. rewrite (Nb i Hl).
    unfold is_valid in Hi. rewrite Hi, Na by auto. cbn [andb].
    destruct (flt_lt mx (value p k i)); cbn [negb]; rewrite ?orb_true_r, ?orb_false_r; reflexivity.
  - destruct (where_set_ok s (fun x => flt_lt x mn) (valid p) (zeros_like a) a)
      as (b & Eb & Sb & Lb & Nb); auto.
    exists b. split; [auto|]. split; [auto|]. split; [auto|]. intros i Hi.
    rewrite Nb by auto. unfold is_valid in Hi. rewrite Hi, Na, orb_false_r by (apply Hlt; auto).
    reflexivity.
  - destruct (where_set_ok s (fun x => flt_lt mx x) (valid p) (zeros_like a) a)
      as (b & Eb & Sb & Lb & Nb); auto.
    exists b. split; [auto|]. split; [auto|]. split; [auto|]. intros i Hi.
    rewrite Nb by auto. unfold is_valid in Hi. rewrite Hi, Na by (apply Hlt; auto).
    reflexivity.
  - exists (zeros_like a). split; [auto|]. split; [auto|]. split; [auto|].
    intros i Hi. rewrite Nz. reflexivity.
Qed.

Lemma flt_lt_trans a b c : flt_lt a b = true -> flt_lt b c = true -> flt_lt a c = true.
Proof.
  destruct a, b, c; cbn; try discriminate; auto.
  rewrite !Qcltb_lt. apply Qclt_trans.
Qed.
Lemma flt_lt_irrefl a : flt_lt a a = false.
Proof. destruct a; cbn; auto. destruct (Qcltb_spec q q); auto. exfalso. eapply Qclt_not_le; eauto. apply Qcle_refl. Qed.
Lemma flt_lt_asym a b : flt_lt a b = true -> flt_lt b a = false.
Proof.
  intros H. destruct (flt_lt b a) eqn:E; auto.
  rewrite <- (flt_lt_irrefl a). symmetry. eapply flt_lt_trans; eauto.
Qed.
Lemma between_minmax ab x :
  flt_lt (pymin ab) x && flt_lt x (pymax ab) = strictly_between ab x.
Proof.
  destruct ab as [a b]. unfold strictly_between, pymin, pymax; cbn [fst snd].
  destruct (flt_lt b a) eqn:E1, (flt_lt a b) eqn:E2.
  - apply flt_lt_asym in E1. congruence.
  - destruct (flt_lt a x && flt_lt x b) eqn:E; [|reflexivity].
    apply andb_true_iff in E as [A B]. rewrite (flt_lt_trans _ _ _ A B) in E2. discriminate.
  - destruct (flt_lt b x && flt_lt x a) eqn:E.
    + apply andb_true_iff in E as [A B]. rewrite (flt_lt_trans _ _ _ A B) in E1. discriminate.
    + rewrite orb_false_r. reflexivity.
  - destruct (flt_lt a x && flt_lt x b) eqn:E.
    { apply andb_true_iff in E as [A B]. rewrite (flt_lt_trans _ _ _ A B) in E2. discriminate. }
    destruct (flt_lt b x && flt_lt x a) eqn:E'.
    { apply andb_true_iff in E' as [A B]. rewrite (flt_lt_trans _ _ _ A B) in E1. discriminate. }
    destruct (flt_lt a x) eqn:A; cbn; auto. apply flt_lt_asym in A. auto.
Qed.

Lemma box_mask_ok s p xt xl yt yl : well_formed s p -> has_attr p xt -> has_attr p yt ->
  exists b, box_mask p xt xl yt yl = Ok b /\ shp b = s /\ List.length (dat b) = size s
    /\ forall i, nth i (dat b) false
                 = is_valid p i && (strictly_between xl (value p xt i) && strictly_between yl (value p yt i)).
Proof.
  intros W Hx Hy. pose proof W as (_ & _ & Sv & Lv & _).
  destruct (stored_ok s p W xt Hx) as (xs & Ex & Sx & Lx & Nx).
  destruct (stored_ok s p W yt Hy) as (ys & Ey & Sy & Ly & Ny).
  destruct (zeros_like_ok s xs Sx Lx) as (Sz & Lz & Nz).
  unfold box_mask. rewrite Ex, Ey. cbn [bind].
  destruct (where_set_ok s (fun x => flt_lt (pymin xl) x) (valid p) (zeros_like xs) xs)
    as (b1 & E1 & S1' & L1 & N1); auto. rewrite E1; cbn [bind].
  destruct (where_set_ok s (fun x => flt_lt x (pymax xl)) b1 b1 xs)
    as (b2 & E2 & S2' & L2 & N2); auto. rewrite E2; cbn [bind].
  destruct (where_set_ok s (fun x => flt_lt (pymin yl) x) b2 b2 ys)
    as (b3 & E3 & S3' & L3 & N3); auto. rewrite E3; cbn [bind].
  destruct (where_set_ok s (fun x => flt_lt x (pymax yl)) b3 b3 ys)
    as (b4 & E4 & S4' & L4 & N4); auto.
  exists b4. split; [auto|]. split; [auto|]. split; [auto|]. intros i.
  destruct (Nat.lt_ge_cases i (size s)) as [Hi|Hi].
  - rewrite N4, N3, N2, N1, Nz, Nx, Ny by auto.
    rewrite <- !between_minmax. unfold is_valid.
    destruct (nth i (dat (valid p)) false); cbn [andb]; auto.
    destruct (flt_lt (pymin xl) (value p xt i)), (flt_lt (value p xt i) (pymax xl)),
      (flt_lt (pymin yl) (value p yt i)), (flt_lt (value p yt i) (pymax yl)); reflexivity.
  - rewrite nth_overflow by lia. unfold is_valid. rewrite nth_overflow by lia. reflexivity.
Qed.

Lemma do_reject_ok s p r : well_formed s p -> applicable p r ->
  exists p', do_reject p r = (p', Ok tt) /\ well_formed s p'
    /\ fields p' = fields p /\ identifier p' = identifier p /\ npeaks p' = npeaks p
    /\ forall i, is_valid p' i = is_valid p i && negb (matches p r i).
Proof.
  intros W A. destruct r as [k lo hi|xt xl yt yl]; cbn [do_reject applicable matches] in *.
  - destruct (limits_mask_ok s p k lo hi W A) as (b & Eb & Sb & Lb & Nb).
    unfold reject_limits. rewrite Eb.
    destruct (reject_ok s p b W Sb Lb) as (p' & E & W' & F & I & N & V).
    exists p'. do 5 (split; [assumption|]). intros i. rewrite V.
    destruct (is_valid p i) eqn:Hi; [|reflexivity]. rewrite Nb by auto. reflexivity.
  - destruct A as [Ax Ay].
    destruct (box_mask_ok s p xt xl yt yl W Ax Ay) as (b & Eb & Sb & Lb & Nb).
    unfold reject_box. rewrite Eb.
    destruct (reject_ok s p b W Sb Lb) as (p' & E & W' & F & I & N & V).
    exists p'. do 5 (split; [assumption|]). intros i. rewrite V, Nb.
    destruct (is_valid p i); reflexivity.
Qed.
Lemma do_reject_err s p r : well_formed s p -> ~ applicable p r ->
  do_reject p r = (p, Err AttributeError).
Proof.
  intros W A. destruct r as [k lo hi|xt xl yt yl]; cbn [do_reject applicable] in *.
  - unfold reject_limits, limits_mask. rewrite (stored_err p k A). reflexivity.
  - unfold reject_box, box_mask.
    destruct (in_dec string_dec xt (map fst (fields p))) as [Hx|Hx].
    + destruct (stored_ok s p W xt (or_intror Hx)) as (a & -> & _). cbn [bind].
      rewrite (stored_err p yt); [reflexivity|]. intros Hy; apply A; split; [right|]; auto.
    + assert (D : derived xt \/ ~ derived xt).
      { unfold derived. destruct (string_dec xt "slowness"), (string_dec xt "wavelength"),
          (string_dec xt "wavenumber"); tauto. }
      destruct D as [D|D].
      * destruct (stored_ok s p W xt (or_introl D)) as (a & -> & _). cbn [bind].
        rewrite (stored_err p yt); [reflexivity|]. intros Hy; apply A; split; [left|]; auto.
      * rewrite (stored_err p xt); [reflexivity|]. intros [?|?]; auto.
Qed.
Lemma applicable_dec p r : applicable p r \/ ~ applicable p r.
Proof.
  assert (D : forall k, has_attr p k \/ ~ has_attr p k).
  { intros k. unfold has_attr, derived.
    destruct (in_dec string_dec k (map fst (fields p))),
      (string_dec k "slowness"), (string_dec k "wavelength"),
          (string_dec k "wavenumber"); tauto. }
  destruct r as [k lo hi|xt xl yt yl]; cbn; [apply D|].
  destruct (D xt), (D yt); tauto.
Qed.

(** * Histories *)

Lemma applicable_fields p q r : fields p = fields q -> applicable p r <-> applicable q r.
Proof. intros H. destruct r; cbn; unfold has_attr; rewrite H; tauto. Qed.
Lemma matches_fields p q r i : fields p = fields q -> matches p r i = matches q r i.
Proof.
  intros H. destruct r; cbn; unfold value, vel, frq, raw; rewrite H; reflexivity.
Qed.

Lemma run_rejects_ok s rs p : well_formed s p ->
  well_formed s (run_rejects p rs)
  /\ fields (run_rejects p rs) = fields p
  /\ identifier (run_rejects p rs) = identifier p
  /\ npeaks (run_rejects p rs) = npeaks p
  /\ forall i, is_valid (run_rejects p rs) i = true
       <-> is_valid p i = true
           /\ forall r, In r rs -> applicable p r -> matches p r i = false.
Proof.
  revert p. induction rs as [|r rs IH]; intros p W.
  { cbn. split; [auto|]. do 3 (split; [reflexivity|]). intros i. split; [|tauto].
    intros H; split; [auto|]. intros r []. }
  unfold run_rejects in *. cbn [fold_left].
  destruct (applicable_dec p r) as [A|A].
  - destruct (do_reject_ok s p r W A) as (p' & E & W' & F & I & N & V). rewrite E. cbn [fst].
    destruct (IH p' W') as (W2 & F2 & I2 & N2 & V2).
    split; [auto|]. split; [congruence|]. split; [congruence|]. split; [congruence|].
    intros i. rewrite V2, V, andb_true_iff, negb_true_iff. cbn [In]. split.
    + intros ((Hv & Hm) & Hall). split; [auto|]. intros r' [<-|Hr] Ha; [auto|].
      rewrite <- (matches_fields p' p r' i F). apply Hall; auto.
      apply (applicable_fields p' p r' F). auto.
    + intros (Hv & Hall). split; [split; auto|]. intros r' Hr Ha.
      rewrite (matches_fields p' p r' i F). apply Hall; auto.
      apply (applicable_fields p' p r' F). auto.
  - rewrite (do_reject_err s p r W A). cbn [fst].
    destruct (IH p W) as (W2 & F2 & I2 & N2 & V2).
    split; [auto|]. do 3 (split; [auto|]). intros i. rewrite V2. cbn [In]. split.
    + intros (Hv & Hall). split; [auto|]. intros r' [<-|Hr] Ha; [tauto|auto].
    + intros (Hv & Hall). split; [auto|]. intros; apply Hall; auto.
Qed.

Lemma peaks_ext s p q : well_formed s p -> well_formed s q ->
  identifier p = identifier q -> fields p = fields q ->
  (forall i, is_valid p i = is_valid q i) -> p = q.
Proof.
  intros (_ & _ & Sp & Lp & _) (_ & _ & Sq & Lq & _) I F V.
  destruct p as [ip fp [sp dp]], q as [iq fq [sq dq]]; cbn in *. subst.
  f_equal. f_equal. apply (nth_ext_len false); [congruence|].
  intros i Hi. apply V.
Qed.
Lemma run_rejects_same_set s rs rs' p : well_formed s p ->
  (forall r, In r rs <-> In r rs') -> run_rejects p rs = run_rejects p rs'.
Proof.
  intros W H.
  destruct (run_rejects_ok s rs p W) as (W1 & F1 & I1 & N1 & V1).
  destruct (run_rejects_ok s rs' p W) as (W2 & F2 & I2 & N2 & V2).
  apply (peaks_ext s); auto; try congruence.
  intros i. apply eq_true_iff_eq. rewrite V1, V2.
  split; intros (Hv & Hall); (split; [auto|]); intros r Hr; apply Hall; apply H; auto.
Qed.

(** * Reading attributes *)

Lemma select_positions {A} (d : A) m (a : list A) : List.length a = List.length m ->
  select m a = map (fun i => nth i a d) (filter (fun i => nth i m false) (seq 0 (List.length m))).
Proof.
  revert a. induction m as [|b m IH]; intros [|x a] H; cbn in *; try discriminate; auto.
  rewrite <- seq_shift, (filter_ext_in _ (fun i => nth i (b :: m) false)) by auto.
  replace (filter (fun i => nth i (b :: m) false) (map S (seq 0 (List.length m))))
    with (map S (filter (fun i => nth i m false) (seq 0 (List.length m)))).
  2:{ clear. induction (seq 0 (List.length m)) as [|i t IH]; cbn; auto.
      destruct (nth i m false); cbn; rewrite IH; auto. }
  rewrite IH by lia. destruct b; cbn [map]; rewrite map_map; reflexivity.
Qed.
Lemma map2_map_same {A B C D} (f : B -> C -> D) (g : A -> B) (h : A -> C) l :
  map2 f (map g l) (map h l) = map (fun x => f (g x) (h x)) l.
Proof. induction l; cbn; congruence. Qed.

Lemma masked_ok s p k : well_formed s p -> In k (map fst (fields p)) ->
  masked p k = Ok (map (raw p k) (valid_positions p)).
Proof.
  intros W H. pose proof W as (_ & _ & Sv & Lv & _).
  destruct (field_of_ok s p W k H) as (a & Ea & Sa & La & Na).
  unfold masked. rewrite Ea. cbn [bind]. unfold nd_select.
  rewrite Sv, Sa, shape_eqb_refl. f_equal.
  rewrite (select_positions NaN) by lia. unfold valid_positions, npeaks.
  apply map_ext. auto.
Qed.
Lemma propertied_named k : propertied k = true <-> named k.
Proof.
  unfold propertied, named. cbn [In]. rewrite !orb_true_iff, !String.eqb_eq.
  firstorder congruence.
Qed.
Lemma public_ok s p k : well_formed s p -> readable p k ->
  public p k = Ok (map (value p k) (valid_positions p)).
Proof.
  intros W H. unfold public, value.
  assert (Bv := masked_ok s p "velocity" W (wf_base s p W _ (or_intror eq_refl))).
  assert (Bf := masked_ok s p "frequency" W (wf_base s p W _ (or_introl eq_refl))).
  destruct (String.eqb_spec k "slowness") as [->|N1].
  { rewrite Bv. cbn [bind]. rewrite map_map. reflexivity. }
  destruct (String.eqb_spec k "wavelength") as [->|N2].
  { rewrite Bv, Bf. cbn [bind]. rewrite !map_length, Nat.eqb_refl, map2_map_same. reflexivity. }
  destruct (String.eqb_spec k "wavenumber") as [->|N3].
  { rewrite Bv, Bf. cbn [bind]. rewrite !map_length, Nat.eqb_refl, map_map, map2_map_same.
    reflexivity. }
  destruct H as [[|[|]]|[Hn H]]; try contradiction.
  apply propertied_named in Hn. rewrite Hn. apply (masked_ok s); auto.
Qed.
Lemma public_err p k : ~ readable p k -> public p k = Err AttributeError.
Proof.
  intros H. unfold readable, derived in H. unfold public.
  destruct (String.eqb_spec k "slowness"); [tauto|].
  destruct (String.eqb_spec k "wavelength"); [tauto|].
  destruct (String.eqb_spec k "wavenumber"); [tauto|].
  destruct (propertied k) eqn:P; [|reflexivity]. apply propertied_named in P.
  unfold masked. rewrite field_of_err by tauto. reflexivity.
Qed.
Lemma valid_positions_sorted p : StronglySorted lt (valid_positions p).
Proof.
  unfold valid_positions. generalize (is_valid p) as f. generalize (npeaks p) as n.
  intros n f. generalize 0 as a. induction n as [|n IH]; intros a; cbn; [constructor|].
  destruct (f a); [|apply IH]. constructor; [apply IH|].
  apply Forall_forall. intros x Hx. apply filter_In in Hx as [Hx _].
  apply in_seq in Hx. lia.
Qed.
Lemma valid_positions_In p i : In i (valid_positions p) <-> is_valid p i = true.
Proof.
  unfold valid_positions. rewrite filter_In, in_seq. split; [tauto|].
  intros H. split; [|auto]. unfold npeaks, is_valid in *.
  destruct (Nat.lt_ge_cases i (List.length (dat (valid p)))); [lia|].
  rewrite nth_overflow in H by lia. discriminate.
Qed.

(** * simplify_mpeaks *)

Lemma flt_lt_nan_r x : flt_lt x NaN = false.
Proof. destruct x; reflexivity. Qed.
Lemma flt_lt_nan_l x : flt_lt NaN x = false.
Proof. destruct x; reflexivity. Qed.
Lemma flt_lt_ninf x : flt_lt x NInf = false.
Proof. destruct x; reflexivity. Qed.
Lemma flt_ninf_lt x : flt_lt NInf x = true <-> x <> NaN /\ x <> NInf.
Proof. destruct x; cbn; intuition congruence. Qed.
Lemma flt_total x y : x <> NaN -> y <> NaN -> flt_lt x y = false -> flt_lt y x = true \/ x = y.
Proof.
  destruct x, y; cbn; auto; try congruence; try discriminate.
  destruct (Qcltb_spec q q0); [discriminate|]. destruct (Qcltb_spec q0 q); [auto|].
  intros _ _ _. right. f_equal. apply Qcle_antisym; apply Qcnot_lt_le; auto.
Qed.
(* not above and not below composes *)
Lemma flt_nlt_trans a b c : b <> NaN -> flt_lt b a = false -> flt_lt c b = false -> flt_lt c a = false.
Proof.
  intros Nb H1 H2. destruct (flt_lt c a) eqn:E; auto.
  assert (a <> NaN) by (intros ->; rewrite flt_lt_nan_r in E; discriminate).
  assert (c <> NaN) by (intros ->; rewrite flt_lt_nan_l in E; discriminate).
  destruct (flt_total b a) as [B|B]; auto; subst; try congruence.
  rewrite (flt_lt_trans _ _ _ E B) in H2. discriminate.
Qed.
Lemma flt_le_lt_trans a b c : flt_lt b c = true -> flt_le c a = true -> flt_lt b a = true.
Proof.
  unfold flt_le. intros H. rewrite orb_true_iff. intros [E|E]; [eapply flt_lt_trans; eauto|].
  destruct c, a; cbn in *; try discriminate; auto.
  destruct (Qceqb_spec q q0); [subst; auto|discriminate].
Qed.

Section Best.
  Variable w : nat -> flt.
  Variable ok : nat -> bool.
  (* state of the loop after the rows below n *)
  Definition best_inv (n m : nat) (v : flt) : Prop :=
    (v = NInf /\ (forall i, i < n -> ok i = true -> flt_lt NInf (w i) = false))
    \/ (m < n /\ ok m = true /\ v = w m /\ flt_lt NInf (w m) = true
        /\ (forall i, i < n -> ok i = true -> flt_lt (w m) (w i) = false)
        /\ (forall i, i < m -> ok i = true -> flt_le (w m) (w i) = false)).
  Lemma flt_lt_le_false a b : flt_lt a b = true -> flt_le b a = false.
  Proof.
    intros H. unfold flt_le. rewrite (flt_lt_asym _ _ H). cbn.
    destruct a, b; cbn in *; auto; try discriminate.
    destruct (Qceqb_spec q0 q); auto. subst. exfalso. rewrite Qcltb_lt in H.
    eapply Qclt_not_le; eauto. apply Qcle_refl.
  Qed.
  Lemma best_step n m v : best_inv n m v ->
    best_inv (S n) (if negb (ok n) then m else if flt_lt v (w n) then n else m)
                   (if negb (ok n) then v else if flt_lt v (w n) then w n else v).
  Proof.
    intros [(-> & H)|(Hm & Ho & -> & Hn & H1 & H2)].
    - destruct (ok n) eqn:O; cbn [negb].
      + destruct (flt_lt NInf (w n)) eqn:E.
        * right. split; [lia|]. split; [auto|]. split; [auto|]. split; [auto|].
          assert (U : forall i, i < n -> ok i = true -> flt_le (w n) (w i) = false).
          { intros i Hi Hoi. specialize (H i Hi Hoi). unfold flt_le.
            destruct (w i), (w n); cbn in *; auto; discriminate. }
          split; [|exact U]. intros i Hi Hoi. destruct (Nat.eq_dec i n) as [->|Ne].
          { apply flt_lt_irrefl. }
          { specialize (U i ltac:(lia) Hoi). unfold flt_le in U.
            apply orb_false_iff in U. tauto. }
        * left. split; [auto|]. intros i Hi Hoi.
          destruct (Nat.eq_dec i n) as [->|]; [auto|]. apply H; auto; lia.
      + left. split; [auto|]. intros i Hi Hoi.
        destruct (Nat.eq_dec i n) as [->|]; [congruence|]. apply H; auto; lia.
    - destruct (ok n) eqn:O; cbn [negb].
      + destruct (flt_lt (w m) (w n)) eqn:E.
        * right. split; [lia|]. split; [auto|]. split; [auto|].
          split; [eapply flt_lt_trans; eauto|].
          assert (U : forall i, i < n -> ok i = true -> flt_le (w n) (w i) = false).
          { intros i Hi Hoi. specialize (H1 i Hi Hoi).
            destruct (flt_le (w n) (w i)) eqn:L; auto.
            rewrite (flt_le_lt_trans _ _ _ E L) in H1. discriminate. }
          split; [|exact U]. intros i Hi Hoi. destruct (Nat.eq_dec i n) as [->|Ne].
          { apply flt_lt_irrefl. }
          { specialize (U i ltac:(lia) Hoi). unfold flt_le in U.
            apply orb_false_iff in U. tauto. }
        * right. split; [lia|]. split; [auto|]. split; [auto|]. split; [auto|].
          split; [|auto]. intros i Hi Hoi.
          destruct (Nat.eq_dec i n) as [->|]; [auto|]. apply H1; auto; lia.
      + right. split; [lia|]. split; [auto|]. split; [auto|]. split; [auto|].
        split; [|auto]. intros i Hi Hoi.
        destruct (Nat.eq_dec i n) as [->|]; [congruence|]. apply H1; auto; lia.
  Qed.
  Lemma best_row_inv k n m v : best_inv n m v ->
    let '(m', v') := best_row (map (fun i => (w i, ok i)) (seq n k)) n m v in
    best_inv (n + k) m' v'.
  Proof.
    revert n m v. induction k as [|k IH]; intros n m v H; cbn [seq map best_row].
    - rewrite Nat.add_0_r. exact H.
    - pose proof (best_step n m v H) as B. replace (n + S k) with (S n + k) by lia.
      destruct (ok n); cbn [negb] in *; [destruct (flt_lt v (w n))|]; apply IH; exact B.
  Qed.
End Best.

Lemma combine_map {A B C} (f : A -> B) (g : A -> C) l :
  combine (map f l) (map g l) = map (fun x => (f x, g x)) l.
Proof. induction l; cbn; congruence. Qed.

(** Column by column: the pairs (row, column) kept. *)
Definition pick (r c : nat) (w : nat -> flt) (ok : nat -> bool) (j : nat) : list (nat * nat) :=
  let (m, v) := best_row (map (fun i => (w (i * c + j), ok (i * c + j))) (seq 0 r)) 0 0 NInf in
  if flt_eq v NInf then [] else [(m, j)].
Lemma pick_spec r c w ok i j j' :
  In (i, j') (pick r c w ok j) <->
  j' = j /\ i < r /\ ok (i * c + j) = true /\ w (i * c + j) <> NaN /\ w (i * c + j) <> NInf
  /\ (forall i', i' < r -> ok (i' * c + j) = true -> flt_lt (w (i * c + j)) (w (i' * c + j)) = false)
  /\ (forall i', i' < i -> ok (i' * c + j) = true -> flt_le (w (i * c + j)) (w (i' * c + j)) = false).
Proof.
  unfold pick.
  pose proof (best_row_inv (fun i => w (i * c + j)) (fun i => ok (i * c + j)) r 0 0 NInf) as B.
  destruct (best_row _ 0 0 NInf) as [m v].
  specialize (B (or_introl (conj eq_refl (fun i (H : i < 0) => match Nat.nlt_0_r _ H with end)))).
  cbn [Nat.add] in B. destruct B as [(-> & H)|(Hm & Ho & -> & Hn & H1 & H2)].
  - cbn. split; [tauto|]. intros (_ & Hi & Hok & Hw). specialize (H i Hi Hok).
    assert (flt_lt NInf (w (i * c + j)) = true); [apply flt_ninf_lt; tauto|congruence].
  - assert (flt_eq (w (m * c + j)) NInf = false) as ->.
    { destruct (w (m * c + j)); cbn in *; auto; discriminate. }
    cbn [In]. split.
    + intros [[= <- <-]|[]]. apply flt_ninf_lt in Hn. tauto.
    + intros (-> & Hi & Hok & Hn1 & Hn2 & G1 & G2). left. f_equal.
      destruct (Nat.lt_trichotomy m i) as [L|[E|L]]; auto; exfalso.
      * specialize (G2 m L Ho). specialize (H1 i Hi Hok). unfold flt_le in G2.
        apply orb_false_iff in G2 as [G2 G3]. apply flt_ninf_lt in Hn.
        destruct (flt_total (w (i * c + j)) (w (m * c + j))) as [T|T]; try tauto; try congruence.
        rewrite T in G3. destruct (w (m * c + j)); cbn in *; try tauto; try discriminate.
        destruct (Qceqb_spec q q); congruence.
      * specialize (H2 i L Hok). specialize (G1 m Hm Ho). unfold flt_le in H2.
        apply orb_false_iff in H2 as [K2 G3]. apply flt_ninf_lt in Hn.
        destruct (flt_total (w (m * c + j)) (w (i * c + j))) as [T|T]; try tauto; try congruence.
        rewrite T in G3. destruct (w (i * c + j)); cbn in *; try tauto; try discriminate.
        destruct (Qceqb_spec q q); congruence.
Qed.
Lemma pick_nonempty r c w ok j i :
  i < r -> ok (i * c + j) = true -> w (i * c + j) <> NaN -> w (i * c + j) <> NInf ->
  exists m, In (m, j) (pick r c w ok j).
Proof.
  intros Hi Hok W1 W2. unfold pick.
  pose proof (best_row_inv (fun i => w (i * c + j)) (fun i => ok (i * c + j)) r 0 0 NInf) as B.
  destruct (best_row _ 0 0 NInf) as [m v].
  specialize (B (or_introl (conj eq_refl (fun i (H : i < 0) => match Nat.nlt_0_r _ H with end)))).
  cbn [Nat.add] in B. destruct B as [(-> & H)|(Hm & Ho & -> & Hn & H1 & H2)].
  - specialize (H i Hi Hok). assert (flt_lt NInf (w (i * c + j)) = true); [apply flt_ninf_lt; tauto|congruence].
  - exists m. assert (flt_eq (w (m * c + j)) NInf = false) as ->.
    { destruct (w (m * c + j)); cbn in *; auto; discriminate. }
    left; reflexivity.
Qed.

Definition selection (r c : nat) (p : peaks) : list (nat * nat) :=
  flat_map (pick r c (weight p) (is_valid p)) (seq 0 c).

Lemma selection_In r c p i j : In (i, j) (selection r c p) <-> strongest r c p i j.
Proof.
  unfold selection. rewrite in_flat_map. unfold strongest, usable. split.
  - intros (j' & Hj & H). apply in_seq in Hj. apply pick_spec in H.
    destruct H as (-> & H). split; [tauto|]. split; [lia|]. tauto.
  - intros (Hi & Hj & H). exists j. split; [apply in_seq; lia|]. apply pick_spec. tauto.
Qed.
Lemma flat_map_sorted (f : nat -> list (nat * nat)) a n :
  (forall j, f j = [] \/ exists m, f j = [(m, j)]) ->
  StronglySorted lt (map snd (flat_map f (seq a n)))
  /\ Forall (le a) (map snd (flat_map f (seq a n))).
Proof.
  intros Hf. revert a. induction n as [|n IH]; intros a; cbn [seq flat_map].
  { split; constructor. }
  destruct (IH (S a)) as [I1 I2].
  assert (I3 : Forall (lt a) (map snd (flat_map f (seq (S a) n)))) by exact I2.
  assert (I4 : Forall (le a) (map snd (flat_map f (seq (S a) n)))).
  { eapply Forall_impl; [|exact I3]. intros; cbn in *; lia. }
  destruct (Hf a) as [->|(m & ->)]; cbn [app map snd]; split; auto; constructor; auto.
Qed.
Lemma selection_sorted r c p : StronglySorted lt (map snd (selection r c p)).
Proof.
  unfold selection. apply flat_map_sorted. intros j. unfold pick.
  destruct (best_row _ 0 0 NInf). destruct (flt_eq f NInf); eauto.
Qed.

Lemma flat_map_ext_in {A B} (f g : A -> list B) l :
  (forall x, In x l -> f x = g x) -> flat_map f l = flat_map g l.
Proof.
  induction l as [|a l IH]; intros H; cbn; auto.
  rewrite H by (left; auto). rewrite IH; auto. intros; apply H; right; auto.
Qed.
Lemma map_flat_map {A B C} (g : B -> C) (f : A -> list B) l :
  map g (flat_map f l) = flat_map (fun x => map g (f x)) l.
Proof. induction l; cbn; auto. rewrite map_app. congruence. Qed.

Lemma idx_lt r c i j : i < r -> j < c -> i * c + j < r * c.
Proof. intros. assert (i * c + c <= r * c) by nia. lia. Qed.

Lemma simplify_2d r c p k : well_formed (S2 r c) p -> has_attr p k ->
  simplify_mpeaks p k = Ok (map (fun ij => value p k (fst ij * c + snd ij)) (selection r c p)).
Proof.
  intros W H. pose proof W as (_ & _ & Sv & Lv & _).
  destruct (stored_ok _ p W k H) as (a & Ea & Sa & La & Na).
  unfold simplify_mpeaks. rewrite Ea. cbn [bind]. rewrite Sa.
  assert (exists d, match assoc "power" (fields p) with
                   | Some d => Ok d
                   | None => field_of p "frequency"
                   end = Ok d /\ shp d = S2 r c /\ List.length (dat d) = r * c
                   /\ forall i, nth i (dat d) NaN = weight p i) as (d & -> & Sd & Ld & Nd).
  { unfold weight. destruct (assoc "power" (fields p)) as [d|] eqn:E.
    - exists d. split; [auto|]. destruct (wf_field _ p W _ _ E) as (S' & L' & N').
      split; [auto|]. split; [exact L'|].
      assert (existsb (String.eqb "power") (map fst (fields p)) = true) as ->; [|auto].
      apply existsb_exists. exists "power". split; [|reflexivity].
      apply assoc_In in E. apply (in_map fst) in E. exact E.
    - destruct (field_of_ok _ p W "frequency" (wf_base _ p W _ (or_introl eq_refl)))
        as (d & Ed & S' & L' & N'). exists d. split; [auto|]. split; [auto|]. split; [exact L'|].
      assert (existsb (String.eqb "power") (map fst (fields p)) = false) as ->; [|exact N'].
      apply assoc_none in E. destruct (existsb _ _) eqn:X; auto. exfalso.
      apply existsb_exists in X as (x & X1 & X2). apply String.eqb_eq in X2. subst. tauto. }
  cbn [bind]. rewrite Sd, Sv, !shape_eqb_refl. cbn [andb]. f_equal.
  unfold simplify_cols, selection, column. rewrite map_flat_map. unfold range.
  apply flat_map_ext_in. intros j Hj. apply in_seq in Hj.
  unfold pick. rewrite combine_map.
  rewrite (map_ext_in _ (fun i => (weight p (i * c + j), is_valid p (i * c + j)))).
  2:{ intros i Hi. unfold at2. rewrite Nd. reflexivity. }
  pose proof (best_row_inv (fun i => weight p (i * c + j)) (fun i => is_valid p (i * c + j)) r 0 0 NInf) as B.
  destruct (best_row _ 0 0 NInf) as [m v].
  specialize (B (or_introl (conj eq_refl (fun i (H : i < 0) => match Nat.nlt_0_r _ H with end)))).
  destruct B as [(-> & _)|(Hm & Ho & -> & Hn & _)]; cbn [flt_eq map]; [reflexivity|].
  destruct (flt_eq (weight p (m * c + j)) NInf); cbn [map fst snd]; [reflexivity|].
  unfold at2. rewrite Na by (cbn [size]; apply idx_lt; lia). reflexivity.
Qed.
Lemma simplify_1d n p k : well_formed (S1 n) p -> has_attr p k ->
  simplify_mpeaks p k = public p k.
Proof.
  intros W H. destruct (stored_ok _ p W k H) as (a & Ea & Sa & La & Na).
  unfold simplify_mpeaks. rewrite Ea. cbn [bind]. rewrite Sa. reflexivity.
Qed.
Lemma simplify_err s p k : well_formed s p -> ~ has_attr p k ->
  simplify_mpeaks p k = Err AttributeError.
Proof. intros W H. unfold simplify_mpeaks. rewrite (stored_err p k H). reflexivity. Qed.
