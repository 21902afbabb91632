(* Properties C91 (loading peaks from any JSON document) and C92 (arrays of different lengths). *)
From Verif Require Import PyFacts NumFacts PeaksModel PeaksSpec PeaksProofs PeaksJsonProofs PeaksLoadSpec PeaksLoadProofs PeaksTreeSpec PeaksProps.
Local Open Scope string_scope.
Local Open Scope nat_scope.
Local Open Scope list_scope.

(** ** C91 *)
(** A dataset of lists and tables is accepted exactly if it holds peaks, and the result is the peaks it holds.  (Single values,
    deeper lists and texts: PeaksTreeProps.v.) *)
Theorem C91_dataset : forall d ident p, NoDup (keys d) -> flat_document d -> (snd (from_dict d ident) = Ok p <-> holds d ident p).
Proof. intros d ident p N _. now apply loaded. Qed.
Print Assumptions C91_dataset.

(** A file is accepted exactly if its first dataset holds peaks. *)
Theorem C91_file : forall f p, (forall k d rest, f = Doc (JObj ((k, JObj d) :: rest)) -> NoDup (keys d) /\ flat_document d) ->
  (from_json f = Ok p <-> exists k d rest, f = Doc (JObj ((k, JObj d) :: rest)) /\ holds d k p).
Proof. intros f p H. apply from_json_iff. intros k d rest E. now destruct (H k d rest E). Qed.
Print Assumptions C91_file.

(** What is said of other files. *)
Theorem C91_no_document :
  from_json Absent = Err FileNotFoundError /\ from_json Broken = Err ValueError /\ from_json (Doc (JObj [])) = Err IndexError /\
  (forall j, (forall kv, j <> JObj kv) -> from_json (Doc j) = Err AttributeError) /\
  (forall k j rest, (forall d, j <> JObj d) -> from_json (Doc (JObj ((k, j) :: rest))) = Err AttributeError).
Proof.
  repeat split.
  - intros j H. destruct j as [| | | | |kv]; try reflexivity. exfalso. now apply (H kv).
  - intros k j rest H. destruct j as [| | | | |d]; try reflexivity. exfalso. now apply (H d).
Qed.
Print Assumptions C91_no_document.
Theorem C91_incomplete : forall d ident, NoDup (keys d) ->
  In "identifier" (keys d) \/ In "self" (keys d) \/ ~ In "frequency" (keys d) \/ ~ In "velocity" (keys d) -> snd (from_dict d ident) = Err TypeError.
Proof. exact incomplete_type_error. Qed.
Print Assumptions C91_incomplete.
Theorem C91_computed : forall d ident, NoDup (keys d) ->
  ~ In "identifier" (keys d) -> ~ In "self" (keys d) -> In "frequency" (keys d) -> In "velocity" (keys d) ->
  (exists k, In k (keys d) /\ In k ["slowness"; "wavelength"; "wavenumber"]) ->
  (forall k, In k (keys d) -> ~ In k kept_by_python) ->
  (forall k j, In (k, j) d -> k <> "valid" -> exists a, array_of number j a) ->
  snd (from_dict d ident) = Err AttributeError.
Proof. intros d ident N NI NS Kf Kv Kc _ Arr. now apply computed_attribute_error. Qed.
Print Assumptions C91_computed.

(** A hand-written dataset: a null velocity, no mask, one more array. *)
Definition by_hand : dict json :=
  [("azimuth", JArr [JNum (z 10); JNum (z 20)]); ("velocity", JArr [JNum (z 200); JNull]); ("frequency", JArr [JNum (z 5); JNum (z 8)])].
Definition hand_peaks : peaks :=
  mkPeaks "h" [("frequency", ND (S1 2) [z 5; z 8]); ("velocity", ND (S1 2) [z 200; NaN]); ("azimuth", ND (S1 2) [z 10; z 20])] (ND (S1 2) [true; false]).
Example C91_by_hand : holds by_hand "h" hand_peaks.
Proof. apply loaded; [|reflexivity]. repeat constructor; cbn; intuition discriminate. Qed.
Example C91_by_hand_flat : flat_document by_hand.
Proof.
  intros k j I. split; [intros K; destruct I as [E|[E|[E|[]]]]; injection E as <- _; cbn in K; intuition discriminate|left].
  destruct I as [E|[E|[E|[]]]]; injection E as _ <-; eexists; (split; [reflexivity|]); intros x Ix; left; destruct Ix as [<-|[<-|[]]]; split; discriminate.
Qed.
Example C91_computed_example : snd (from_dict (("slowness", JArr [JNum (z 1); JNull]) :: by_hand) "h") = Err AttributeError.
Proof. reflexivity. Qed.
(** Rows of different lengths are refused. *)
Example C91_ragged_example : forall a, ~ array_of number (JArr [JArr [JNum (z 1)]; JArr [JNum (z 1); JNum (z 2)]]) a.
Proof. intros a H. apply numbers_iff in H. discriminate. Qed.

(** ** C92 *)
(** Frequencies and velocities of different lengths are accepted by the constructor... *)
Theorem C92_accepted_refuted : exists f v p, shp f = S1 3 /\ List.length (dat f) = 3 /\ shp v = S1 2 /\ List.length (dat v) = 2 /\
  new_peaks f v "0" [] = Ok p.
Proof. exists (ND (S1 3) [z 5; z 8; z 9]), (ND (S1 2) [z 200; z 150]). eexists. repeat split. Qed.
Print Assumptions C92_accepted_refuted.
(** ...but nothing that needs both can be read, *)
Theorem C92_frequencies : forall n m f v ident kw p, n <> m -> shp f = S1 n -> shp v = S1 m -> new_peaks f v ident kw = Ok p ->
  forall k, In k ["frequency"; "wavelength"; "wavenumber"] -> public p k = Err IndexError.
Proof.
  intros n m f v ident kw p D Sf Sv H k K. unfold new_peaks in H. destruct (existsb _ kw); [discriminate|]. injection H as <-.
  assert (E : shape_eqb (shp v) (shp f) = false) by (rewrite Sf, Sv; cbn; apply Nat.eqb_neq; auto).
  assert (V : shape_eqb (shp v) (shp v) = true) by (rewrite Sv; cbn; apply Nat.eqb_refl).
  destruct K as [<-|[<-|[<-|[]]]]; unfold public, masked, field_of, nd_select; cbn [String.eqb Ascii.eqb Bool.eqb assoc fields valid propertied orb bind nd_map shp];
    rewrite ?V; cbn [bind]; rewrite ?E; reflexivity.
Qed.
Print Assumptions C92_frequencies.
(** nor can any other array of another length than the velocities. *)
Theorem C92_others : forall n m f v ident kw p k a, n <> m -> shp v = S1 m -> new_peaks f v ident kw = Ok p ->
  NoDup ("frequency" :: "velocity" :: map fst kw) -> In (k, a) kw -> shp a = S1 n ->
  In k ["azimuth"; "ellipticity"; "noise"; "power"] -> public p k = Err IndexError.
Proof.
  intros n m f v ident kw p k a D Sv H N I Sa K. unfold new_peaks in H. destruct (existsb _ kw); [discriminate|]. injection H as <-.
  assert (E : shape_eqb (shp v) (shp a) = false) by (rewrite Sa, Sv; cbn; apply Nat.eqb_neq; auto).
  assert (A : assoc k kw = Some a).
  { inversion N as [|? ? _ N1]; inversion N1 as [|? ? _ N2]; subst. clear - I N2. induction kw as [|[x b] kw IH]; [destruct I|].
    cbn [map fst] in N2. inversion N2 as [|? ? N3 N4]; subst. cbn [assoc]. destruct I as [Q|I].
    - injection Q as -> ->. now rewrite String.eqb_refl.
    - destruct (String.eqb_spec k x) as [->|]; auto. exfalso. apply N3. now apply (in_map fst) in I. }
  destruct K as [<-|[<-|[<-|[<-|[]]]]]; unfold public, masked, field_of, nd_select;
    cbn [String.eqb Ascii.eqb Bool.eqb assoc fields valid propertied orb]; rewrite A; cbn [bind nd_map shp]; rewrite E; reflexivity.
Qed.
Print Assumptions C92_others.
(** Rejecting by the limits of such an array fails and leaves the object as it is, also where numpy repeats the mask of a
    single velocity. *)
Theorem C92_rejection : forall n m f v ident kw p lo hi, n <> m -> shp f = S1 n -> shp v = S1 m -> new_peaks f v ident kw = Ok p ->
  reject_limits p "frequency" lo hi = (p, Err (if negb (Nat.eqb m 1) && (match lo, hi with None, None => false | _, _ => true end) then ValueError else IndexError)).
Proof.
  intros n m f v ident kw p lo hi D Sf Sv H. unfold new_peaks in H. destruct (existsb _ kw); [discriminate|]. injection H as <-.
  assert (E : shape_eqb (S1 m) (S1 n) = false) by (cbn; apply Nat.eqb_neq; auto).
  assert (W : forall test mask out a, shp mask = S1 m -> shp out = S1 n -> shp a = S1 n ->
            where_set test mask out a = if Nat.eqb m 1 then Ok (ND (S1 n) (map2 (fun mo x => if fst mo : bool then test x else snd mo)
              (map2 pair (flat_map (fun x => repeat x n) (dat mask)) (dat out)) (dat a))) else Err ValueError).
  { intros test mask out a Sm So Sa. unfold where_set. rewrite So, (stretch_same (S1 n) a Sa). unfold stretch. rewrite Sm, E. now destruct (Nat.eqb m 1). }
  assert (S0 : forall out a, shp out = S1 n -> shp a = S1 n -> forall test mask, shp mask = S1 n -> exists b, where_set test mask out a = Ok b /\ shp b = S1 n).
  { intros out a So Sa test mask Sm. unfold where_set. rewrite So, !stretch_same by auto. eexists. split; reflexivity. }
  unfold reject_limits, limits_mask, stored, field_of. cbn [String.eqb Ascii.eqb Bool.eqb assoc fields bind].
  assert (R : forall p' b, shp (valid p') = S1 m -> shp b = S1 n -> reject p' b = (p', Err IndexError)).
  { intros p' b Sp Sb. unfold reject. now rewrite Sp, Sb, E. }
  destruct lo as [mn|], hi as [mx|]; cbn [valid nd_map]; rewrite ?W by auto; destruct (Nat.eqb m 1) eqn:M; cbn [negb andb bind]; try reflexivity; try (now apply R).
  unfold nd_map2. cbn [shp valid nd_map wider_shape]. rewrite Sv. apply Nat.eqb_eq in M. subst m. change (wider_shape (S1 1) (S1 n)) with (S1 n).
  rewrite (stretch_same (S1 n) (ND (S1 n) _)) by reflexivity. unfold stretch at 1. cbn [shp nd_map]. rewrite Sv, E. cbn [Nat.eqb bind].
  match goal with |- context [where_set ?t ?m ?o f] => destruct (S0 o f eq_refl Sf t m eq_refl) as (b & Eb & Sb) end. rewrite Eb. now apply R.
Qed.
Print Assumptions C92_rejection.
(** A box is refused in the same way when its first quantity has another length than the velocities... *)
Theorem C92_box : forall p xt yt xs ys n m k xl yl, shp (valid p) = S1 m -> stored p xt = Ok xs -> stored p yt = Ok ys ->
  shp xs = S1 n -> shp ys = S1 k -> n <> m \/ k <> n /\ k <> 1 ->
  exists e, reject_box p xt xl yt yl = (p, Err e).
Proof.
  intros p xt yt xs ys n m k xl yl Sv Hx Hy Sx Sy D. unfold reject_box, box_mask. rewrite Hx, Hy. cbn [bind].
  assert (W : forall test mask out a, shp out = S1 n -> (exists b, where_set test mask out a = Ok b /\ shp b = S1 n) \/ where_set test mask out a = Err ValueError).
  { intros test mask out a So. unfold where_set. rewrite So. destruct (stretch (S1 n) mask), (stretch (S1 n) a); auto. left. eexists. split; reflexivity. }
  destruct (W (fun x => flt_lt (pymin xl) x) (valid p) (zeros_like xs) xs Sx) as [(b1 & -> & S1')| ->]; cbn [bind]; [|eauto].
  destruct (W (fun x => flt_lt x (pymax xl)) b1 b1 xs S1') as [(b2 & -> & S2')| ->]; cbn [bind]; [|eauto].
  destruct D as [D|[D1 D2]].
  - destruct (W (fun y => flt_lt (pymin yl) y) b2 b2 ys S2') as [(b3 & -> & S3')| ->]; cbn [bind]; [|eauto].
    destruct (W (fun y => flt_lt y (pymax yl)) b3 b3 ys S3') as [(b4 & -> & S4')| ->]; [|eauto].
    exists IndexError. unfold reject. rewrite Sv, S4'. cbn [shape_eqb]. replace (Nat.eqb m n) with false by (symmetry; apply Nat.eqb_neq; auto). reflexivity.
  - exists ValueError. unfold where_set at 1. rewrite S2'. unfold stretch at 2. rewrite Sy. cbn [shape_eqb]. apply Nat.eqb_neq in D1, D2. rewrite D1, D2.
    destruct (stretch (S1 n) b2); reflexivity.
Qed.
Print Assumptions C92_box.
(** ...but a second quantity with a single value is used for every peak: if it lies in the box, every valid peak whose first
    quantity does is rejected, and otherwise none. *)
Theorem C92_single_refuted : forall p xt yt xs ys n y xl yl, shp (valid p) = S1 n -> stored p xt = Ok xs -> stored p yt = Ok ys ->
  shp xs = S1 n -> shp ys = S1 1 -> dat ys = [y] -> List.length (dat (valid p)) = n -> List.length (dat xs) = n ->
  exists p', reject_box p xt xl yt yl = (p', Ok tt) /\ fields p' = fields p /\ npeaks p' = n /\
    forall i, i < n -> is_valid p' i = is_valid p i && negb (strictly_between xl (nth i (dat xs) NaN) && strictly_between yl y).
Proof.
  intros p xt yt xs ys n y xl yl Sv Hx Hy Sx Sy Dy Lv Lx. unfold reject_box, box_mask. rewrite Hx, Hy. cbn [bind].
  destruct (zeros_like_ok (S1 n) xs Sx Lx) as (Sz & Lz & Nz).
  destruct (where_set_ok (S1 n) (fun x => flt_lt (pymin xl) x) (valid p) (zeros_like xs) xs) as (b1 & -> & S1' & L1 & N1); auto. cbn [bind].
  destruct (where_set_ok (S1 n) (fun x => flt_lt x (pymax xl)) b1 b1 xs) as (b2 & -> & S2' & L2 & N2); auto. cbn [bind].
  assert (Y : forall test b, shp b = S1 n -> where_set test b b ys = where_set test b b (ND (S1 n) (repeat y n))).
  { intros test b Sb. unfold where_set. rewrite Sb, (stretch_same (S1 n) (ND (S1 n) (repeat y n))) by reflexivity. cbn [dat].
    replace (stretch (S1 n) ys) with (Some (repeat y n)); auto. unfold stretch. rewrite Sy, Dy. cbn [shape_eqb Nat.eqb].
    destruct n as [|[|n']]; cbn [Nat.eqb flat_map]; now rewrite ?app_nil_r. }
  rewrite Y by auto. destruct (where_set_ok (S1 n) (fun y => flt_lt (pymin yl) y) b2 b2 (ND (S1 n) (repeat y n))) as (b3 & -> & S3' & L3 & N3); auto; [apply repeat_length|].
  cbn [bind]. rewrite Y by auto. destruct (where_set_ok (S1 n) (fun y => flt_lt y (pymax yl)) b3 b3 (ND (S1 n) (repeat y n))) as (b4 & -> & S4' & L4 & N4); auto; [apply repeat_length|].
  unfold reject. rewrite Sv, S4', shape_eqb_refl. eexists. split; [reflexivity|]. split; [reflexivity|]. cbn [size] in *. unfold npeaks. cbn [set_valid valid dat].
  split; [rewrite length_map2; lia|]. intros i Hi. unfold is_valid. cbn [set_valid valid dat]. rewrite (nth_map2 _ _ _ _ false false) by lia.
  rewrite N4, N3, N2, N1, Nz by auto. cbn [dat]. rewrite (nth_indep (repeat y n) NaN y) by (rewrite repeat_length; auto). rewrite nth_repeat_any. rewrite <- !between_minmax. set (x := nth i (dat xs) NaN).
  destruct (nth i (dat (valid p)) false); cbn [andb negb];
    destruct (flt_lt (pymin xl) x), (flt_lt x (pymax xl)), (flt_lt (pymin yl) y), (flt_lt y (pymax yl)); reflexivity.
Qed.
Print Assumptions C92_single_refuted.
(** Likewise a single frequency is used for every velocity when peaks are rejected by wavelength, although no wavelength can
    be read (C92_frequencies). *)
Theorem C92_wavelength_refuted : forall n y v ident kw p lo hi, shp v = S1 n -> List.length (dat v) = n -> new_peaks (ND (S1 1) [y]) v ident kw = Ok p ->
  exists p', reject_limits p "wavelength" lo hi = (p', Ok tt) /\ fields p' = fields p /\
    forall i, i < n -> is_valid p' i = negb (is_nan (nth i (dat v) NaN)) && negb (outside lo hi (fdiv (nth i (dat v) NaN) y)).
Proof.
  intros n y v ident kw p lo hi Sv Lv H. unfold new_peaks in H. destruct (existsb _ kw); [discriminate|]. injection H as <-.
  set (q := mkPeaks ident [("frequency", ND (S1 n) (repeat y n)); ("velocity", v)] (nd_map (fun v => negb (is_nan v)) v)).
  assert (W : well_formed (S1 n) q).
  { split; [now exists (ND (S1 n) (repeat y n)), v, []|]. split; [repeat apply Forall_cons; cbn [snd shp dat size]; rewrite ?repeat_length; auto|].
    split; [exact Sv|]. split; [cbn; now rewrite map_length|]. cbn [q fields map fst]. split.
    - constructor; [|constructor; [|constructor]]; cbn; intuition discriminate.
    - repeat apply Forall_cons; auto; repeat split; discriminate. }
  assert (V : nd_map2 fdiv v (ND (S1 1) [y]) = nd_map2 fdiv v (ND (S1 n) (repeat y n))).
  { rewrite (nd_map2_same _ (S1 n) v (ND (S1 n) (repeat y n))) by auto. unfold nd_map2. rewrite Sv. cbn [shp wider_shape]. cbn [dat].
    replace (wider n 1) with n by (unfold wider; destruct (Nat.eqb_spec n 1); auto). rewrite (stretch_same (S1 n) v Sv).
    replace (stretch (S1 n) (ND (S1 1) [y])) with (Some (repeat y n)); auto. unfold stretch. cbn [shp shape_eqb dat].
    destruct n as [|[|n']]; cbn [Nat.eqb flat_map]; now rewrite ?app_nil_r. }
  set (p := mkPeaks ident _ _). assert (M : limits_mask p "wavelength" lo hi = limits_mask q "wavelength" lo hi).
  { unfold limits_mask, stored, field_of. cbn [String.eqb Ascii.eqb Bool.eqb assoc fields bind p q]. rewrite V. reflexivity. }
  destruct (limits_mask_ok (S1 n) q "wavelength" lo hi W) as (b & Eb & Sb & Lb & Nb); [left; unfold derived; auto|].
  unfold reject_limits. rewrite M, Eb. unfold reject. cbn [p valid nd_map shp]. rewrite Sv, Sb, shape_eqb_refl. eexists. split; [reflexivity|]. split; [reflexivity|].
  intros i Hi. cbn [size] in Lb. unfold is_valid. cbn [set_valid valid dat].
  unfold p, nd_map. cbn [valid dat]. rewrite (nth_map2 _ _ _ _ false false) by (rewrite ?map_length; lia).
  rewrite (nth_map_lt _ _ i false NaN) by lia. specialize (Nb i). unfold is_valid in Nb. cbn [q valid nd_map dat] in Nb. rewrite (nth_map_lt _ _ i false NaN) in Nb by lia.
  destruct (is_nan (nth i (dat v) NaN)) eqn:E; cbn [negb andb] in *; [now destruct (nth i (dat b) false)|]. rewrite Nb by auto.
  replace (value q "wavelength" i) with (fdiv (nth i (dat v) NaN) y); [now destruct (outside _ _ _)|].
  unfold value, vel, frq, raw. cbn [String.eqb Ascii.eqb Bool.eqb fields q raw_of]. cbn [dat].
  rewrite (nth_indep (repeat y n) NaN y) by (rewrite repeat_length; auto). now rewrite nth_repeat_any.
Qed.
Print Assumptions C92_wavelength_refuted.
(** More generally, frequencies of any shape that numpy stretches to the table of velocities are stretched. *)
Theorem C92_broadcast_refuted : forall r c f v ident kw p lo hi, fits (shp f) r c = true -> List.length (dat f) = size (shp f) ->
  shp v = S2 r c -> List.length (dat v) = r * c -> new_peaks f v ident kw = Ok p ->
  exists p', reject_limits p "wavelength" lo hi = (p', Ok tt) /\ fields p' = fields p /\
    forall i j, i < r -> j < c -> let x := nth (i * c + j) (dat v) NaN in
      is_valid p' (i * c + j) = negb (is_nan x) && negb (outside lo hi (fdiv x (nth (taken (shp f) i j) (dat f) NaN))).
Proof.
  intros r c f v ident kw p lo hi Ff Lf Sv Lv H. unfold new_peaks in H. destruct (existsb _ kw); [discriminate|]. injection H as <-.
  destruct (stretch_fits r c f Ff Lf) as (rows & SR & LR & NR).
  set (q := mkPeaks ident [("frequency", ND (S2 r c) rows); ("velocity", v)] (nd_map (fun v => negb (is_nan v)) v)).
  assert (W : well_formed (S2 r c) q).
  { split; [now exists (ND (S2 r c) rows), v, []|]. split; [repeat apply Forall_cons; cbn [snd shp dat size]; auto|].
    split; [exact Sv|]. split; [cbn; now rewrite map_length|]. cbn [q fields map fst]. split.
    - constructor; [|constructor; [|constructor]]; cbn; intuition discriminate.
    - repeat apply Forall_cons; auto; repeat split; discriminate. }
  assert (V : nd_map2 fdiv v f = nd_map2 fdiv v (ND (S2 r c) rows)).
  { rewrite (nd_map2_same _ (S2 r c) v (ND (S2 r c) rows)) by auto. unfold nd_map2. rewrite Sv, (wider_fits r c _ Ff), (stretch_same (S2 r c) v Sv). now rewrite SR. }
  set (p := mkPeaks ident _ _). assert (M : limits_mask p "wavelength" lo hi = limits_mask q "wavelength" lo hi).
  { unfold limits_mask, stored, field_of. cbn [String.eqb Ascii.eqb Bool.eqb assoc fields bind p q]. rewrite V. reflexivity. }
  destruct (limits_mask_ok (S2 r c) q "wavelength" lo hi W) as (b & Eb & Sb & Lb & Nb); [left; unfold derived; auto|].
  unfold reject_limits. rewrite M, Eb. unfold reject. cbn [p valid nd_map shp]. rewrite Sv, Sb, shape_eqb_refl. eexists. split; [reflexivity|]. split; [reflexivity|].
  intros i j Hi Hj. assert (Hk : i * c + j < r * c) by nia. specialize (NR i j NaN Hi Hj).
  set (k := i * c + j) in *. cbn [size] in Lb. unfold is_valid. cbn [set_valid valid dat].
  unfold p, nd_map. cbn [valid dat]. rewrite (nth_map2 _ _ _ _ false false) by (rewrite ?map_length; lia).
  rewrite (nth_map_lt _ _ k false NaN) by lia. specialize (Nb k). unfold is_valid in Nb. cbn [q valid nd_map dat] in Nb. rewrite (nth_map_lt _ _ k false NaN) in Nb by lia.
  destruct (is_nan (nth k (dat v) NaN)) eqn:E; cbn [negb andb] in *; [now destruct (nth k (dat b) false)|]. rewrite Nb by auto.
  replace (value q "wavelength" k) with (fdiv (nth k (dat v) NaN) (nth (taken (shp f) i j) (dat f) NaN)); [now destruct (outside _ _ _)|].
  unfold value, vel, frq, raw. cbn [String.eqb Ascii.eqb Bool.eqb fields q raw_of]. cbn [dat]. now rewrite NR.
Qed.
Print Assumptions C92_broadcast_refuted.
(** Frequencies of any other shape are refused with ValueError by every rejection by wavelength, and no peak is rejected. *)
Theorem C92_unfit : forall r c f v ident kw p lo hi, fits (shp f) r c = false -> r <> 1 -> c <> 1 -> shp v = S2 r c -> lo <> None \/ hi <> None ->
  new_peaks f v ident kw = Ok p -> reject_limits p "wavelength" lo hi = (p, Err ValueError).
Proof.
  intros r c f v ident kw p lo hi Ff R1 C1 Sv B H. unfold new_peaks in H. destruct (existsb _ kw); [discriminate|]. injection H as <-.
  set (p := mkPeaks ident _ _).
  assert (W : stored p "wavelength" = Err ValueError).
  { unfold stored, field_of. cbn [String.eqb Ascii.eqb Bool.eqb assoc fields bind p]. unfold nd_map2. rewrite Sv, (wider_unfit r c _ R1 C1), (stretch_same (S2 r c) v Sv).
    now rewrite (stretch_unfit r c f Ff). }
  unfold reject_limits, limits_mask. destruct lo as [lo|], hi as [hi|]; try (destruct B; congruence); rewrite W; reflexivity.
Qed.
Print Assumptions C92_unfit.
(* two rows of three velocities: wavelengths above 20 m are rejected *)
Example C92_row_example : exists p, new_peaks (ND (S1 3) [z 5; z 8; z 9]) (ND (S2 2 3) [z 200; z 150; z 140; z 90; z 240; z 80]) "0" [] = Ok p /\
  dat (valid (fst (reject_limits p "wavelength" None (Some (z 20))))) = [false; true; true; true; false; true] /\
  (* one frequency for each row, and one row of two frequencies, which is refused *)
  fits (S2 2 1) 2 3 = true /\ fits (S1 2) 2 3 = false.
Proof. eexists. split; [reflexivity|]. repeat split; vm_compute; reflexivity. Qed.
(* one azimuth for three peaks: the two between 4 and 8.5 Hz are rejected *)
Example C92_single_example : exists p, new_peaks (ND (S1 3) [z 5; z 8; z 9]) (ND (S1 3) [z 200; z 150; z 140]) "0" [("azimuth", ND (S1 1) [z 40])] = Ok p /\
  public p "azimuth" = Err IndexError /\
  dat (valid (fst (reject_box p "frequency" (z 4, Fin (Q2Qc (17 # 2))) "azimuth" (z 0, z 90)))) = [false; false; true] /\
  reject_box p "azimuth" (z 0, z 90) "frequency" (z 4, z 8) = (p, Err ValueError).
Proof. eexists. split; [reflexivity|]. repeat split. Qed.
Example C92_example : exists p, new_peaks (ND (S1 3) [z 5; z 8; z 9]) (ND (S1 2) [z 200; z 150]) "0" [("power", ND (S1 1) [z 1])] = Ok p /\
  public p "frequency" = Err IndexError /\ public p "power" = Err IndexError /\
  match public p "velocity" with Ok l => List.length l = 2 | Err _ => False end.
Proof. eexists. split; [reflexivity|]. repeat split. Qed.

(** ** C43: comparison decides exactly this, and never raises *)
Theorem C43_compared : forall s t p q, well_formed s p -> well_formed t q ->
  (peaks_eq p q = Ok true /\ compares_equal p q) \/ (peaks_eq p q = Ok false /\ ~ compares_equal p q).
Proof. exact compared. Qed.
Print Assumptions C43_compared.
Example C43_compared_example : compares_equal sample sample /\ ~ compares_equal sample (fst (reject_limits sample "frequency" (Some (z 6)) None)).
Proof.
  assert (W' : well_formed (S2 2 3) (fst (reject_limits sample "frequency" (Some (z 6)) None))).
  { apply (C38_after_history _ sample [Limits "frequency" (Some (z 6)) None] sample_wf). }
  split.
  - destruct (C43_compared _ _ _ _ sample_wf sample_wf) as [[_ H]|[H _]]; [exact H|vm_compute in H; discriminate].
  - destruct (C43_compared _ _ _ _ sample_wf W') as [[H _]|[_ H]]; [vm_compute in H; discriminate|exact H].
Qed.

(** ** C41: what appending does to a file, whatever is in it *)
Theorem C41_append_outcome : forall p f,
  match f with
  | Absent => to_json p true f = ([], Err FileNotFoundError)
  | Broken => to_json p true f = ([], Err ValueError)
  | Doc (JObj old) =>
      (In (identifier p) (map fst old) /\ to_json p true f = ([], Err KeyError)) \/
      (~ In (identifier p) (map fst old) /\ snd (to_json p true f) = Ok tt
       /\ final f (fst (to_json p true f)) = Doc (JObj (old ++ [(identifier p, JObj (to_dict p))])))
  | Doc _ => to_json p true f = ([], Err AttributeError)
  end.
Proof.
  intros p [|[| | | | |old]|]; try reflexivity.
  destruct (in_dec string_dec (identifier p) (map fst old)) as [H|H].
  - left. split; [exact H|]. now apply C41_append_duplicate.
  - right. split; [exact H|]. now apply C41_append_ok.
Qed.
Print Assumptions C41_append_outcome.
Example C41_append_outcome_case : forall p, to_json p true (Doc (JArr [])) = ([], Err AttributeError).
Proof. intros p. exact (C41_append_outcome p (Doc (JArr []))). Qed.
