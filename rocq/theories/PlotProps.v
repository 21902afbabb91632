(* Properties of Peaks.plot (C82) and PeaksSuite.plot (C83). *)
From Verif Require Import PyFacts NumFacts PeaksModel PeaksSpec PeaksProofs PeaksProps.
From Verif Require Import SuiteModel SuiteProps PlotModel PlotSpec PlotProofs.
Local Open Scope string_scope.
Local Open Scope nat_scope.
Local Open Scope list_scope.

(** ** C82: what Peaks.plot draws *)
Theorem C82_points : forall s p x y xs ys kws mask,
  well_formed s p -> fits s mask -> means x xs -> means y ys -> xs <> [] -> List.length xs = List.length ys ->
  (forall k, In k xs \/ In k ys -> has_attr p k) ->
  exists axs, peaks_plot p x y kws mask = Ok axs /\ List.length axs = List.length xs /\
    forall j xt yt, nth_error xs j = Some xt -> nth_error ys j = Some yt ->
      exists l, artists (nth j axs []) = [l] /\ shows p mask xt yt l /\
        (forall key v, NoDup (map fst kws) -> assoc key kws = Some v -> assoc key (style l) = Some v) /\
        (NoDup (map fst kws) -> ~ In "label" (map fst kws) -> label_of l = identifier p).
Proof.
  intros s p x y xs ys kws mask W F Mx My Nx L A. unfold peaks_plot. rewrite (prepare_types_ok x y xs ys Mx My), L, Nat.eqb_refl. cbn [bind fst snd].
  assert (A' : forall xt yt, In (xt, yt) (combine xs ys) -> has_attr p xt /\ has_attr p yt).
  { intros xt yt I. apply in_combine_types in I. split; apply A; tauto. }
  destruct (plot_types_ok s p xs ys kws mask W F Nx A') as (axs & -> & Fa). exists axs. split; [reflexivity|]. split.
  { apply Forall2_length in Fa. rewrite combine_length, L, Nat.min_id in Fa. exact (eq_sym Fa). }
  intros j xt yt Hx Hy. pose proof (combine_nth_error _ _ _ _ _ Hx Hy) as Ht.
  destruct (nth_error axs j) as [ax|] eqn:Ha.
  2: { exfalso. assert (X : j < List.length (combine xs ys)) by (apply nth_error_Some; congruence). rewrite (Forall2_length _ _ _ Fa) in X. exact (proj2 (nth_error_Some axs j) X Ha). }
  destruct (forall2_nth _ _ _ _ _ _ Fa Ht Ha) as (l & El & Sl & ->). cbn [fst snd] in *. exists l.
  match goal with |- context [artists ?t] => replace t with (Drew l :: configure xt yt) by (symmetry; exact (nth_error_nth axs j [] Ha)) end. change (Drew l :: configure xt yt) with ([Drew l] ++ configure xt yt).
  rewrite artists_app, configure_no_artist, app_nil_r. split; [reflexivity|]. split; [exact Sl|].
  destruct (A' xt yt (nth_error_In _ _ Ht)) as [Ax Ay]. destruct (plot_line_ok s p xt yt kws mask W) as (l' & El' & _ & T); auto.
  rewrite El in El'. injection El' as <-. split.
  - intros key v N E. rewrite T, assoc_merge, E; auto.
  - intros N I. rewrite (label_merge p kws l N T). unfold wish. now rewrite (proj2 (assoc_none _ _) I).
Qed.
Print Assumptions C82_points.
(** Without a mask the points are the values the object's own properties report. *)
Theorem C82_same_as_properties : forall s p xt yt kws xv yv, well_formed s p -> readable p xt -> readable p yt ->
  public p xt = Ok xv -> public p yt = Ok yv ->
  exists ax l, peaks_plot p (TStr xt) (TStr yt) kws None = Ok [ax] /\ artists ax = [l] /\ px l = xv /\ py l = yv.
Proof.
  intros s p xt yt kws xv yv W Rx Ry Ex Ey. rewrite (public_ok s p xt W Rx) in Ex. rewrite (public_ok s p yt W Ry) in Ey. injection Ex as <-. injection Ey as <-.
  assert (R : forall k, readable p k -> has_attr p k) by (intros k [D|[_ I]]; [now left|now right]).
  destruct (C82_points s p (TStr xt) (TStr yt) [xt] [yt] kws None W Logic.I) as (axs & E & Ln & H); try discriminate; try reflexivity; try (right; now eauto).
  - intros k [[<-|[]]|[<-|[]]]; auto.
  - destruct axs as [|ax [|? ?]]; try discriminate. destruct (H 0 xt yt eq_refl eq_refl) as (l & A & [Sx Sy] & _). exists ax, l. auto.
Qed.
Print Assumptions C82_same_as_properties.
(** Bad arguments are refused. *)
Theorem C82_errors : forall s p kws mask, well_formed s p ->
  (forall x y, (x = TOther \/ (y = TOther /\ exists l, means x l)) -> peaks_plot p x y kws mask = Err TypeError) /\
  (forall x y xs ys, means x xs -> means y ys -> List.length xs <> List.length ys -> peaks_plot p x y kws mask = Err IndexError) /\
  peaks_plot p (TSeq []) (TSeq []) kws mask = Err ValueError /\
  (forall x y xs ys, fits s mask -> means x xs -> means y ys -> List.length xs = List.length ys ->
     (exists k, (In k xs \/ In k ys) /\ ~ has_attr p k) -> peaks_plot p x y kws mask = Err AttributeError) /\
  (forall xt yt m, has_attr p xt -> shape_eqb (shp m) s = false -> peaks_plot p (TStr xt) (TStr yt) kws (Some m) = Err IndexError).
Proof.
  intros s p kws mask W. split; [|split; [|split; [|split]]].
  - intros x y [->|[-> (l & M)]]; [reflexivity|]. destruct M as [->|(t & -> & _)]; reflexivity.
  - intros x y xs ys Mx My L. unfold peaks_plot. rewrite (prepare_types_ok x y xs ys Mx My). apply Nat.eqb_neq in L. now rewrite L.
  - reflexivity.
  - intros x y xs ys F Mx My L (k & I & N). unfold peaks_plot. rewrite (prepare_types_ok x y xs ys Mx My), L, Nat.eqb_refl. cbn [bind fst snd].
    apply (plot_types_unknown s); auto.
    assert (G : exists j xt yt, nth_error xs j = Some xt /\ nth_error ys j = Some yt /\ (xt = k \/ yt = k)).
    { destruct I as [I|I]; apply In_nth_error in I; destruct I as (j & Hj); assert (Hl := proj1 (nth_error_Some _ j) (fun Q => eq_ind None (fun o => match o with None => True | _ => False end) Logic.I _ (eq_trans (eq_sym Q) Hj))).
      - destruct (nth_error ys j) as [b|] eqn:Hb; [exists j, k, b; auto|apply nth_error_None in Hb; lia].
      - destruct (nth_error xs j) as [b|] eqn:Hb; [exists j, b, k; auto|apply nth_error_None in Hb; lia]. }
    destruct G as (j & xt & yt & Hx & Hy & G). exists xt, yt. split; [eapply nth_error_In; eapply combine_nth_error; eauto|].
    destruct G; subst; auto.
  - intros xt yt m Hx F. unfold peaks_plot. cbn [prepare_types prepare_type bind List.length Nat.eqb fst snd combine plot_types mapM].
    now rewrite (plot_line_misfit s p xt yt kws m W Hx F).
Qed.
Print Assumptions C82_errors.
(** Axes of known types are titled and scaled; others are left alone. *)
Theorem C82_axes : forall p xt yt kws mask axs, peaks_plot p (TStr xt) (TStr yt) kws mask = Ok axs ->
  (xt = "frequency" -> In (Set_ "xlabel" "Frequency (Hz)") (nth 0 axs []) /\ In (Set_ "xscale" "log") (nth 0 axs [])) /\
  (xt = "wavelength" -> In (Set_ "xlabel" "Wavelength (m)") (nth 0 axs []) /\ In (Set_ "xscale" "log") (nth 0 axs [])) /\
  (yt = "velocity" -> In (Set_ "ylabel" "Velocity (m/s)") (nth 0 axs []) /\ In (Set_ "yscale" "linear") (nth 0 axs [])) /\
  (yt = "slowness" -> In (Set_ "ylabel" "Slowness (s/m)") (nth 0 axs []) /\ In (Set_ "yscale" "log") (nth 0 axs [])) /\
  (~ In yt ["frequency"; "wavelength"; "velocity"; "slowness"; "azimuth"] -> forall v, ~ In (Set_ "ylabel" v) (nth 0 axs []) /\ ~ In (Set_ "yscale" v) (nth 0 axs [])).
Proof.
  intros p xt yt kws mask axs E. unfold peaks_plot in E. cbn [prepare_types prepare_type bind List.length Nat.eqb fst snd combine plot_types mapM] in E.
  destruct (plot_line p xt yt kws mask) as [l|e]; cbn [bind] in E; [|discriminate]. injection E as <-. cbn [nth].
  assert (X : forall t v w, ~ In (Set_ ("y" ++ w)%string v) (map (fun kv => Set_ ("x" ++ fst kv)%string (snd kv)) (axes_defaults t))).
  { intros t v w I. apply in_map_iff in I. destruct I as (? & Q & _). discriminate. }
  split; [|split; [|split; [|split]]].
  - intros ->. split; right; unfold configure; apply in_or_app; left; cbn; auto.
  - intros ->. split; right; unfold configure; apply in_or_app; left; cbn; auto.
  - intros ->. split; right; unfold configure; apply in_or_app; right; cbn; auto.
  - intros ->. split; right; unfold configure; apply in_or_app; right; cbn; auto.
  - intros H v.
    assert (D : axes_defaults yt = []).
    { unfold axes_defaults. cbn [In] in H.
      repeat match goal with |- context [String.eqb yt ?b] => destruct (String.eqb_spec yt b) as [->|]; [exfalso; apply H; auto 10|] end. reflexivity. }
    unfold configure. rewrite D. cbn [map]. rewrite app_nil_r. split; (intros [Q|I]; [discriminate|]).
    + exact (X xt v "label" I).
    + exact (X xt v "scale" I).
Qed.
Print Assumptions C82_axes.
Example C82_example : exists l, peaks_plot sample (TStr "frequency") (TStr "velocity") [] None = Ok [Drew l :: configure "frequency" "velocity"]
  /\ px l = [z 5; z 10; z 20; z 5; z 10] /\ py l = [z 200; z 150; z 100; z 250; z 300] /\ label_of l = "w1".
Proof. eexists. repeat split; reflexivity. Qed.
(** A mask is not combined with the valid peaks: a peak rejected earlier is drawn. *)
Theorem C82_mask_overrides : forall s p m xt yt kws i, well_formed s p -> fits s (Some m) -> has_attr p xt -> has_attr p yt ->
  i < npeaks p -> nth i (dat m) false = true -> is_valid p i = false ->
  exists ax l, peaks_plot p (TStr xt) (TStr yt) kws (Some m) = Ok [ax] /\ artists ax = [l] /\ In (value p xt i) (px l) /\ In (value p yt i) (py l).
Proof.
  intros s p m xt yt kws i W F Hx Hy Hi Hm _.
  destruct (C82_points s p (TStr xt) (TStr yt) [xt] [yt] kws (Some m) W F) as (axs & E & Ln & H); try discriminate; try reflexivity; try (right; now eauto).
  - intros k [[<-|[]]|[<-|[]]]; auto.
  - destruct axs as [|ax [|? ?]]; try discriminate. destruct (H 0 xt yt eq_refl eq_refl) as (l & A & [Sx Sy] & _). exists ax, l.
    assert (I : In i (shown p (Some m))) by (apply filter_In; split; [apply in_seq; lia|exact Hm]).
    repeat (split; auto); [rewrite Sx|rewrite Sy]; now apply in_map.
Qed.
Print Assumptions C82_mask_overrides.
Example C82_mask_example : fits (S2 2 3) (Some (ND (S2 2 3) [true; false; false; false; false; true])) /\ is_valid sample 5 = false /\ 5 < npeaks sample.
Proof. repeat split. cbn. lia. Qed.

(** ** C83: what PeaksSuite.plot draws *)
(** On new axes: each member once per axes, in order, with its own points and keywords. *)
Theorem C83_new_axes : forall ps x y xs ys kwargs mask,
  ps <> [] -> means x xs -> means y ys -> xs <> [] -> List.length xs = List.length ys -> can_draw ps xs ys kwargs mask ->
  exists out, suite_plot ps x y None kwargs mask = ([], Ok (Some out)) /\ List.length out = List.length xs /\
    forall j xt yt, nth_error xs j = Some xt -> nth_error ys j = Some yt -> members_shown ps mask kwargs xt yt (artists (nth j out [])).
Proof.
  intros ps x y xs ys kwargs mask Np Mx My Nx L C.
  destruct (suite_plot_new ps x y xs ys kwargs mask Np Mx My Nx L C) as (ks & ms & out & _ & _ & _ & E & Lo & H & _).
  exists out. split; [exact E|]. split; [exact Lo|]. intros j xt yt Hx Hy. destruct (H j xt yt Hx Hy) as (ls & Hn & Nl & S).
  match goal with |- context [artists ?t] => replace t with (Drew (hd (mkArtist [] [] []) ls) :: configure xt yt ++ map Drew (tl ls) ++ configure xt yt) by (symmetry; exact (nth_error_nth out j [] Hn)) end. destruct ls as [|l ls]; [congruence|]. cbn [hd tl].
  change (Drew l :: configure xt yt ++ map Drew ls ++ configure xt yt) with ([Drew l] ++ configure xt yt ++ map Drew ls ++ configure xt yt).
  rewrite !artists_app, !configure_no_artist, artists_drew, app_nil_r. exact S.
Qed.
Print Assumptions C83_new_axes.
(** On the caller's axes: what was there stays, in front. *)
Theorem C83_given_axes : forall ps x y xs ys axs kwargs mask,
  ps <> [] -> means x xs -> means y ys -> List.length xs = List.length ys -> List.length axs = List.length xs -> can_draw ps xs ys kwargs mask ->
  exists out, suite_plot ps x y (Some axs) kwargs mask = (out, Ok None) /\ List.length out = List.length axs /\
    forall j xt yt ax, nth_error xs j = Some xt -> nth_error ys j = Some yt -> nth_error axs j = Some ax ->
      exists new, nth j out [] = ax ++ new /\ members_shown ps mask kwargs xt yt (artists new).
Proof.
  intros ps x y xs ys axs kwargs mask Np Mx My L La C.
  destruct (suite_plot_given ps x y xs ys axs kwargs mask Np Mx My L La C) as (out & E & Lo & H).
  exists out. split; [exact E|]. split; [exact Lo|]. intros j xt yt ax Hx Hy Ha. destruct (H j xt yt ax Hx Hy Ha) as (ls & Hn & S).
  exists (map Drew ls ++ configure xt yt). split; [exact (nth_error_nth out j [] Hn)|].
  now rewrite artists_app, configure_no_artist, artists_drew, app_nil_r.
Qed.
Print Assumptions C83_given_axes.
(** The legend of new axes: every visible label asked for, each once, provided labels are str
    (or None) or, when there is no label keyword, the identifiers differ. *)
Theorem C83_legend : forall ps x y xs ys kwargs mask out ax,
  ps <> [] -> means x xs -> means y ys -> xs <> [] -> List.length xs = List.length ys -> can_draw ps xs ys kwargs mask ->
  suite_plot ps x y None kwargs mask = ([], Ok (Some out)) -> In ax out ->
  (forall s, In s (legend ax) <-> visible s /\ exists i p, nth_error ps i = Some p /\ asks_label kwargs i p s) /\
  ((keyword kwargs "label" -> forall i t, ~ member_gets kwargs i "label" (KObj t)) ->
   (~ keyword kwargs "label" -> NoDup (map identifier ps)) -> NoDup (legend ax)).
Proof.
  intros ps x y xs ys kwargs mask out ax Np Mx My Nx L C E I.
  destruct (suite_plot_new ps x y xs ys kwargs mask Np Mx My Nx L C) as (ks & ms & out' & _ & Lk & Hk & E' & _ & _ & G).
  rewrite E in E'. injection E' as <-. rewrite (G ax I). destruct C as ((N & D) & _). split.
  - intros s. rewrite (legend_after_in s ps ks [] Lk). split.
    + intros [[]|(V & i & p & k & Hp & Hq & Ew)]. split; [now apply visible_spec|]. exists i, p. split; [exact Hp|]. apply (wish_asks kwargs i p k s N (Hk i k Hq) V). exact Ew.
    + intros (V & i & p & Hp & As). apply visible_spec in V. right. split; [exact V|].
      destruct (nth_error ks i) as [k|] eqn:Hq. 
      2: { apply nth_error_None in Hq. assert (i < List.length ps) by (apply nth_error_Some; congruence). lia. }
      exists i, p, k. repeat (split; auto). now apply (wish_asks kwargs i p k s N (Hk i k Hq) V).
  - intros H1 H2. destruct (in_dec string_dec "label" (map fst kwargs)) as [K|K].
    + apply legend_after_nodup; [exact Lk|constructor|]. intros i k Hq. destruct (Hk i k Hq) as [Ef Hd].
      rewrite <- Ef in K. destruct (assoc_some "label" k K) as (v & Ev). exists v. split; [exact Ev|]. intros t ->.
      rewrite Ef in K. apply (H1 K i t). now apply Hd.
    + apply legend_after_ids; [exact Lk|exact (H2 K)|]. intros i k Hq. destruct (Hk i k Hq) as [Ef Hd]. apply assoc_none. now rewrite Ef.
Qed.
Print Assumptions C83_legend.
Lemma curve_attrs name f v k : In k ["frequency"; "velocity"; "wavelength"] -> has_attr (curve name f v) k.
Proof. intros [<-|[<-|[<-|[]]]]; [right; cbn; auto|right; cbn; auto|left; unfold derived; cbn; auto]. Qed.
Example C83_example : can_draw [c1; c2; c3] ["frequency"; "wavelength"] ["velocity"; "velocity"]
    [("color", ASeq [KStr "r"; KStr "g"; KStr "b"]); ("label", AStr "all"); ("marker", AStr "x")] None
  /\ exists a b, suite_plot [c1; c2; c3] (TSeq ["frequency"; "wavelength"]) (TSeq ["velocity"; "velocity"]) None
       [("color", ASeq [KStr "r"; KStr "g"; KStr "b"]); ("label", AStr "all"); ("marker", AStr "x")] None = ([], Ok (Some [a; b]))
     /\ legend a = ["all"] /\ legend b = ["all"] /\ map (fun l => assoc "color" (style l)) (artists b) = [Some (KStr "r"); Some (KStr "g"); Some (KStr "b")].
Proof.
  split.
  - split; [|split; [exact Logic.I|]].
    + split; [repeat constructor; cbn; intuition discriminate|]. intros key v [E|[E|[E|[]]]]; injection E as <- <-; cbn; auto.
    + intros i p Hp. assert (P : exists n f v, p = curve n f v /\ List.length v = List.length f).
      { destruct i as [|[|[|i]]]; cbn in Hp; [injection Hp as <-; do 3 eexists; split; reflexivity..|destruct i; discriminate]. }
      destruct P as (n & f & v & -> & Lv). exists (S1 (List.length f)). split; [now apply curve_wf|]. split; [exact Logic.I|].
      intros k Hk. apply curve_attrs. cbn in *. tauto.
  - do 2 eexists. split; [reflexivity|]. repeat split.
Qed.

(** Refusals settled before anything is drawn leave the caller's axes untouched. *)
Theorem C83_early_errors : forall ps x y xs ys axs kwargs mask,
  ps <> [] -> means x xs -> means y ys ->
  (List.length xs <> List.length ys -> suite_plot ps x y (Some axs) kwargs mask = (axs, Err IndexError)) /\
  (List.length xs = List.length ys -> distributable kwargs (List.length ps) ->
     (forall m, mask = Some m -> List.length m <> List.length ps -> suite_plot ps x y (Some axs) kwargs mask = (axs, Err IndexError)) /\
     ((forall m, mask = Some m -> List.length m = List.length ps) -> List.length axs <> List.length xs ->
        suite_plot ps x y (Some axs) kwargs mask = (axs, Err IndexError))) /\
  (List.length xs = List.length ys -> (forall k v, In (k, v) kwargs -> match v with AObj _ => False | _ => True end) ->
     forall key l, In (key, ASeq l) kwargs -> List.length l < List.length ps ->
       suite_plot ps x y (Some axs) kwargs mask = (axs, Err IndexError)).
Proof.
  intros ps x y xs ys axs kwargs mask Np Mx My. split; [|split].
  - intros L. unfold suite_plot, prepare_suite. rewrite (prepare_types_ok x y xs ys Mx My). apply Nat.eqb_neq in L. now rewrite L.
  - intros L D. split.
    + intros m -> Hm. unfold suite_plot, prepare_suite. rewrite (prepare_types_ok x y xs ys Mx My), L, Nat.eqb_refl. cbn [bind].
      destruct (prepare_plot_kwargs_ok kwargs _ D) as (ks & -> & _). cbn [bind]. apply Nat.eqb_neq in Hm. now rewrite Hm.
    + intros Hm La. destruct (prepare_suite_ok (List.length ps) x y xs ys kwargs mask Mx My L D) as (ks & ms & E & Lk & Lm & _).
      { destruct mask as [m|]; auto. }
      unfold suite_plot. rewrite E. destruct ps as [|p ps]; [congruence|]. destruct ks as [|k ks]; [discriminate|]. destruct ms as [|m ms]; [discriminate|].
      apply Nat.eqb_neq in La. now rewrite La.
  - intros L Ho key l I Hl. unfold suite_plot, prepare_suite. rewrite (prepare_types_ok x y xs ys Mx My), L, Nat.eqb_refl. cbn [bind].
    now rewrite (kwargs_short kwargs (List.length ps) key l I Hl Ho).
Qed.
Print Assumptions C83_early_errors.
(** The documentation allows {"key": value_allpeaks}; a value that is not a str (a number such as
    markersize=2) is refused for every suite. *)
Theorem C83_scalar_keyword_refuted : forall ps x y xs ys given key t mask, ps <> [] -> means x xs -> means y ys -> List.length xs = List.length ys ->
  snd (suite_plot ps x y given [(key, AObj t)] mask) = Err NotImplementedError.
Proof.
  intros ps x y xs ys given key t mask Np Mx My L. unfold suite_plot, prepare_suite.
  rewrite (prepare_types_ok x y xs ys Mx My), L, Nat.eqb_refl. cbn [bind].
  rewrite (member_kwargs_obj [(key, AObj t)] (List.length ps) key t); [reflexivity|now left| |].
  - destruct ps; [congruence|cbn; lia].
  - intros k l [E|[]]. discriminate.
Qed.
Print Assumptions C83_scalar_keyword_refuted.
(** "Only label unique data sets" fails on axes that already show the label: the first member is
    not checked. *)
Theorem C83_first_label_refuted : exists ps axs ax, can_draw ps ["frequency"] ["velocity"] [("label", AStr "mine")] None /\
  legend (nth 0 axs []) = ["mine"] /\
  suite_plot ps (TStr "frequency") (TStr "velocity") (Some axs) [("label", AStr "mine")] None = ([ax], Ok None) /\
  legend ax = ["mine"; "mine"].
Proof.
  exists [c1], [[Drew (mkArtist [] [] [("label", KStr "mine")])]]. eexists. split; [|split; [reflexivity|split; reflexivity]].
  split; [split|split; [exact Logic.I|]].
  - repeat constructor; cbn; intuition discriminate.
  - intros key v [E|[]]; injection E as <- <-; exact Logic.I.
  - intros [|[|i]] p Hp; try discriminate. injection Hp as <-. eexists. split; [now apply (curve_wf "a" [1; 4]%Z [10; 40]%Z)|].
    split; [exact Logic.I|]. intros k Hk. apply curve_attrs. cbn in *. tauto.
Qed.
Print Assumptions C83_first_label_refuted.
(** ... and a label already on one of the axes is then missing from the axes after it. *)
Theorem C83_label_lost_refuted : exists ps axs a b, legend (nth 0 axs []) = ["two"] /\ legend (nth 1 axs []) = [] /\
  suite_plot ps (TSeq ["frequency"; "wavelength"]) (TSeq ["velocity"; "velocity"]) (Some axs) [("label", ASeq [KStr "one"; KStr "two"])] None = ([a; b], Ok None) /\
  List.length (artists b) = 2 /\ legend b = ["one"].
Proof.
  exists [c1; c2], [[Drew (mkArtist [] [] [("label", KStr "two")])]; []]. do 2 eexists.
  split; [reflexivity|]. split; [reflexivity|]. split; [reflexivity|]. split; reflexivity.
Qed.
Print Assumptions C83_label_lost_refuted.
(** Labels that are not str are never recognised as already used. *)
Theorem C83_number_label_refuted : exists ps out ax, 
  suite_plot ps (TStr "frequency") (TStr "velocity") None [("label", ASeq [KObj "1"; KObj "1"])] None = ([], Ok (Some out)) /\
  out = [ax] /\ legend ax = ["1"; "1"].
Proof. exists [c1; c2]. do 2 eexists. split; [reflexivity|]. split; reflexivity. Qed.
Print Assumptions C83_number_label_refuted.
(** A plot that fails half way leaves lines of the earlier members on the caller's axes. *)
Theorem C83_partial_drawing_refuted : exists ps axs out e, 
  suite_plot ps (TStr "power") (TStr "velocity") (Some axs) [] None = (out, Err e) /\ axs = [[]] /\ List.length (artists (nth 0 out [])) = 1.
Proof. exists [sample; c1], [[]]. do 2 eexists. split; [reflexivity|]. split; reflexivity. Qed.
Print Assumptions C83_partial_drawing_refuted.
