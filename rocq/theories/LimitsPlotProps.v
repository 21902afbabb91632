(* Property C89: resolution limits drawn on a plot.  And C43: equality of suites. *)
From Verif Require Import LimitsPlotModel LimitsPlotSpec LimitsPlotProofs PlotProofs PeaksSpec TransformModel NumFacts.
Local Open Scope string_scope.
Local Open Scope nat_scope.
Local Open Scope list_scope.

(** * The lines *)

(** Linear axes whose x-range is positive: two lines, each following the axis range in 50 even
    steps, each made of points at exactly the limit.  No warning. *)
Theorem C89_linear : forall gs v xt yt attribute lim1 lim2 kws, x_scale v = "linear" -> y_scale v = "linear" ->
  (0 < x_lo v)%Qc -> (x_lo v <= x_hi v)%Qc -> supported xt attribute yt -> lim1 <> 0%Qc -> lim2 <> 0%Qc ->
  exists l1 l2 xs ys, plot_resolution_limits gs v xt yt attribute (Fin lim1, Fin lim2) kws = Ok ([l1; l2], false) /\
    along attribute xt yt lim1 l1 /\ along attribute xt yt lim2 l2 /\
    evenly (x_lo v) (x_hi v) 50 xs /\ evenly (y_lo v) (y_hi v) 50 ys /\
    (xt = "frequency" -> px l1 = map Fin xs /\ px l2 = map Fin xs) /\
    (xt = "wavelength" -> py l1 = map Fin ys /\ py l2 = map Fin ys).
Proof.
  intros gs v xt yt attribute lim1 lim2 kws Sx Sy P O S A B.
  destruct (linear_vector gs (x_lo v) (x_hi v)) as (xs & Ex & Vx), (linear_vector gs (y_lo v) (y_hi v)) as (ys & Ey & Vy).
  rewrite <- Sx in Ex. rewrite <- Sy in Ey.
  destruct (drawn_limits gs v xt yt attribute lim1 lim2 kws xs ys Ex Ey S A B) as (l1 & l2 & E & P1 & P2 & X & Y & _).
  - apply Forall_forall. intros x I. destruct (evenly_between (x_lo v) (x_hi v) 50 xs x) as [G _]; auto; [lia|].
    apply Qcpos_neq0. eapply Qclt_le_trans; eauto.
  - destruct Vx as [-> _], Vy as [-> _]. reflexivity.
  - exists l1, l2, xs, ys. auto 10.
Qed.
Print Assumptions C89_linear.
(** Any axes, e.g. logarithmic: the points follow the vectors of trial values, which must not
    contain zero. *)
Theorem C89_lines : forall gs v xt yt attribute lim1 lim2 kws xs ys,
  create_vector gs (x_lo v) (x_hi v) 50 (x_scale v) = Ok xs ->
  create_vector gs (y_lo v) (y_hi v) 50 (y_scale v) = Ok ys ->
  supported xt attribute yt -> lim1 <> 0%Qc -> lim2 <> 0%Qc -> Forall (fun x => x <> 0%Qc) xs -> List.length xs = List.length ys ->
  exists l1 l2, plot_resolution_limits gs v xt yt attribute (Fin lim1, Fin lim2) kws = Ok ([l1; l2], false) /\
    along attribute xt yt lim1 l1 /\ along attribute xt yt lim2 l2 /\
    (xt = "frequency" -> px l1 = map Fin xs /\ px l2 = map Fin xs) /\
    (xt = "wavelength" -> py l1 = map Fin ys /\ py l2 = map Fin ys).
Proof.
  intros gs v xt yt attribute lim1 lim2 kws xs ys Ex Ey S A B F L.
  destruct (drawn_limits gs v xt yt attribute lim1 lim2 kws xs ys Ex Ey S A B F L) as (l1 & l2 & E & P1 & P2 & X & Y & _).
  exists l1, l2. auto 10.
Qed.
Print Assumptions C89_lines.
(** Whatever is drawn: nothing with a warning, or two lines of which only the first has a label of
    its own, both otherwise in the user's style. *)
Theorem C89_style : forall gs v xt yt attribute limits kws ls w, NoDup (map fst kws) ->
  plot_resolution_limits gs v xt yt attribute limits kws = Ok (ls, w) ->
  (w = true /\ ls = []) \/
  (w = false /\ exists l1 l2, ls = [l1; l2] /\ label_of l1 = first_label kws /\ in_legend (label_of l2) = false /\
   forall l key k, In l ls -> key <> "label" -> assoc key kws = Some k -> assoc key (style l) = Some k).
Proof.
  intros gs v xt yt attribute limits kws ls w N H. unfold plot_resolution_limits in H.
  destruct (create_vector gs (x_lo v) _ _ _) as [xs|]; [|discriminate]. destruct (create_vector gs (y_lo v) _ _ _) as [ys|]; [|discriminate].
  cbn [bind] in H. destruct (calc_resolution_limits _ _ _ _ _ _) as [[l1 l2]|[]]; try discriminate; [|left; inversion H; auto].
  cbv zeta in H. injection H as <- <-. right. split; [reflexivity|]. do 2 eexists. split; [reflexivity|]. split; [|split].
  - unfold label_of, first_label. cbn [style]. rewrite assoc_merge by exact N. destruct (assoc "label" kws) as [[]|]; reflexivity.
  - unfold label_of. cbn [style]. rewrite assoc_dict_set. reflexivity.
  - intros l key k [<-|[<-|[]]] Nk E; cbn [style]; rewrite ?assoc_dict_set, assoc_merge, E by exact N; [reflexivity|].
    destruct (String.eqb_spec key "label"); [contradiction|reflexivity].
Qed.
Print Assumptions C89_style.
(** Combinations without a formula: nothing is drawn, with a warning. *)
Theorem C89_unsupported : forall gs v xt yt attribute limits kws xs ys,
  create_vector gs (x_lo v) (x_hi v) 50 (x_scale v) = Ok xs ->
  create_vector gs (y_lo v) (y_hi v) 50 (y_scale v) = Ok ys -> ~ supported xt attribute yt ->
  plot_resolution_limits gs v xt yt attribute limits kws = Ok ([], true).
Proof.
  intros gs v xt yt attribute limits kws xs ys Ex Ey S. unfold plot_resolution_limits. rewrite Ex, Ey. cbn [bind].
  now rewrite (SuiteProps.C49_unsupported xt attribute yt limits (map Fin xs) (map Fin ys) S).
Qed.
Print Assumptions C89_unsupported.

Local Definition none (_ _ : Qc) (_ : Z) : result (list Qc) := Err ValueError.
Local Definition band (lo : Z) (scale : string) : view := mkView (QcZ lo) (QcZ 50) scale (QcZ 100) (QcZ 500) "linear".
Local Lemma two_lines (r : result (list artist * bool)) :
  match r with Ok ([l1; l2], false) => String.eqb (label_of l1) "limit" && match assoc "color" (style l2) with Some (KStr s) => String.eqb s "r" | _ => false end
             | _ => false end = true ->
  exists l1 l2, r = Ok ([l1; l2], false) /\ label_of l1 = "limit" /\ assoc "color" (style l2) = Some (KStr "r").
Proof.
  destruct r as [[[|l1 [|l2 [|]]] []]|]; try discriminate. intros H. apply andb_prop in H as [A B]. exists l1, l2. split; [reflexivity|].
  split; [now apply String.eqb_eq|]. destruct (assoc "color" (style l2)) as [[s| |]|]; try discriminate. apply String.eqb_eq in B. now subst.
Qed.
Example C89_example : x_scale (band 1 "linear") = "linear" /\ y_scale (band 1 "linear") = "linear" /\
  (0 < x_lo (band 1 "linear"))%Qc /\ (x_lo (band 1 "linear") <= x_hi (band 1 "linear"))%Qc /\
  supported "frequency" "wavelength" "velocity" /\ ~ supported "wavelength" "wavelength" "wavenumber" /\ QcZ 2 <> 0%Qc /\ QcZ 40 <> 0%Qc /\
  exists l1 l2, plot_resolution_limits none (band 1 "linear") "frequency" "velocity" "wavelength" (Fin (QcZ 2), Fin (QcZ 40))
    [("color", KStr "r")] = Ok ([l1; l2], false) /\ label_of l1 = "limit" /\ assoc "color" (style l2) = Some (KStr "r").
Proof.
  split; [reflexivity|]. split; [reflexivity|]. split; [apply Qcltb_lt; vm_compute; reflexivity|]. split; [apply Qcleb_le; vm_compute; reflexivity|].
  split; [unfold supported; tauto|]. split; [intros [_ [[H _]|[_ [H|H]]]]; discriminate|]. split; [discriminate|]. split; [discriminate|].
  apply two_lines. vm_compute. reflexivity.
Qed.

(** * Where it does not hold *)

(** An x-axis that begins at zero (as matplotlib's linear axes often do): the first point of both
    lines is at infinity. *)
Local Definition starts_at_infinity (l : artist) : bool :=
  match px l, py l with Fin x :: _, PInf :: _ => Qceqb x 0%Qc | _, _ => false end.
Local Lemma starts_spec lim l : starts_at_infinity l = true ->
  nth 0 (px l) NaN = Fin 0%Qc /\ nth 0 (py l) NaN = PInf /\ ~ along "wavelength" "frequency" "slowness" lim l.
Proof.
  unfold starts_at_infinity, along. destruct (px l) as [|[x| | |] xs], (py l) as [|[y| | |] ys]; try discriminate. intros H.
  apply Qceqb_eq in H. subst x. split; [reflexivity|]. split; [reflexivity|]. intros F.
  assert (G : limited_by "wavelength" "frequency" "slowness" (Fin 0%Qc) PInf = Fin lim) by now inversion F.
  assert (N : limited_by "wavelength" "frequency" "slowness" (Fin 0%Qc) PInf = NaN) by reflexivity. rewrite N in G. discriminate.
Qed.
Theorem C89_origin_refuted : exists v xt yt attribute lim1 lim2 l1 l2, supported xt attribute yt /\ lim1 <> 0%Qc /\ lim2 <> 0%Qc /\
  plot_resolution_limits none v xt yt attribute (Fin lim1, Fin lim2) [] = Ok ([l1; l2], false) /\
  nth 0 (px l1) NaN = Fin 0%Qc /\ nth 0 (py l1) NaN = PInf /\ ~ along attribute xt yt lim1 l1 /\ ~ along attribute xt yt lim2 l2.
Proof.
  exists (band 0 "linear"), "frequency", "slowness", "wavelength", (QcZ 2), (QcZ 40).
  assert (T : match plot_resolution_limits none (band 0 "linear") "frequency" "slowness" "wavelength" (Fin (QcZ 2), Fin (QcZ 40)) [] with
              | Ok ([l1; l2], false) => starts_at_infinity l1 && starts_at_infinity l2 | _ => false end = true) by (vm_compute; reflexivity).
  destruct (plot_resolution_limits _ _ _ _ _ _ _) as [[[|l1 [|l2 [|]]] []]|]; try discriminate. apply andb_prop in T as [A B].
  exists l1, l2. split; [unfold supported; tauto|]. split; [discriminate|]. split; [discriminate|]. split; [reflexivity|].
  destruct (starts_spec (QcZ 2) l1 A) as (P & Q & R), (starts_spec (QcZ 40) l2 B) as (_ & _ & R'). auto.
Qed.
Print Assumptions C89_origin_refuted.
(** Any other axis scale ("symlog", "logit", ...): an exception instead of the warning. *)
Theorem C89_scale_refuted : forall gs v xt yt attribute limits kws,
  ~ In (x_scale v) ["linear"; "lin"; "log"; "logarithmic"] -> plot_resolution_limits gs v xt yt attribute limits kws = Err KeyError.
Proof.
  intros gs v xt yt attribute limits kws N. unfold plot_resolution_limits, create_vector at 1. cbn [In] in N.
  destruct (String.eqb_spec (x_scale v) "linear"); [exfalso; apply N; rewrite e; tauto|]. destruct (String.eqb_spec (x_scale v) "lin"); [exfalso; apply N; rewrite e; tauto|].
  destruct (String.eqb_spec (x_scale v) "log"); [exfalso; apply N; rewrite e; tauto|]. destruct (String.eqb_spec (x_scale v) "logarithmic"); [exfalso; apply N; rewrite e; tauto|]. reflexivity.
Qed.
Print Assumptions C89_scale_refuted.
Example C89_scale_example : ~ In (x_scale (band 1 "symlog")) ["linear"; "lin"; "log"; "logarithmic"].
Proof. cbn. intuition discriminate. Qed.

(** * C43: equality of suites *)

(** Equal suites: the same number of members, equal in pairs and in order. *)
Theorem C43_suite_equality : forall s t : suite peaks, suite_eq s t = Ok true <->
  Forall2 (fun p q => peaks_eq p q = Ok true) (members s) (members t).
Proof.
  intros s t. unfold suite_eq. destruct (Nat.eqb_spec (List.length (members s)) (List.length (members t))) as [L|L]; cbn [negb].
  - revert L. generalize (members t) as qs. induction (members s) as [|p ps IH]; intros [|q qs] L; try discriminate; cbn [all_eq].
    + split; [constructor|reflexivity].
    + injection L as L. destruct (peaks_eq p q) as [b|] eqn:E; cbn [bind].
      * destruct b; [rewrite (IH qs L)|]; split; intros H; try discriminate; [now constructor|now inversion H|inversion H; congruence].
      * split; [discriminate|]. intros H. inversion H; congruence.
  - split; [discriminate|]. intros F. elim L. clear L. induction F; cbn; congruence.
Qed.
Print Assumptions C43_suite_equality.
Theorem C43_suite_length : forall s t : suite peaks, List.length (members s) <> List.length (members t) -> suite_eq s t = Ok false.
Proof. intros s t L. unfold suite_eq. now destruct (Nat.eqb_spec (List.length (members s)) (List.length (members t))). Qed.
Print Assumptions C43_suite_length.
