(* Proofs about the plots of Peaks and PeaksSuite. *)
From Verif Require Import PlotModel PlotSpec PeaksSpec PeaksProofs PyFacts.
From Coq Require Import Lia Ascii.
Local Open Scope string_scope.
Local Open Scope nat_scope.
Local Open Scope list_scope.

Lemma assoc_dict_set {A} k k' (v : A) d : assoc k (dict_set k' v d) = if String.eqb k k' then Some v else assoc k d.
Proof.
  induction d as [|[k1 v1] d IH]; cbn [dict_set assoc].
  - reflexivity.
  - destruct (String.eqb_spec k' k1) as [->|N]; cbn [assoc].
    + destruct (String.eqb_spec k k1); reflexivity.
    + rewrite IH. destruct (String.eqb_spec k k1) as [->|]; [|reflexivity]. destruct (String.eqb_spec k1 k'); [congruence|reflexivity].
Qed.
Lemma assoc_merge {A} k (d e : dict A) : NoDup (map fst e) ->
  assoc k (merge d e) = match assoc k e with Some v => Some v | None => assoc k d end.
Proof.
  unfold merge. revert d. induction e as [|[k1 v1] e IH]; intros d N; cbn [fold_left assoc fst snd]; [reflexivity|].
  inversion N as [|? ? N1 N2]; subst. rewrite IH by assumption. rewrite assoc_dict_set.
  destruct (String.eqb_spec k k1) as [->|]; [|destruct (assoc k e); reflexivity].
  destruct (assoc k1 e) eqn:E; [|reflexivity]. exfalso. apply N1. apply assoc_In in E. now apply (in_map fst) in E.
Qed.
Lemma dict_set_keys {A} k (v : A) d : In k (map fst d) -> map fst (dict_set k v d) = map fst d.
Proof.
  induction d as [|[k1 v1] d IH]; cbn [dict_set map fst]; [intros []|]. intros [->|I].
  - rewrite String.eqb_refl. reflexivity.
  - destruct (String.eqb_spec k k1) as [->|]; [reflexivity|]. cbn [map fst]. now rewrite IH.
Qed.
Lemma plot_line_ok s p xt yt kws mask : well_formed s p -> has_attr p xt -> has_attr p yt -> fits s mask ->
  exists l, plot_line p xt yt kws mask = Ok l /\ shows p mask xt yt l /\ style l = merge (default_style p) kws.
Proof.
  intros W Hx Hy F. pose proof W as (_ & _ & Sv & Lv & _).
  assert (E : forall k, has_attr p k -> exists a, stored p k = Ok a /\
    nd_select (match mask with None => valid p | Some m => m end) a = Ok (map (value p k) (shown p mask))).
  { intros k Hk. destruct (stored_ok s p W k Hk) as (a & Ea & Sa & La & Na). exists a. split; [exact Ea|]. unfold nd_select.
    destruct mask as [m|].
    - destruct F as [Sm Lm]. rewrite Sm, Sa, shape_eqb_refl. f_equal. rewrite (select_positions NaN) by lia.
      unfold shown, npeaks. rewrite Lm, Lv. apply map_ext_in. intros i Hi. apply filter_In in Hi. destruct Hi as [Hi _]. apply in_seq in Hi. apply Na. lia.
    - rewrite Sv, Sa, shape_eqb_refl. f_equal. rewrite (select_positions NaN) by lia.
      unfold shown, valid_positions, npeaks. apply map_ext_in. intros i Hi. apply filter_In in Hi. destruct Hi as [Hi _]. apply in_seq in Hi. apply Na. lia. }
  destruct (E xt Hx) as (a & Ea & Xa), (E yt Hy) as (b & Eb & Xb). unfold plot_line. rewrite Ea. cbn [bind]. rewrite Xa. cbn [bind].
  rewrite Eb. cbn [bind]. rewrite Xb. cbn [bind]. eexists. split; [reflexivity|]. split; [split; reflexivity|reflexivity].
Qed.
Lemma has_attr_dec p k : has_attr p k \/ ~ has_attr p k.
Proof.
  unfold has_attr, derived. destruct (string_dec k "slowness"), (string_dec k "wavelength"), (string_dec k "wavenumber"), (in_dec string_dec k (map fst (fields p))); tauto.
Qed.
Lemma plot_line_unknown s p xt yt kws mask : well_formed s p -> fits s mask -> ~ has_attr p xt \/ ~ has_attr p yt ->
  plot_line p xt yt kws mask = Err AttributeError.
Proof.
  intros W F U. pose proof W as (_ & _ & Sv & Lv & _). unfold plot_line.
  destruct (has_attr_dec p xt) as [Hx|Hx]; [|now rewrite (stored_err p xt Hx)].
  destruct U as [U|U]; [contradiction|].
  destruct (stored_ok s p W xt Hx) as (a & -> & Sa & _). cbn [bind].
  assert (X : exists l, nd_select (match mask with None => valid p | Some m => m end) a = Ok l).
  { unfold nd_select. destruct mask as [m|]; [destruct F as [Sm _]; rewrite Sm|rewrite Sv]; rewrite Sa, shape_eqb_refl; eauto. }
  destruct X as (l & ->). cbn [bind]. now rewrite (stored_err p yt U).
Qed.
Lemma plot_line_misfit s p xt yt kws m : well_formed s p -> has_attr p xt -> shape_eqb (shp m) s = false ->
  plot_line p xt yt kws (Some m) = Err IndexError.
Proof.
  intros W Hx F. unfold plot_line. destruct (stored_ok s p W xt Hx) as (a & -> & Sa & _). cbn [bind]. unfold nd_select. now rewrite Sa, F.
Qed.

(** ** Types *)
Lemma prepare_types_ok x y xs ys : means x xs -> means y ys ->
  prepare_types x y = if List.length xs =? List.length ys then Ok (xs, ys) else Err IndexError.
Proof. intros [-> |(s & -> & ->)] [-> |(t & -> & ->)]; reflexivity. Qed.
Lemma configure_no_artist xt yt : artists (configure xt yt) = [].
Proof.
  unfold artists, configure. rewrite map_app, concat_app, !map_map.
  assert (E : forall X (l : list X), List.concat (map (fun _ => @nil artist) l) = []) by (intros X l; induction l; auto).
  cbv beta iota. now rewrite !E.
Qed.
Lemma artists_app a b : artists (a ++ b) = artists a ++ artists b.
Proof. unfold artists. now rewrite map_app, concat_app. Qed.
Lemma artists_drew l : artists (map Drew l) = l.
Proof. induction l as [|a l IH]; [reflexivity|]. cbn. unfold artists in IH. now rewrite IH. Qed.
Lemma legend_app a b : legend (a ++ b) = legend a ++ legend b.
Proof. unfold legend. now rewrite artists_app, map_app, filter_app. Qed.
Lemma mapM_all_ok {A B} (f : A -> result B) (R : A -> B -> Prop) l : (forall a, In a l -> exists b, f a = Ok b /\ R a b) ->
  exists m, mapM f l = Ok m /\ Forall2 R l m.
Proof.
  induction l as [|a l IH]; intros H; [exists []; split; [reflexivity|constructor]|].
  destruct (H a (or_introl eq_refl)) as (b & Eb & Rb). destruct IH as (m & Em & F); [intros; apply H; now right|].
  exists (b :: m). cbn [mapM]. rewrite Eb. cbn [bind]. rewrite Em. split; [reflexivity|now constructor].
Qed.
Lemma plot_types_ok s p xs ys kws mask : well_formed s p -> fits s mask -> xs <> [] ->
  (forall xt yt, In (xt, yt) (combine xs ys) -> has_attr p xt /\ has_attr p yt) ->
  exists axs, plot_types p xs ys kws mask = Ok axs /\
    Forall2 (fun t ax => exists l, plot_line p (fst t) (snd t) kws mask = Ok l /\ shows p mask (fst t) (snd t) l /\ ax = Drew l :: configure (fst t) (snd t))
      (combine xs ys) axs.
Proof.
  intros W F N H. unfold plot_types. destruct xs as [|x0 xs0] eqn:Ex; [congruence|]. rewrite <- Ex in *.
  apply mapM_all_ok. intros [xt yt] I. destruct (H xt yt I) as [Hx Hy].
  destruct (plot_line_ok s p xt yt kws mask W Hx Hy F) as (l & El & Sl & _). cbn [fst snd]. rewrite El. cbn [bind].
  eexists. split; [reflexivity|]. exists l. auto.
Qed.
Lemma mapM_err {A B} (f : A -> result B) e l :
  (forall a, In a l -> (exists b, f a = Ok b) \/ f a = Err e) -> (exists a, In a l /\ f a = Err e) -> mapM f l = Err e.
Proof.
  induction l as [|a l IH]; intros H (x & I & E); [destruct I|]. cbn [mapM].
  destruct (f a) as [b|e'] eqn:Ef.
  - cbn [bind]. rewrite IH; [reflexivity|intros; apply H; now right|]. destruct I as [->|I]; [congruence|exists x; auto].
  - destruct (H a (or_introl eq_refl)) as [(b & Q)|Q]; cbn [bind]; congruence.
Qed.
Lemma plot_types_unknown s p xs ys kws mask : well_formed s p -> fits s mask ->
  (exists xt yt, In (xt, yt) (combine xs ys) /\ (~ has_attr p xt \/ ~ has_attr p yt)) ->
  plot_types p xs ys kws mask = Err AttributeError.
Proof.
  intros W F (xt & yt & I & U). unfold plot_types. destruct xs as [|x0 xs0] eqn:Ex; [destruct I|]. rewrite <- Ex in *.
  apply mapM_err.
  - intros [a b] _. cbn [fst snd]. destruct (has_attr_dec p a) as [Ha|Ha]; [destruct (has_attr_dec p b) as [Hb|Hb]|].
    + left. destruct (plot_line_ok s p a b kws mask W Ha Hb F) as (l & -> & _). cbn [bind]. eauto.
    + right. rewrite (plot_line_unknown s) by auto. reflexivity.
    + right. rewrite (plot_line_unknown s) by auto. reflexivity.
  - exists (xt, yt). split; [exact I|]. cbn [fst snd]. rewrite (plot_line_unknown s) by auto. reflexivity.
Qed.

(** ** Keywords *)
Lemma member_value_ok kwargs n i key v : distributable kwargs n -> i < n -> In (key, v) kwargs ->
  exists k, member_value i v = Ok k /\ member_gets kwargs i key k.
Proof.
  intros [_ D] Hi I. specialize (D key v I). destruct v as [s| |l|t]; cbn [member_value].
  - exists (KStr s). split; [reflexivity|]. left. eauto.
  - exists KNone. split; [reflexivity|]. right. left. auto.
  - destruct (nth_error l i) as [k|] eqn:E; [|apply nth_error_None in E; lia]. exists k. split; [reflexivity|]. right. right. eauto.
  - destruct D.
Qed.
Definition dealt (kwargs : dict kwarg) (i : nat) (k : dict kw) : Prop :=
  map fst k = map fst kwargs /\ forall key v, assoc key k = Some v <-> member_gets kwargs i key v.
Lemma assoc_in {A} k v (l : dict A) : NoDup (map fst l) -> In (k, v) l -> assoc k l = Some v.
Proof.
  induction l as [|[k1 v1] l IH]; intros N I; [destruct I|]. cbn [assoc]. inversion N as [|? ? N1 N2]; subst.
  destruct I as [E|I].
  - injection E as -> ->. now rewrite String.eqb_refl.
  - destruct (String.eqb_spec k k1) as [->|]; [|auto]. exfalso. apply N1. now apply (in_map fst) in I.
Qed.
Lemma nodup_pair {A} k v w (l : dict A) : NoDup (map fst l) -> In (k, v) l -> In (k, w) l -> v = w.
Proof. intros N I J. pose proof (assoc_in _ _ _ N I) as A1. rewrite (assoc_in _ _ _ N J) in A1. congruence. Qed.
Lemma member_kwargs_ok kwargs n i : distributable kwargs n -> i < n -> exists k, member_kwargs kwargs i = Ok k /\ dealt kwargs i k.
Proof.
  intros D Hi. unfold member_kwargs.
  destruct (mapM_all_ok (fun kv : string * kwarg => bind (member_value i (snd kv)) (fun k => Ok (fst kv, k)))
    (fun kv kk => fst kk = fst kv /\ member_value i (snd kv) = Ok (snd kk)) kwargs) as (k & Ek & F).
  { intros [key v] I. destruct (member_value_ok kwargs n i key v D Hi I) as (w & Ew & _). cbn [fst snd]. rewrite Ew. cbn [bind].
    eexists. split; [reflexivity|]. auto. }
  exists k. split; [exact Ek|]. destruct D as [N D]. 
  assert (Ef : map fst k = map fst kwargs).
  { clear Ek N D. induction F as [|kv kk l m [H _] F IH]; [reflexivity|]. cbn [map]. now rewrite H, IH. }
  assert (Nk : NoDup (map fst k)) by (rewrite Ef; exact N).
  split; [exact Ef|]. intros key v.
  assert (In1 : forall w, In (key, w) kwargs -> exists x, In (key, x) k /\ member_value i w = Ok x).
  { clear - F. induction F as [|kv kk l m [H1 H2] F IH]; intros w I0; [destruct I0|destruct I0 as [E|I]].
    - subst kv. cbn [fst snd] in *. exists (snd kk). split; [left; rewrite <- H1; now destruct kk|exact H2].
    - destruct (IH w I) as (x & Ix & Ex). exists x. split; [now right|exact Ex]. }
  assert (In2 : forall x, In (key, x) k -> exists w, In (key, w) kwargs /\ member_value i w = Ok x).
  { clear - F. induction F as [|kv kk l m [H1 H2] F IH]; intros x I0; [destruct I0|destruct I0 as [E|I]].
    - subst kk. cbn [fst snd] in *. exists (snd kv). split; [left; rewrite H1; now destruct kv|exact H2].
    - destruct (IH x I) as (w & Iw & Ew). exists w. split; [now right|exact Ew]. }
  split.
  - intros A. apply assoc_In in A. destruct (In2 v A) as (w & Iw & Ew). destruct w as [s| |l|t]; cbn [member_value] in Ew.
    + left. exists s. split; [exact Iw|congruence].
    + right. left. split; [exact Iw|congruence].
    + right. right. exists l. split; [exact Iw|]. destruct (nth_error l i); congruence.
    + discriminate.
  - intros [(s & I & ->)|[[I ->]|(l & I & E)]]; destruct (In1 _ I) as (x & Ix & Ex); cbn [member_value] in Ex;
      try rewrite E in Ex; injection Ex as <-; now apply assoc_in.
Qed.
Lemma prepare_plot_kwargs_ok kwargs n : distributable kwargs n ->
  exists ks, prepare_plot_kwargs kwargs n = Ok ks /\ List.length ks = n /\ forall i k, nth_error ks i = Some k -> dealt kwargs i k.
Proof.
  intros D. unfold prepare_plot_kwargs.
  destruct (mapM_all_ok (member_kwargs kwargs) (dealt kwargs) (range n)) as (ks & E & F).
  { intros i I. unfold range in I. apply in_seq in I. apply (member_kwargs_ok kwargs n); [exact D|lia]. }
  exists ks. split; [exact E|].
  assert (L : List.length ks = n) by (rewrite <- (Forall2_length _ _ _ F); unfold range; apply seq_length).
  split; [exact L|]. intros i k Hk.
  assert (Hi : i < n) by (rewrite <- L; apply nth_error_Some; congruence).
  clear - F Hk Hi. unfold range in F. replace i with (0 + i) by lia. revert Hk Hi F. generalize 0 as o. revert n ks.
  induction i as [|i IH]; intros n ks o Hk Hi F; (destruct n as [|n]; [lia|]); cbn [seq] in F; inversion F as [|? kk ? ks' R1 F']; subst.
  - injection Hk as ->. now rewrite Nat.add_0_r.
  - cbn [nth_error] in Hk. replace (o + S i) with (S o + i) by lia. apply (IH n ks' (S o)); auto. lia.
Qed.
Lemma member_kwargs_obj kwargs n key t : In (key, AObj t) kwargs -> 0 < n ->
  (forall k l, In (k, ASeq l) kwargs -> l <> []) -> prepare_plot_kwargs kwargs n = Err NotImplementedError.
Proof.
  intros I Hn Hl. unfold prepare_plot_kwargs. destruct n as [|n]; [lia|]. unfold range. cbn [seq mapM].
  assert (E : member_kwargs kwargs 0 = Err NotImplementedError).
  { unfold member_kwargs. apply mapM_err.
    - intros [k v] Ik. cbn [fst snd]. destruct v as [s| |l|u]; cbn [member_value bind]; eauto.
      specialize (Hl k l Ik). destruct l as [|x l]; [congruence|]. cbn [nth_error bind]. eauto.
    - exists (key, AObj t). auto. }
  rewrite E. reflexivity.
Qed.
Lemma kwargs_short kwargs n key l : In (key, ASeq l) kwargs -> List.length l < n ->
  (forall k v, In (k, v) kwargs -> match v with AObj _ => False | _ => True end) -> prepare_plot_kwargs kwargs n = Err IndexError.
Proof.
  intros I Hl Ho. unfold prepare_plot_kwargs. apply mapM_err.
  - intros i _. unfold member_kwargs. destruct (mapM _ kwargs) as [k|e] eqn:E; [eauto|right]. f_equal.
    revert E. clear - Ho. induction kwargs as [|[k v] kwargs IH]; [discriminate|]. cbn [mapM fst snd].
    assert (Hv := Ho k v (or_introl eq_refl)). destruct v as [s| |l|t]; cbn [member_value bind].
    + destruct (mapM _ kwargs); [discriminate|]. intros Q. apply IH; auto. intros; eapply Ho; right; eauto.
    + destruct (mapM _ kwargs); [discriminate|]. intros Q. apply IH; auto. intros; eapply Ho; right; eauto.
    + destruct (nth_error l i); cbn [bind]; [|intros Q; injection Q as <-; reflexivity]. destruct (mapM _ kwargs); [discriminate|]. intros Q. apply IH; auto. intros; eapply Ho; right; eauto.
    + destruct Hv.
  - exists (List.length l). split; [unfold range; apply in_seq; lia|]. unfold member_kwargs. apply mapM_err.
    + intros [k v] Ik. cbn [fst snd]. specialize (Ho k v Ik). destruct v as [s| |l'|t]; cbn [member_value bind]; eauto; [|destruct Ho].
      destruct (nth_error l' _); cbn [bind]; eauto.
    + exists (key, ASeq l). split; [exact I|]. cbn [fst snd member_value]. replace (nth_error l (List.length l)) with (@None kw) by (symmetry; apply nth_error_None; lia). reflexivity.
Qed.

(** ** Drawing *)
(** What a line drawn for a member is, up to its label. *)
Definition line_of (p : peaks) (k : dict kw) (mask : option (nd bool)) (t : string * string) (l : artist) : Prop :=
  shows p mask (fst t) (snd t) l /\
  forall key, key <> "label" -> assoc key (style l) = match assoc key k with Some v => Some v | None => assoc key (default_style p) end.
Definition drawable (types : list (string * string)) (p : peaks) (mask : option (nd bool)) : Prop :=
  exists s, well_formed s p /\ fits s mask /\ forall xt yt, In (xt, yt) types -> has_attr p xt /\ has_attr p yt.
Definition wish (p : peaks) (k : dict kw) : string :=
  match assoc "label" k with Some (KStr s) | Some (KObj s) => s | Some KNone => "_child" | None => identifier p end.
Definition labelled_in (lab : option kw) (L : list string) : bool :=
  match lab with Some (KStr s) => existsb (String.eqb s) L | _ => false end.
Definition given_label (p : peaks) (k : dict kw) (L : list string) : string :=
  if labelled_in (assoc "label" k) L then "_child" else wish p k.
Lemma dict_set_twice {A} key (v : A) d : dict_set key v (dict_set key v d) = dict_set key v d.
Proof.
  induction d as [|[k w] d IH]; cbn [dict_set]; [now rewrite String.eqb_refl|].
  destruct (String.eqb_spec key k) as [<-|N]; cbn [dict_set]; [now rewrite String.eqb_refl|].
  destruct (String.eqb_spec key k); [contradiction|]. now rewrite IH.
Qed.
Lemma label_merge p (k : dict kw) l : NoDup (map fst k) -> style l = merge (default_style p) k -> label_of l = wish p k.
Proof.
  intros N E. unfold label_of, wish. rewrite E, assoc_merge by exact N. destruct (assoc "label" k) as [[]|]; reflexivity.
Qed.
Definition add_line (ax : axes) (l : artist) : axes := ax ++ [Drew l].
Lemma draw_member_ok check p kws k mask types axs : drawable types p mask -> NoDup (map fst k) ->
  (kws = k \/ (In "label" (map fst k) /\ kws = dict_set "label" KNone k)) ->
  List.length types = List.length axs ->
  exists ls, draw_member check p (assoc "label" k) kws mask types axs = (map2 add_line axs ls, Ok tt) /\
    Forall2 (line_of p k mask) types ls /\
    (forall L, check = true -> (forall ax, In ax axs -> legend ax = L) ->
       (kws = k \/ labelled_in (assoc "label" k) L = true) -> Forall (fun l => label_of l = given_label p k L) ls) /\
    (check = false -> kws = k -> Forall (fun l => label_of l = wish p k) ls).
Proof.
  intros (s & W & F & H) N. revert kws axs. induction types as [|[xt yt] types IH]; intros kws axs Hk Len.
  - destruct axs; [|discriminate]. exists []. repeat split; constructor.
  - destruct axs as [|ax axs]; [discriminate|]. cbn [draw_member].
    set (kws' := if check && is_labelled (assoc "label" k) ax then dict_set "label" KNone kws else kws).
    assert (Hk' : kws' = k \/ (In "label" (map fst k) /\ kws' = dict_set "label" KNone k)).
    { unfold kws'. destruct (check && is_labelled (assoc "label" k) ax) eqn:B; [|exact Hk]. right. split.
      - apply andb_true_iff in B. destruct B as [_ B]. destruct (assoc "label" k) as [v|] eqn:E; [|discriminate].
        apply assoc_In in E. now apply (in_map fst) in E.
      - destruct Hk as [-> |[_ ->]]; [reflexivity|apply dict_set_twice]. }
    assert (Nd : NoDup (map fst kws')) by (destruct Hk' as [-> |[I ->]]; [exact N|now rewrite dict_set_keys]).
    destruct (H xt yt (or_introl eq_refl)) as [Hx Hy].
    destruct (plot_line_ok s p xt yt kws' mask W Hx Hy F) as (l & El & Sl & Tl). rewrite El.
    destruct (IH ltac:(intros; apply H; now right) kws' axs Hk' ltac:(now injection Len)) as (ls & E & Fl & Lab & Lab0). rewrite E.
    exists (l :: ls). split; [reflexivity|]. split; [|split].
    + constructor; [|exact Fl]. split; [exact Sl|]. intros key Nk. rewrite Tl. cbn [fst snd].
      rewrite assoc_merge by exact Nd. destruct Hk' as [-> |[_ ->]]; [reflexivity|]. rewrite assoc_dict_set.
      destruct (String.eqb_spec key "label"); [contradiction|reflexivity].
    + intros L -> HL HK. cbn [andb] in kws'.
      assert (EL : is_labelled (assoc "label" k) ax = labelled_in (assoc "label" k) L).
      { unfold is_labelled, labelled_in. now rewrite (HL ax (or_introl eq_refl)). }
      assert (K : (labelled_in (assoc "label" k) L = true -> kws' = dict_set "label" KNone k) /\
                  (labelled_in (assoc "label" k) L = false -> kws' = k)).
      { unfold kws'. rewrite EL. split; intros B; rewrite B.
        - destruct Hk as [-> |[_ ->]]; [reflexivity|apply dict_set_twice].
        - destruct HK as [-> |HK]; [reflexivity|congruence]. }
      constructor.
      * rewrite (label_merge p kws' l Nd Tl). unfold given_label. destruct (labelled_in (assoc "label" k) L) eqn:B.
        -- rewrite (proj1 K eq_refl). unfold wish. rewrite assoc_dict_set. reflexivity.
        -- now rewrite (proj2 K eq_refl).
      * apply Lab; auto; [intros; apply HL; now right|]. destruct (labelled_in (assoc "label" k) L) eqn:B; [now right|left; now apply K].
    + intros -> ->. cbn [andb] in kws'. subst kws'. constructor; [now apply label_merge|]. now apply Lab0.
Qed.

(** Lines of several members on one axes. *)
Inductive lines_of (t : string * string) : list peaks -> list (dict kw) -> list (option (nd bool)) -> list artist -> Prop :=
| lines_nil : lines_of t [] [] [] []
| lines_cons p ps k ks m ms l ls : line_of p k m t l -> lines_of t ps ks ms ls -> lines_of t (p :: ps) (k :: ks) (m :: ms) (l :: ls).
(** The legend of an axes with legend [L] after members drew with the labels they wish. *)
Fixpoint legend_after (ps : list peaks) (ks : list (dict kw)) (L : list string) : list string :=
  match ps, ks with
  | p :: ps', k :: ks' => legend_after ps' ks' (L ++ filter in_legend [given_label p k L])
  | _, _ => L
  end.
Inductive drawables (types : list (string * string)) : list peaks -> list (dict kw) -> list (option (nd bool)) -> Prop :=
| drawables_nil : drawables types [] [] []
| drawables_cons p ps k ks m ms : drawable types p m -> NoDup (map fst k) -> drawables types ps ks ms -> drawables types (p :: ps) (k :: ks) (m :: ms).
Lemma map2_nth {A B C} (f : A -> B -> C) l m j : nth_error (map2 f l m) j =
  match nth_error l j, nth_error m j with Some a, Some b => Some (f a b) | _, _ => None end.
Proof.
  revert m j. induction l as [|a l IH]; intros [|b m] [|j]; cbn [map2 nth_error]; auto.
  - destruct (nth_error l j); reflexivity.
Qed.
Lemma map2_len {A B C} (f : A -> B -> C) l m : List.length l = List.length m -> List.length (map2 f l m) = List.length l.
Proof. revert m. induction l as [|a l IH]; intros [|b m] E; cbn in *; auto; try discriminate. Qed.
Lemma forall2_nth {A B} (R : A -> B -> Prop) l m j a b : Forall2 R l m -> nth_error l j = Some a -> nth_error m j = Some b -> R a b.
Proof.
  intros F. revert j. induction F as [|x y l m H F IH]; intros [|j] Ha Hb; try discriminate.
  - cbn in Ha, Hb. congruence.
  - eauto.
Qed.
Lemma draw_rest_ok types ps ks ms axs : drawables types ps ks ms -> List.length types = List.length axs ->
  exists out, draw_rest types ps ks ms axs = (out, Ok tt) /\ List.length out = List.length axs /\
    (forall j t ax, nth_error types j = Some t -> nth_error axs j = Some ax ->
       exists ls, nth_error out j = Some (ax ++ map Drew ls) /\ lines_of t ps ks ms ls) /\
    (forall L, (forall ax, In ax axs -> legend ax = L) -> forall ax, In ax out -> legend ax = legend_after ps ks L).
Proof.
  intros D. revert axs. induction D as [|p ps k ks m ms Dp N D IH]; intros axs Len.
  - exists axs. split; [reflexivity|]. split; [reflexivity|]. split; [|auto]. intros j t ax _ Ha. exists []. cbn [map]. rewrite app_nil_r. split; [exact Ha|constructor].
  - destruct (draw_member_ok true p k k m types axs Dp N (or_introl eq_refl) Len) as (ls & E & Fl & Lab & _).
    assert (Ll : List.length axs = List.length ls) by (rewrite <- Len; eapply Forall2_length; eauto).
    set (axs1 := map2 add_line axs ls) in *.
    assert (L1 : List.length axs1 = List.length axs) by (apply map2_len; exact Ll).
    destruct (IH axs1 (eq_trans Len (eq_sym L1))) as (out & E' & Lo & H & G). exists out. cbn [draw_rest]. rewrite E. split; [exact E'|].
    split; [exact (eq_trans Lo L1)|]. split.
    + intros j t ax Ht Ha.
      assert (Hj : exists l, nth_error ls j = Some l).
      { destruct (nth_error ls j) eqn:Q; eauto. apply nth_error_None in Q. assert (j < List.length axs) by (apply nth_error_Some; congruence). lia. }
      destruct Hj as (l & Hl). destruct (H j t (add_line ax l) Ht) as (ls' & Hn & Hls).
      { unfold axs1. now rewrite map2_nth, Ha, Hl. }
      exists (l :: ls'). split; [cbn [map]; unfold add_line in Hn; now rewrite <- app_assoc in Hn|]. constructor; [|exact Hls].
      exact (forall2_nth _ _ _ _ _ _ Fl Ht Hl).
    + intros L HL. cbn [legend_after]. apply G. intros ax1 I. apply In_nth_error in I. destruct I as (j & Hj). unfold axs1 in Hj. rewrite map2_nth in Hj.
      destruct (nth_error axs j) as [ax|] eqn:Ha; [|discriminate]. destruct (nth_error ls j) as [l|] eqn:Hl; [|discriminate]. injection Hj as <-.
      unfold add_line. rewrite legend_app, (HL ax) by (eapply nth_error_In; eauto). f_equal. unfold legend, artists. cbn [map List.concat app]. f_equal. f_equal.
      specialize (Lab L eq_refl HL (or_introl eq_refl)). rewrite Forall_forall in Lab. apply Lab. eapply nth_error_In; eauto.
Qed.
Lemma configure_all_nth types axs j t ax : nth_error types j = Some t -> nth_error axs j = Some ax ->
  nth_error (configure_all types axs) j = Some (ax ++ configure (fst t) (snd t)).
Proof.
  revert axs j. induction types as [|[xt yt] types IH]; intros [|a axs] [|j] Ht Ha; try discriminate; cbn [configure_all nth_error] in *.
  - now injection Ht as <-; injection Ha as <-.
  - now apply IH.
Qed.
Lemma configure_all_len types axs : List.length (configure_all types axs) = List.length axs.
Proof. revert axs. induction types as [|[xt yt] types IH]; intros [|a axs]; cbn [configure_all List.length]; auto. Qed.

(** ** The suite *)
Lemma lines_of_nth t ps ks ms ls : lines_of t ps ks ms ls -> List.length ls = List.length ps /\
  forall i p k m l, nth_error ps i = Some p -> nth_error ks i = Some k -> nth_error ms i = Some m -> nth_error ls i = Some l -> line_of p k m t l.
Proof.
  intros H. induction H as [|p ps k ks m ms l ls Hl H [IH1 IH2]]; (split; [cbn; congruence|]).
  - intros [|i] * Hp; discriminate.
  - intros [|i] p' k' m' l' Hp Hk Hm Hl'; cbn [nth_error] in *; [congruence|]. eapply IH2; eauto.
Qed.
Lemma drawables_intro types ps ks ms : List.length ks = List.length ps -> List.length ms = List.length ps ->
  (forall i p k m, nth_error ps i = Some p -> nth_error ks i = Some k -> nth_error ms i = Some m -> drawable types p m /\ NoDup (map fst k)) ->
  drawables types ps ks ms.
Proof.
  revert ks ms. induction ps as [|p ps IH]; intros [|k ks] [|m ms] Lk Lm H; try discriminate; constructor.
  - now apply (H 0 p k m).
  - now apply (H 0 p k m).
  - apply IH; [now injection Lk|now injection Lm|]. intros i. apply (H (S i)).
Qed.
Lemma prepare_suite_ok n x y xs ys kwargs mask : means x xs -> means y ys -> List.length xs = List.length ys ->
  distributable kwargs n -> (match mask with None => True | Some m => List.length m = n end) ->
  exists ks ms, prepare_suite n x y kwargs mask = Ok ((xs, ys), ks, ms) /\ List.length ks = n /\ List.length ms = n /\
    (forall i k, nth_error ks i = Some k -> dealt kwargs i k) /\ (forall i m, nth_error ms i = Some m -> m = mask_of mask i).
Proof.
  intros Mx My L D Hm. unfold prepare_suite. rewrite (prepare_types_ok x y xs ys Mx My), L, Nat.eqb_refl. cbn [bind].
  destruct (prepare_plot_kwargs_ok kwargs n D) as (ks & -> & Lk & Hk). cbn [bind].
  destruct mask as [m|].
  - rewrite Hm, Nat.eqb_refl. cbn [bind]. exists ks, m. repeat (split; auto). intros i mi E. unfold mask_of. symmetry. now apply nth_error_nth.
  - cbn [bind]. exists ks, (repeat None n). repeat (split; auto using repeat_length). intros i mi E. apply nth_error_In, repeat_spec in E. exact E.
Qed.
Lemma in_combine_types {A} (xs ys : list A) a b : In (a, b) (combine xs ys) -> In a xs /\ In b ys.
Proof. intros I. split; [eapply in_combine_l|eapply in_combine_r]; eauto. Qed.
Lemma can_drawables ps xs ys kwargs mask ks ms : can_draw ps xs ys kwargs mask -> List.length ks = List.length ps -> List.length ms = List.length ps ->
  (forall i k, nth_error ks i = Some k -> dealt kwargs i k) -> (forall i m, nth_error ms i = Some m -> m = mask_of mask i) ->
  drawables (combine xs ys) ps ks ms.
Proof.
  intros ((N & _) & _ & H) Lk Lm Hk Hm. apply drawables_intro; auto. intros i p k m Ep Ek Em. split.
  - destruct (H i p Ep) as (s & W & F & A). exists s. rewrite (Hm i m Em). repeat (split; auto); apply A; apply in_combine_types in H0; tauto.
  - destruct (Hk i k Ek) as [-> _]. exact N.
Qed.
Lemma lines_shown t ps ks ms ls mask kwargs : List.length ks = List.length ps -> List.length ms = List.length ps ->
  (forall i k, nth_error ks i = Some k -> dealt kwargs i k) -> (forall i m, nth_error ms i = Some m -> m = mask_of mask i) ->
  lines_of t ps ks ms ls -> members_shown ps mask kwargs (fst t) (snd t) ls.
Proof.
  intros Lk Lm Hk Hm H. apply lines_of_nth in H. destruct H as [L H]. split; [exact L|]. intros i p l Ep El.
  assert (Hi : i < List.length ps) by (apply nth_error_Some; congruence).
  destruct (nth_error ks i) as [k|] eqn:Ek; [|apply nth_error_None in Ek; lia].
  destruct (nth_error ms i) as [m|] eqn:Em; [|apply nth_error_None in Em; lia].
  destruct (H i p k m l Ep Ek Em El) as [S T]. rewrite (Hm i m Em) in S. split; [exact S|]. intros key v Nk G.
  rewrite (T key Nk). apply (proj2 (Hk i k Ek)) in G. now rewrite G.
Qed.
Lemma combine_nth_error {A B} (xs : list A) (ys : list B) j x y : nth_error xs j = Some x -> nth_error ys j = Some y -> nth_error (combine xs ys) j = Some (x, y).
Proof.
  revert ys j. induction xs as [|a xs IH]; intros [|b ys] [|j] Hx Hy; try discriminate; cbn [combine nth_error] in *; [congruence|auto].
Qed.
Lemma suite_plot_new ps x y xs ys kwargs mask : ps <> [] -> means x xs -> means y ys -> xs <> [] -> List.length xs = List.length ys ->
  can_draw ps xs ys kwargs mask ->
  exists ks ms out, prepare_suite (List.length ps) x y kwargs mask = Ok ((xs, ys), ks, ms) /\
    List.length ks = List.length ps /\ (forall i k, nth_error ks i = Some k -> dealt kwargs i k) /\
    suite_plot ps x y None kwargs mask = ([], Ok (Some out)) /\ List.length out = List.length xs /\
    (forall j xt yt, nth_error xs j = Some xt -> nth_error ys j = Some yt -> exists ls, 
       nth_error out j = Some (Drew (hd (mkArtist [] [] []) ls) :: configure xt yt ++ map Drew (tl ls) ++ configure xt yt) /\ ls <> [] /\ members_shown ps mask kwargs xt yt ls) /\
    (forall ax, In ax out -> legend ax = legend_after ps ks []).
Proof.
  intros Np Mx My Nx L C. pose proof C as (D & Hm & Hd).
  destruct (prepare_suite_ok (List.length ps) x y xs ys kwargs mask Mx My L D Hm) as (ks & ms & E & Lk & Lm & Hk & Hmm).
  pose proof (can_drawables ps xs ys kwargs mask ks ms C Lk Lm Hk Hmm) as DD.
  exists ks, ms. unfold suite_plot. rewrite E. cbv iota beta zeta.
  assert (Shown := fun t ls => lines_shown t ps ks ms ls mask kwargs Lk Lm Hk Hmm).
  destruct ps as [|p0 ps]; [congruence|]. destruct ks as [|k0 ks]; [discriminate|]. destruct ms as [|m0 ms]; [discriminate|].
  inversion DD as [|? ? ? ? ? ? Dp N DD']; subst. destruct Dp as (s & W & F & A).
  destruct (plot_types_ok s p0 xs ys k0 m0 W F Nx A) as (axs & Ea & Fa). rewrite Ea. cbv iota beta.
  assert (La : List.length (combine xs ys) = List.length axs) by (eapply Forall2_length; eauto).
  destruct (draw_rest_ok (combine xs ys) ps ks ms axs DD' La) as (out & Er & Lo & H & G). rewrite Er. cbv iota beta.
  exists (configure_all (combine xs ys) out). split; [reflexivity|]. split; [exact Lk|]. split; [exact Hk|]. split; [reflexivity|]. split; [|split].
  - rewrite configure_all_len, Lo. rewrite <- La, combine_length, L. apply Nat.min_id.
  - intros j xt yt Hx Hy. pose proof (combine_nth_error _ _ _ _ _ Hx Hy) as Ht.
    destruct (nth_error axs j) as [ax|] eqn:Hax.
    2: { apply nth_error_None in Hax. assert (j < List.length (combine xs ys)) by (apply nth_error_Some; congruence). lia. }
    destruct (forall2_nth _ _ _ _ _ _ Fa Ht Hax) as (l & El & Sl & ->). cbn [fst snd] in *.
    destruct (H j (xt, yt) _ Ht Hax) as (ls & Hn & Hls). exists (l :: ls). split; [|split; [discriminate|]].
    + rewrite (configure_all_nth _ _ _ _ _ Ht Hn). cbn [fst snd hd tl]. f_equal. cbn [app]. now rewrite <- app_assoc.
    + apply (Shown (xt, yt)). constructor; [|exact Hls].
      destruct (plot_line_ok s p0 xt yt k0 m0 W) as (l' & El' & Sl' & Tl); try (apply (A xt yt); eapply nth_error_In; eauto); [exact F|].
      rewrite El in El'. injection El' as <-. split; [exact Sl|]. intros key Nk. rewrite Tl. now rewrite assoc_merge.
  - assert (HL : forall ax, In ax axs -> legend ax = filter in_legend [given_label p0 k0 []]).
    { intros ax I. apply In_nth_error in I. destruct I as (j & Hj).
      destruct (nth_error (combine xs ys) j) as [[xt yt]|] eqn:Ht.
      2: { apply nth_error_None in Ht. assert (j < List.length axs) by (apply nth_error_Some; congruence). lia. }
      destruct (forall2_nth _ _ _ _ _ _ Fa Ht Hj) as (l & El & Sl & ->). cbn [fst snd] in *.
      change (Drew l :: configure xt yt) with ([Drew l] ++ configure xt yt). rewrite legend_app.
      unfold legend at 2. rewrite configure_no_artist. cbn [map filter]. rewrite app_nil_r. unfold legend, artists. cbn [map List.concat app]. f_equal. f_equal.
      destruct (plot_line_ok s p0 xt yt k0 m0 W) as (l' & El' & Sl' & Tl); try (apply (A xt yt); eapply nth_error_In; eauto); [exact F|].
      rewrite El in El'. injection El' as <-. rewrite (label_merge p0 k0 l N Tl). unfold given_label, labelled_in. destruct (assoc "label" k0) as [[]|]; reflexivity. }
    intros ax I. apply In_nth_error in I. destruct I as (j & Hj).
    assert (Hjl : j < List.length out) by (rewrite <- (configure_all_len (combine xs ys) out); apply nth_error_Some; congruence).
    destruct (nth_error out j) as [ax'|] eqn:Ha; [|apply nth_error_None in Ha; lia].
    destruct (nth_error (combine xs ys) j) as [[xt yt]|] eqn:Ht; [|apply nth_error_None in Ht; lia].
    rewrite (configure_all_nth _ _ _ _ _ Ht Ha) in Hj. injection Hj as <-. rewrite legend_app.
    unfold legend at 2. rewrite configure_no_artist. cbn [map filter]. rewrite app_nil_r.
    rewrite (G _ HL ax') by (eapply nth_error_In; eauto). reflexivity.
Qed.
Lemma suite_plot_given ps x y xs ys axs kwargs mask : ps <> [] -> means x xs -> means y ys -> List.length xs = List.length ys ->
  List.length axs = List.length xs -> can_draw ps xs ys kwargs mask ->
  exists out, suite_plot ps x y (Some axs) kwargs mask = (out, Ok None) /\ List.length out = List.length axs /\
    forall j xt yt ax, nth_error xs j = Some xt -> nth_error ys j = Some yt -> nth_error axs j = Some ax ->
      exists ls, nth_error out j = Some (ax ++ map Drew ls ++ configure xt yt) /\ members_shown ps mask kwargs xt yt ls.
Proof.
  intros Np Mx My L La C. pose proof C as (D & Hm & Hd).
  destruct (prepare_suite_ok (List.length ps) x y xs ys kwargs mask Mx My L D Hm) as (ks & ms & E & Lk & Lm & Hk & Hmm).
  pose proof (can_drawables ps xs ys kwargs mask ks ms C Lk Lm Hk Hmm) as DD.
  unfold suite_plot. rewrite E. cbv iota beta zeta.
  assert (Shown := fun t ls => lines_shown t ps ks ms ls mask kwargs Lk Lm Hk Hmm).
  destruct ps as [|p0 ps]; [congruence|]. destruct ks as [|k0 ks]; [discriminate|]. destruct ms as [|m0 ms]; [discriminate|].
  rewrite La, Nat.eqb_refl. inversion DD as [|? ? ? ? ? ? Dp N DD']; subst.
  assert (Lt : List.length (combine xs ys) = List.length axs) by (rewrite combine_length, L, Nat.min_id; congruence).
  destruct (draw_member_ok false p0 k0 k0 m0 (combine xs ys) axs Dp N (or_introl eq_refl) Lt) as (ls0 & E0 & F0 & _). rewrite E0. cbv iota beta.
  assert (Ll : List.length axs = List.length ls0) by (rewrite <- Lt; eapply Forall2_length; eauto).
  pose proof (map2_len add_line axs ls0 Ll) as L1.
  destruct (draw_rest_ok (combine xs ys) ps ks ms _ DD' (eq_trans Lt (eq_sym L1))) as (out & Er & Lo & H & _). rewrite Er. cbv iota beta.
  eexists. split; [reflexivity|]. split; [rewrite configure_all_len, <- La; exact (eq_trans Lo L1)|].
  intros j xt yt ax Hx Hy Ha. pose proof (combine_nth_error _ _ _ _ _ Hx Hy) as Ht.
  destruct (nth_error ls0 j) as [l|] eqn:Hl.
  2: { apply nth_error_None in Hl. assert (j < List.length axs) by (apply nth_error_Some; congruence). lia. }
  destruct (H j (xt, yt) (add_line ax l) Ht) as (ls & Hn & Hls); [now rewrite map2_nth, Ha, Hl|].
  exists (l :: ls). split.
  - rewrite (configure_all_nth _ _ _ _ _ Ht Hn). cbn [fst snd map]. f_equal. unfold add_line. now rewrite <- !app_assoc.
  - apply (Shown (xt, yt)). constructor; [|exact Hls]. exact (forall2_nth _ _ _ _ _ _ F0 Ht Hl).
Qed.

(** ** Legends *)
Lemma visible_spec s : visible s <-> in_legend s = true.
Proof.
  unfold visible. destruct s as [|c s]; cbn [in_legend]; [split; [intros [N _]; congruence|discriminate]|].
  destruct (Ascii.eqb_spec c "_"%char) as [->|N]; cbn [negb].
  - split; [intros [_ H]; exfalso; now apply (H s)|discriminate].
  - split; [auto|]. intros _. split; [discriminate|]. intros t E. injection E as -> _. congruence.
Qed.
Lemma legend_after_in s ps ks L : List.length ks = List.length ps ->
  (In s (legend_after ps ks L) <-> In s L \/ (in_legend s = true /\ exists i p k, nth_error ps i = Some p /\ nth_error ks i = Some k /\ wish p k = s)).
Proof.
  revert ks L. induction ps as [|p ps IH]; intros [|k ks] L Len; try discriminate; cbn [legend_after].
  - split; [auto|]. intros [I|(_ & [|i] & q & k & E & _)]; [exact I|discriminate|discriminate].
  - rewrite IH by (now injection Len). rewrite in_app_iff.
    assert (G : In s (filter in_legend [given_label p k L]) -> In s L \/ (in_legend s = true /\ wish p k = s)).
    { intros I. apply filter_In in I. destruct I as [[E|[]] V]. subst s. unfold given_label in *. destruct (labelled_in _ L) eqn:B; [discriminate V|auto]. }
    assert (G' : in_legend s = true -> wish p k = s -> In s L \/ In s (filter in_legend [given_label p k L])).
    { intros V Ew. unfold given_label. destruct (labelled_in (assoc "label" k) L) eqn:B.
      - left. unfold labelled_in in B. unfold wish in Ew. destruct (assoc "label" k) as [[t| |t]|]; try discriminate.
        apply existsb_exists in B. destruct B as (u & Iu & Eu). apply String.eqb_eq in Eu. congruence.
      - right. apply filter_In. split; [left; exact Ew|exact V]. }
    split.
    + intros [[I|I]|(V & i & q & k' & Hq & Hk & Ew)]; [now left| |].
      * apply G in I. destruct I as [I|[V Ew]]; [now left|]. right. split; [exact V|]. exists 0, p, k. auto.
      * right. split; [exact V|]. exists (S i), q, k'. auto.
    + intros [I|(V & [|i] & q & k' & Hq & Hk & Ew)]; [now left; left| |].
      * cbn in Hq, Hk. injection Hq as <-. injection Hk as <-. destruct (G' V Ew); [now left; left|now left; right].
      * right. split; [exact V|]. exists i, q, k'. auto.
Qed.
Lemma legend_after_nodup ps ks L : List.length ks = List.length ps -> NoDup L ->
  (forall i k, nth_error ks i = Some k -> exists v, assoc "label" k = Some v /\ forall t, v <> KObj t) -> NoDup (legend_after ps ks L).
Proof.
  revert ks L. induction ps as [|p ps IH]; intros [|k ks] L Len N H; try discriminate; cbn [legend_after]; auto.
  apply IH; [now injection Len| |intros i; apply (H (S i))].
  destruct (H 0 k eq_refl) as (v & E & Nv). unfold given_label, labelled_in, wish. rewrite E. destruct v as [t| |t].
  - destruct (existsb (String.eqb t) L) eqn:B; [cbn [filter in_legend]; now rewrite app_nil_r|]. cbn [filter].
    destruct (in_legend t); [|now rewrite app_nil_r]. apply NoDup_rev in N. rewrite <- (rev_involutive (L ++ [t])). apply NoDup_rev. rewrite rev_app_distr. cbn [rev app].
    constructor; [|exact N]. rewrite <- in_rev. intros I. rewrite <- not_true_iff_false in B. apply B. apply existsb_exists. exists t. split; [exact I|apply String.eqb_refl].
  - cbn [filter in_legend]. now rewrite app_nil_r.
  - now destruct (Nv t).
Qed.
Lemma legend_after_ids ps ks L : List.length ks = List.length ps -> NoDup (L ++ map identifier ps) ->
  (forall i k, nth_error ks i = Some k -> assoc "label" k = None) -> NoDup (legend_after ps ks L).
Proof.
  revert ks L. induction ps as [|p ps IH]; intros [|k ks] L Len N H; try discriminate; cbn [legend_after].
  - now rewrite app_nil_r in N.
  - apply IH; [now injection Len| |intros i; apply (H (S i))].
    unfold given_label, labelled_in, wish. rewrite (H 0 k eq_refl). cbn [filter map] in *. destruct (in_legend (identifier p)).
    + now rewrite <- app_assoc.
    + rewrite app_nil_r. now apply NoDup_remove_1 in N.
Qed.
Lemma wish_asks kwargs i p k s : NoDup (map fst kwargs) -> dealt kwargs i k -> in_legend s = true -> (wish p k = s <-> asks_label kwargs i p s).
Proof.
  intros N [Ef H] V. unfold wish, asks_label, keyword. rewrite <- Ef. destruct (assoc "label" k) as [v|] eqn:E.
  - assert (G : member_gets kwargs i "label" v) by now apply H.
    assert (I : In "label" (map fst k)) by (apply assoc_In in E; now apply (in_map fst) in E).
    assert (U : forall w, member_gets kwargs i "label" w -> w = v) by (intros w Hw; apply H in Hw; congruence).
    split.
    + destruct v as [t| |t]; intros <-; [now left|discriminate V|now right; left].
    + intros [Q|[Q|[Q _]]]; [apply U in Q; now subst v|apply U in Q; now subst v|contradiction].
  - assert (Q : ~ In "label" (map fst k)) by now apply assoc_none. 
    split; [intros <-; right; right; auto|]. intros [G|[G|[_ G]]]; [apply H in G; congruence|apply H in G; congruence|congruence].
Qed.
