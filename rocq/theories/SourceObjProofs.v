(* Proofs about sources with a signal and the arrays that hold them. *)
From Verif Require Import NumFacts PyFacts SeriesModel SeriesSpec ArrayModel ArraySpec ArrayProofs ArrayMatrixProofs.
From Verif Require Import HeaderModel HeaderSpec HeaderProofs HeaderFileProofs HeaderErrorSpec HeaderErrorProofs SourceObjModel.

Lemma place_source_of o : place (source_of o) = src (o_array o).
Proof. unfold source_of. now destruct (o_signal o) as [[x d]|]. Qed.
Lemma objects_array o p : objects_equal o (AnArray p) = array_eq (o_array o) (o_array p).
Proof. unfold objects_equal, objects_similar, array_eq, array_similar. cbn [sources_equal]. now rewrite !place_source_of. Qed.
Lemma objects_equal_spec o p : objects_equal o (AnArray p) = true <->
  src (o_array o) = src (o_array p) /\ Forall2 (fun s t => sensor_eq s (ObjSensor t) = true) (sensors (o_array o)) (sensors (o_array p)).
Proof. rewrite objects_array. apply array_eq_spec. Qed.

Lemma objects_similar_spec o p : objects_similar o (AnArray p) = true <->
  src (o_array o) = src (o_array p) /\ length (sensors (o_array o)) = length (sensors (o_array p)).
Proof. unfold objects_similar. cbn [sources_equal]. rewrite !place_source_of, andb_true_iff, Nat.eqb_eq, source_eq_spec. unfold nchannels. tauto. Qed.

Lemma copy_object_array c o : copy_object c o = bind (copy_array (o_array o)) (fun a => Ok (mkObject c a None)).
Proof.
  unfold copy_object, copy_array, new_object, copy_source. destruct (mapM copy_sensor (sensors (o_array o))) as [l|]; [|reflexivity].
  cbn [bind place signal_of]. now rewrite place_source_of.
Qed.
Lemma copied c o : array_reachable (o_array o) -> (forall s, In s (sensors (o_array o)) -> (delay (ser s) <= 0)%Qc) ->
  exists p, copy_object c o = Ok p /\ o_class p = c /\ objects_equal p (AnArray o) = true /\ src (o_array p) = src (o_array o) /\
    Forall2 (fun s s' => sx s' = sx s /\ sy s' = sy s /\ sz s' = sz s /\ amp (ser s') = amp (ser s) /\
         dt (ser s') = dt (ser s) /\ nstacks (ser s') = nstacks (ser s) /\ delay (ser s') = delay (ser s) /\
         (multiple (ser s) = 1%Z -> s' = s)) (sensors (o_array o)) (sensors (o_array p)) /\
    (o_signal o = None -> o_signal p = o_signal o).
Proof.
  intros R D. destruct (reachable_copy _ R) as [H _]. destruct (H D) as (a & E & Q & S & Fa). exists (mkObject c a None).
  rewrite copy_object_array, E, objects_array. cbn [bind o_class o_array o_signal]. repeat split; auto.
Qed.
Lemma copy_is_deaf c o p : copy_object c o = Ok p ->
  o_class p = c /\ o_signal p = None /\ forall vmin vmax, vmax <> Some 0%Qc -> xcorrelate_object p vmin vmax = (p, Err AttributeError).
Proof.
  rewrite copy_object_array. destruct (copy_array (o_array o)) as [a|] eqn:E; [|discriminate]. cbn [bind]. intros Q. injection Q as <-.
  cbn [o_class o_signal]. split; [reflexivity|split; [reflexivity|]]. intros vmin vmax Hv. unfold xcorrelate_object. cbn [o_class o_array o_signal].
  destruct c; [reflexivity|]. unfold copy_array in E. destruct (mapM copy_sensor (sensors (o_array o))) as [l|]; [|discriminate]. cbn [bind] in E.
  assert (N : sensors a <> []).
  { unfold new_array in E. destruct l as [|e t]; [discriminate|]. destruct (check_sensors e [sx e] t); [|discriminate]. cbn [bind] in E. injection E as <-.
    unfold sort_sensors. cbn [sensors fold_right]. generalize (fold_right insert_sensor [] t). intros [|b m]; cbn [insert_sensor].
    - intros Q. discriminate Q.
    - destruct (Qcltb (sx b) (sx e)); intros Q; discriminate Q. }
  unfold offsets. destruct (sensors a) as [|s l']; [congruence|]. cbn [map].
  destruct vmax as [v|].
  - destruct (Qceqb v 0%Qc) eqn:Z; [|reflexivity]. apply Qceqb_eq in Z. now subst.
  - reflexivity.
Qed.

Lemma deaf_xcorrelate o vmin vmax : o_class o = Array1D -> xcorrelate_object o vmin vmax = (o, Err AttributeError).
Proof. intros C. unfold xcorrelate_object. now rewrite C. Qed.
Lemma hearing_xcorrelate o x d vmin vmax : o_class o = Array1DwSource -> o_signal o = Some (x, d) -> sensors (o_array o) <> [] ->
  let r := xcorrelate (o_array o) x d (match vmin with Some v => v | None => QcZ 50 end) (match vmax with Some v => v | None => QcZ 3000 end) in
  o_array (fst (xcorrelate_object o vmin vmax)) = fst r /\ snd (xcorrelate_object o vmin vmax) = snd r /\
  o_signal (fst (xcorrelate_object o vmin vmax)) = Some (x, d) /\ o_class (fst (xcorrelate_object o vmin vmax)) = Array1DwSource.
Proof.
  intros C S N. cbn zeta. unfold xcorrelate_object. rewrite C, S. unfold offsets. destruct (sensors (o_array o)) as [|s l]; [congruence|].
  cbn [map o_array o_class o_signal fst snd].
  replace xcorr_default_vmax with (QcZ 3000) by (apply Qc_is_canon; reflexivity).
  replace xcorr_default_vmin with (QcZ 50) by (apply Qc_is_canon; reflexivity). auto.
Qed.

Section Typed.
  Context {F K : Type} (read : option K -> F -> result (list trace)) (floats : F -> bool).
  Lemma add_typed_floats ch fs : forall a, add_typed read floats ch true a fs = add_all read ch a fs.
  Proof.
    induction fs as [|x t IH]; intros a; cbn [add_typed add_all]; [reflexivity|]. destruct (read None x) as [st|]; [|reflexivity]. cbn [bind].
    destruct (pyget st ch) as [tr|]; [|reflexivity]. cbn [bind negb andb]. destruct (add_in_place a (t_data tr)); [|reflexivity]. cbn [bind]. apply IH.
  Qed.
  Lemma typed_floats ch f0 rest : floats f0 = true -> typed_signal read floats ch (f0 :: rest) = source_signal read ch (f0 :: rest).
  Proof.
    intros H. cbn [typed_signal source_signal]. destruct (read None f0) as [st|]; [|reflexivity]. cbn [bind].
    destruct (pyget st ch) as [tr|]; [|reflexivity]. cbn [bind]. rewrite H, add_typed_floats. reflexivity.
  Qed.
  Lemma add_integers ch fs trs : Forall2 (channel_of read ch) fs trs -> forall a, (forall t, In t trs -> joins (length a) t) ->
    add_typed read floats ch false a fs = Err TypeError \/ exists r, add_typed read floats ch false a fs = Ok r.
  Proof.
    induction 1 as [|x t fs trs (st & R & G) H IH]; intros a J; cbn [add_typed]; [eauto|]. rewrite R. cbn [bind]. rewrite G. cbn [bind negb andb].
    destruct (floats x); [now left|].
    destruct (proj1 (add_one a (t_data t)) (J t (or_introl eq_refl))) as (r & -> & L & V). cbn [bind]. apply IH. intros u Hu. rewrite L. apply J. now right.
  Qed.
  Lemma typed_integers ch f0 rest : floats f0 = false ->
    (exists e, typed_signal read floats ch (f0 :: rest) = Err e) /\
    forall t0 trs, Forall2 (channel_of read ch) (f0 :: rest) (t0 :: trs) -> (forall t, In t trs -> joins (length (t_data t0)) t) ->
      typed_signal read floats ch (f0 :: rest) = Err TypeError.
  Proof.
    intros H. split.
    - cbn [typed_signal]. destruct (read None f0) as [st|]; cbn [bind]; [|eauto]. destruct (pyget st ch) as [tr|]; cbn [bind]; [|eauto].
      rewrite H. destruct (add_typed read floats ch false (t_data tr) rest); cbn [bind]; eauto.
    - intros t0 trs Fc J. inversion Fc as [|? ? ? ? (st & R & G) F']; subst. cbn [typed_signal]. rewrite R. cbn [bind]. rewrite G. cbn [bind]. rewrite H.
      destruct (add_integers ch rest trs F' _ J) as [-> |[r ->]]; reflexivity.
  Qed.
  Lemma object_read mx my recs srcs ch a x d : from_files read mx my None recs = Ok a -> consistent a -> typed_signal read floats ch srcs = Ok (x, d) ->
    object_from_files read floats mx my recs srcs ch = Ok (mkObject Array1DwSource a (Some (x, d))).
  Proof.
    intros E C S. unfold object_from_files. rewrite E. cbn [bind]. rewrite S. cbn [bind fst snd]. unfold new_object. cbn [place signal_of].
    now rewrite (consistent_rebuild a C).
  Qed.
  Lemma object_unread mx my recs srcs ch e :
    (from_files read mx my None recs = Err e -> object_from_files read floats mx my recs srcs ch = Err e) /\
    (forall a, from_files read mx my None recs = Ok a -> typed_signal read floats ch srcs = Err e ->
       object_from_files read floats mx my recs srcs ch = Err e).
  Proof. unfold object_from_files. split; [now intros ->|]. intros a -> . cbn [bind]. now intros ->. Qed.
End Typed.
