(* Property C122, and C73 for files of integers. *)
From Verif Require Import NumFacts PyFacts SeriesModel SeriesSpec ArrayModel ArraySpec ArrayProofs ArrayMatrixProofs.
From Verif Require Import HeaderModel HeaderSpec HeaderErrorSpec SourceObjModel SourceObjProofs.

(** Two arrays are equal exactly if their sources are at the same place and their sensors are equal pair by pair; the class
    of the arrays and the signals of their sources do not matter.  Nothing else is equal to an array.  Similar arrays need only
    as many sensors. *)
Theorem C122_equality_partial : forall o p,
  (objects_equal o (AnArray p) = true <->
   src (o_array o) = src (o_array p) /\ Forall2 (fun s t => sensor_eq s (ObjSensor t) = true) (sensors (o_array o)) (sensors (o_array p))) /\
  objects_equal o NoArray = false /\
  (objects_similar o (AnArray p) = true <-> src (o_array o) = src (o_array p) /\ length (sensors (o_array o)) = length (sensors (o_array p))) /\
  objects_similar o NoArray = false.
(* Missing: equal arrays should have equal source signals, which the next theorem refutes. *)
Proof. intros o p. split; [exact (objects_equal_spec o p)|]. split; [reflexivity|]. split; [exact (objects_similar_spec o p)|reflexivity]. Qed.
Print Assumptions C122_equality_partial.

Local Definition q (a : Z) (b : positive) : Qc := Q2Qc (a # b).
Local Definition geophone : sensor := mkSensor (mkSeries (map QcZ [1; 2; 3; 4; 5; 6; 7; 8; 9; 10; 11; 12]) (q 1 10) 1 0%Qc 1)%Z (QcZ 50) 0%Qc 0%Qc.
Local Definition line : array := mkArray [geophone] (mkSource 0%Qc 0%Qc 0%Qc).
Local Definition chirp (k : Z) : list Qc := map QcZ [k; 0; 0; 0; 0; 0; 0; 0; 0; 0]%Z.
Local Definition survey (k : Z) : array_object := mkObject Array1DwSource line (Some (chirp k, q 1 10)).
Local Lemma eta {A B} (p : A * B) b : snd p = b -> p = (fst p, b).
Proof. intros <-. now destruct p. Qed.
(** Arrays whose sources emitted different signals are equal, yet the same cross-correlation makes different arrays of
    them. *)
Theorem C122_equality_refuted : exists o p o' p', objects_equal o (AnArray p) = true /\ objects_equal p (AnArray o) = true /\
  xcorrelate_object o None None = (o', Ok tt) /\ xcorrelate_object p None None = (p', Ok tt) /\
  objects_equal o' (AnArray p') = false /\ objects_equal p' (AnArray o') = false.
Proof.
  exists (survey 1), (survey 2), (fst (xcorrelate_object (survey 1) None None)), (fst (xcorrelate_object (survey 2) None None)).
  split; [vm_compute; reflexivity|]. split; [vm_compute; reflexivity|]. split; [apply eta; vm_compute; reflexivity|].
  split; [apply eta; vm_compute; reflexivity|]. split; vm_compute; reflexivity.
Qed.
Print Assumptions C122_equality_refuted.

(** A copy of an array, of the class asked for, is equal to it and has the same sensors. *)
Theorem C122_copy_partial : forall c o, array_reachable (o_array o) -> (forall s, In s (sensors (o_array o)) -> (delay (ser s) <= 0)%Qc) ->
  exists p, copy_object c o = Ok p /\ o_class p = c /\ objects_equal p (AnArray o) = true /\ src (o_array p) = src (o_array o) /\
    Forall2 (fun s s' => sx s' = sx s /\ sy s' = sy s /\ sz s' = sz s /\ amp (ser s') = amp (ser s) /\
         dt (ser s') = dt (ser s) /\ nstacks (ser s') = nstacks (ser s) /\ delay (ser s') = delay (ser s) /\
         (multiple (ser s) = 1%Z -> s' = s)) (sensors (o_array o)) (sensors (o_array p)) /\
    (o_signal o = None -> o_signal p = o_signal o).
(* Missing: the signal of the source is lost, see the next theorem; records with a positive start cannot be copied (C08). *)
Proof. exact copied. Qed.
Print Assumptions C122_copy_partial.
(** The copy never has a source signal, and cannot be cross-correlated. *)
Theorem C122_copy_refuted : forall c o p, copy_object c o = Ok p ->
  o_class p = c /\ o_signal p = None /\ forall vmin vmax, vmax <> Some 0%Qc -> xcorrelate_object p vmin vmax = (p, Err AttributeError).
Proof. exact copy_is_deaf. Qed.
Print Assumptions C122_copy_refuted.
(** A source with a signal cannot be copied as such. *)
Theorem C122_source : forall s t,
  copy_source false s = Ok (PlainSource (place s)) /\ copy_source true s = Err TypeError /\
  sources_equal s NoSource = false /\ (sources_equal s (ASource t) = true <-> place s = place t).
Proof. intros s t. repeat split; auto; apply source_eq_spec. Qed.
Print Assumptions C122_source.
Example C122_copy_example : array_reachable line /\ (exists o', xcorrelate_object (survey 1) None None = (o', Ok tt)) /\
  exists p, copy_object Array1DwSource (survey 1) = Ok p /\ objects_equal p (AnArray (survey 1)) = true /\
    xcorrelate_object p None None = (p, Err AttributeError).
Proof.
  assert (R : array_reachable line).
  { exists [geophone], (src line), line, []. split; [|split; reflexivity].
    repeat constructor; try (vm_compute; reflexivity); try (vm_compute; discriminate). }
  split; [exact R|]. split; [eexists; apply eta; vm_compute; reflexivity|].
  destruct (C122_copy_partial Array1DwSource (survey 1) R) as (p & E & _ & Q & _).
  - intros s [<-|[]]. vm_compute. discriminate.
  - exists p. split; [exact E|]. split; [exact Q|]. destruct (C122_copy_refuted _ _ _ E) as (_ & _ & H). now apply H.
Qed.

(** Reading files puts the signal of the source files beside the array that Array1D would read from the receiver files; the
    first problem in this order is reported. *)
Theorem C122_files : forall (F K : Type) (read : option K -> F -> result (list trace)) floats mx my recs srcs ch,
  (forall a x d, from_files read mx my None recs = Ok a -> consistent a -> typed_signal read floats ch srcs = Ok (x, d) ->
     object_from_files read floats mx my recs srcs ch = Ok (mkObject Array1DwSource a (Some (x, d)))) /\
  (forall e, from_files read mx my None recs = Err e -> object_from_files read floats mx my recs srcs ch = Err e) /\
  (forall a e, from_files read mx my None recs = Ok a -> typed_signal read floats ch srcs = Err e ->
     object_from_files read floats mx my recs srcs ch = Err e).
Proof.
  intros F K read floats mx my recs srcs ch. split; [|split].
  - intros a x d. apply object_read.
  - intros e. apply (object_unread read floats mx my recs srcs ch e).
  - intros a e. apply (object_unread read floats mx my recs srcs ch e).
Qed.
Print Assumptions C122_files.
(** Cross-correlating uses the signal of the array's own source, with velocities from 50 to 3000 unless told otherwise;
    an array of the class without a source signal has no such method. *)
Theorem C122_xcorrelate : forall o vmin vmax,
  (forall x d, o_class o = Array1DwSource -> o_signal o = Some (x, d) -> sensors (o_array o) <> [] ->
   let r := xcorrelate (o_array o) x d (match vmin with Some v => v | None => QcZ 50 end) (match vmax with Some v => v | None => QcZ 3000 end) in
   o_array (fst (xcorrelate_object o vmin vmax)) = fst r /\ snd (xcorrelate_object o vmin vmax) = snd r /\
   o_signal (fst (xcorrelate_object o vmin vmax)) = Some (x, d) /\ o_class (fst (xcorrelate_object o vmin vmax)) = Array1DwSource) /\
  (o_class o = Array1D -> xcorrelate_object o vmin vmax = (o, Err AttributeError)) /\
  (o_class o = Array1DwSource -> sensors (o_array o) = [] -> xcorrelate_object o vmin vmax = (o, Err ValueError)).
Proof.
  intros o vmin vmax. split; [intros x d; apply hearing_xcorrelate|]. split; [apply deaf_xcorrelate|].
  intros C S. unfold xcorrelate_object, offsets. now rewrite C, S.
Qed.
Print Assumptions C122_xcorrelate.

(** ** C73 *)
(** The other theorems on the source signal hold if the first file has floating-point samples, whatever the others have. *)
Theorem C73_floats : forall (F K : Type) (read : option K -> F -> result (list trace)) floats ch f0 rest,
  (floats f0 = true -> typed_signal read floats ch (f0 :: rest) = source_signal read ch (f0 :: rest)) /\
  typed_signal read floats ch [] = Err IndexError.
Proof. intros F K read floats ch f0 rest. split; [exact (typed_floats read floats ch f0 rest)|reflexivity]. Qed.
Print Assumptions C73_floats.
(** If the first file has integer samples, no source signal is ever measured: the mean of readable files is refused with a
    TypeError. *)
Theorem C73_integers_refuted : forall (F K : Type) (read : option K -> F -> result (list trace)) floats ch f0 rest, floats f0 = false ->
  (exists e, typed_signal read floats ch (f0 :: rest) = Err e) /\
  forall t0 trs, Forall2 (channel_of read ch) (f0 :: rest) (t0 :: trs) -> (forall t, In t trs -> joins (length (t_data t0)) t) ->
    typed_signal read floats ch (f0 :: rest) = Err TypeError.
Proof. intros F K read floats. exact (typed_integers read floats). Qed.
Print Assumptions C73_integers_refuted.
Local Definition sweep (l : list Z) : trace := mkTrace (map QcZ l) (q 1 1000) NoFormat.
Local Definition disk (_ : option unit) (f : nat) : result (list trace) := Ok [sweep (if Nat.eqb f 0 then [1; 2] else [3; 6])%Z].
(** Two files with the samples 1, 2 and 3, 6: their mean is 2, 4 if the first holds floating-point numbers. *)
Example C73_integers_example :
  match typed_signal disk (Nat.eqb 0) 0 [0; 1] with Ok (r, _) => map this r = [2; 4]%Q | Err _ => False end /\
  typed_signal disk (fun _ => false) 0 [0; 1] = Err TypeError /\ typed_signal disk (Nat.eqb 1) 0 [0; 1] = Err TypeError /\
  typed_signal disk (fun _ => false) 0 [0] = Err TypeError.
Proof. repeat split; vm_compute; reflexivity. Qed.
(* A receiver file with a sensor at 3 and the source at -5, recorded once. *)
Local Definition shot : trace :=
  mkTrace (map QcZ [7; 8; 9]%Z) (q 1 1000) (Su (mkSu (Value 1) (Value 1) (Value (-5)) (Value 0) (Value 3) (Value 0) (Value 1) (Value 0)))%Z.
Local Definition disk2 (k : option unit) (f : nat) : result (list trace) := if Nat.eqb f 2 then Ok [shot] else disk k f.
Example C122_files_example :
  (exists a, from_files disk2 (fun x => x) (fun x => x) None [2] = Ok a /\ consistent a) /\
  (exists o, object_from_files disk2 (Nat.eqb 0) (fun x => x) (fun x => x) [2] [0; 1] 0 = Ok o /\
     o_class o = Array1DwSource /\ match o_signal o with Some (x, d) => map this x = [2; 4]%Q /\ this d = (1 # 1000)%Q | None => False end) /\
  object_from_files disk2 (Nat.eqb 1) (fun x => x) (fun x => x) [2] [0; 1] 0 = Err TypeError.
Proof.
  split; [|split; [|vm_compute; reflexivity]].
  - eexists. split; [vm_compute; reflexivity|]. split; [discriminate|]. split; [repeat constructor|].
    intros s t [<-|[]] [<-|[]]. repeat split.
  - eexists. split; [vm_compute; reflexivity|]. repeat split.
Qed.
