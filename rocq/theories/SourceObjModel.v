(* Model of sources with and without a signal and of the arrays that hold them as Python objects
   (/repo/swprocess/source.py:23-97 and /repo/swprocess/array1d.py:738-746, 791-879): classes, equality, copies,
   the reading of the source signal with the type of its samples, and the cross-correlation. *)
From Verif Require Export HeaderModel.

(** source.py:23-41 and 74-97: a [Source] has a position, a [SourceWithSignal] has also the samples and the time step
    of a sigpropy TimeSeries. *)
Inductive any_source : Type :=
| PlainSource (p : source)
| SignalSource (p : source) (samples : list Qc) (step : Qc).
(** source.py:43-53 [x], [y], [z] *)
Definition place (s : any_source) : source := match s with PlainSource p | SignalSource p _ _ => p end.
(** What a source may be compared with. *)
Inductive source_operand : Type := ASource (s : any_source) | NoSource.
(** source.py:64-71 [__eq__].  SourceWithSignal inherits from Source first, so that this method is found before that of
    TimeSeries. *)
Definition sources_equal (s : any_source) (o : source_operand) : bool :=
  match o with ASource t => source_eq (place s) (place t) | NoSource => false end.
(** source.py:55-59 [from_source] of either class: `cls(x, y, z)`, which lacks the arguments amp and dt of
    SourceWithSignal. *)
Definition copy_source (with_signal : bool) (s : any_source) : result any_source :=
  if with_signal then Err TypeError else Ok (PlainSource (place s)).

(** array1d.py:36 and 818: the two classes of arrays. *)
Inductive array_class : Set := Array1D | Array1DwSource.
(** An array as an object: its class, its sensors with the position of its source, and the signal of its source if there
    is one.  Every combination can be constructed, array1d.py:67-84 and 820-821. *)
Record array_object : Type := mkObject { o_class : array_class; o_array : array; o_signal : option (list Qc * Qc) }.
Definition source_of (o : array_object) : any_source :=
  match o_signal o with None => PlainSource (src (o_array o)) | Some (x, d) => SignalSource (src (o_array o)) x d end.
(** array1d.py:67-84 and 820-821 [__init__] *)
Definition signal_of (s : any_source) : option (list Qc * Qc) := match s with PlainSource _ => None | SignalSource _ x d => Some (x, d) end.
Definition new_object (c : array_class) (l : list sensor) (s : any_source) : result array_object :=
  bind (new_array l (place s)) (fun a => Ok (mkObject c a (signal_of s))).
(** What an array may be compared with. *)
Inductive array_operand : Type := AnArray (o : array_object) | NoArray.
(** array1d.py:791-800 [is_similar]; `!=` of two sources is the negation of their [__eq__]. *)
Definition objects_similar (o : array_object) (x : array_operand) : bool :=
  match x with
  | NoArray => false
  | AnArray p => Nat.eqb (nchannels (o_array o)) (nchannels (o_array p)) && sources_equal (source_of o) (ASource (source_of p))
  end.
(** array1d.py:802-811 [__eq__] *)
Definition objects_equal (o : array_object) (x : array_operand) : bool :=
  objects_similar o x &&
  match x with
  | NoArray => false
  | AnArray p => forallb (fun b => b) (map2 (fun s t => sensor_eq s (ObjSensor t)) (sensors (o_array o)) (sensors (o_array p)))
  end.
(** array1d.py:738-746 [from_array1d] of the class [c]: the source is copied by Source.from_source. *)
Definition copy_object (c : array_class) (o : array_object) : result array_object :=
  bind (mapM copy_sensor (sensors (o_array o))) (fun l =>
  bind (copy_source false (source_of o)) (fun s => new_object c l s)).
(** array1d.py:845-879 [xcorrelate], a method of Array1DwSource only; a source without signal has no attribute `dt`.
    [vmin] and [vmax] default to 50 and 3000. *)
Definition xcorrelate_object (o : array_object) (vmin vmax : option Qc) : array_object * result unit :=
  match o_class o with
  | Array1D => (o, Err AttributeError)
  | Array1DwSource =>
      let vh := match vmax with Some v => v | None => xcorr_default_vmax end in
      let vl := match vmin with Some v => v | None => xcorr_default_vmin end in
      match offsets (o_array o), o_signal o with
      | [], _ => (o, Err ValueError)
      | _, Some (x, d) => let r := xcorrelate (o_array o) x d vl vh in (mkObject (o_class o) (fst r) (o_signal o), snd r)
      | _, None => (o, Err (if Qceqb vh 0%Qc then ZeroDivisionError else AttributeError))
      end
  end.

Section Signal.
  Context {F K : Type} (read : option K -> F -> result (list trace)).
  (** The type of the samples in a file: floating-point numbers (the SU and SEG-Y formats written by to_file) or integers
      (many SEG-2 and SEG-Y files). *)
  Context (floats : F -> bool).

  (** array1d.py:833-834: `amp += trace.data`.  numpy refuses to add floating-point numbers to an array of integers in
      place, which it finds out before it compares the shapes.  Sums of integers are taken without overflow. *)
  Fixpoint add_typed (ch : Z) (fl : bool) (a : list Qc) (fs : list F) : result (list Qc) :=
    match fs with
    | [] => Ok a
    | x :: t => bind (read None x) (fun stream => bind (pyget stream ch) (fun tr =>
                if negb fl && floats x then Err TypeError
                else bind (add_in_place a (t_data tr)) (fun a' => add_typed ch fl a' t)))
    end.
  (** array1d.py:828-835: `amp /= len(fnames_src)` is refused for an array of integers. *)
  Definition typed_signal (ch : Z) (fs : list F) : result (list Qc * Qc) :=
    match fs with
    | [] => Err IndexError
    | f0 :: rest =>
        bind (read None f0) (fun stream => bind (pyget stream ch) (fun tr =>
        bind (add_typed ch (floats f0) (t_data tr) rest) (fun a =>
        if floats f0 then Ok (map (fun v => v / QcN (length fs))%Qc a, t_delta tr) else Err TypeError)))
    end.
  (** array1d.py:823-843 [from_files] of Array1DwSource, without the keyword arguments of obspy.read. *)
  Definition object_from_files (mx my : Qc -> Qc) (recs srcs : list F) (ch : Z) : result array_object :=
    bind (from_files read mx my None recs) (fun a =>
    bind (typed_signal ch srcs) (fun sig =>
    new_object Array1DwSource (sensors a) (SignalSource (src a) (fst sig) (snd sig)))).
End Signal.
