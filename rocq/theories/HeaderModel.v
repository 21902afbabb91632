(* Model of the trace readers of /repo/swprocess/sensor1c.py and of
   Array1D.from_files / to_file and Array1DwSource.from_files of
   /repo/swprocess/array1d.py.  obspy is represented by the decoded trace:
   samples, time step and the header fields the code looks at. *)
From Verif Require Export ArrayModel.

(** A header field as seen by `conversion(getattr(header, name))`: absent, present
    but not convertible, or a number. *)
Inductive field (A : Type) : Type := Missing | Unparsable | Value (a : A).
Arguments Missing {A}. Arguments Unparsable {A}. Arguments Value {A} a.

(** sensor1c.py:135-143 [_safely_get_header]. *)
Definition safely_get {A} (f : field A) (default : A) : A :=
  match f with Value a => a | _ => default end.

(** array1d.py:669: `float(stats.seg2.SOURCE_LOCATION)`, unguarded attribute. *)
Definition attr_get {A} (f : field A) : result A :=
  match f with Value a => Ok a | Missing => Err AttributeError | Unparsable => Err ValueError end.
(** array1d.py:681-693: `int(trace_header[name])`, unguarded item. *)
Definition item_get {A} (f : field A) : result A :=
  match f with Value a => Ok a | Missing => Err KeyError | Unparsable => Err ValueError end.

(** The SEG2 strings read by the code (sensor1c.py:164-172, array1d.py:669). *)
Record seg2_header : Type := mkSeg2 {
  g_stack : field Z; g_delay : field Qc; g_receiver : field Qc; g_source : field Qc }.
(** The SU/SEGY trace header integers read by the code (sensor1c.py:194-217,
    array1d.py:673-717). *)
Record su_header : Type := mkSu {
  h_units : field Z; h_scale : field Z; h_sx : field Z; h_sy : field Z;
  h_gx : field Z; h_gy : field Z; h_nstack : field Z; h_delay : field Z }.

(** `trace.stats`: `_format` and the header of that format.  [NoFormat]: no
    usable `_format` attribute; [OtherFormat]: a format swprocess cannot read. *)
Inductive header : Type :=
| Seg2 (h : seg2_header) | Su (h : su_header) | Segy (h : su_header) | OtherFormat | NoFormat.
Record trace : Type := mkTrace { t_data : list Qc; t_delta : Qc; t_header : header }.

(** `int(np.log10(z))` for z > 0: the number of decimal digits minus one
    (numpy's log10 is taken to be exact at powers of ten). *)
Fixpoint ilog10_fuel (fuel : nat) (z : Z) : Z :=
  match fuel with
  | O => 0
  | S k => if (z <? 10)%Z then 0%Z else (1 + ilog10_fuel k (z / 10))%Z
  end.
Definition ilog10 (z : Z) : Z := ilog10_fuel (Z.to_nat (Z.log2 z)) z.

(** Python's `round(x, nd)` with exact arithmetic. *)
Definition pow10 (nd : Z) : Qc :=
  if (0 <=? nd)%Z then QcZ (10 ^ nd) else (1 / QcZ (10 ^ (- nd)))%Qc.
Definition round_nd (x : Qc) (nd : Z) : Qc :=
  (QcZ (round_half_even (x * pow10 nd)) / pow10 nd)%Qc.

(** sensor1c.py:208-210 and array1d.py:687-689:
    `x = i / abs(s) if s < 0 else i * s; x = round(x, -sign(s)*int(log10(abs(s))))`.
    For s = 0, log10 is -inf and int(-inf) raises OverflowError.  [ipos] is the
    integer used in the non-negative branch. *)
Definition scaled (ineg ipos s : Z) : result Qc :=
  let x := if (s <? 0)%Z then (QcZ ineg / QcZ (Z.abs s))%Qc else QcZ (ipos * s) in
  if (s =? 0)%Z then Err OverflowError
  else Ok (round_nd x (- Z.sgn s * ilog10 (Z.abs s))).

(** sensor1c.py:72-133 [from_trace] with read_header=False. *)
Definition from_trace_plain (tr : trace) (ns : Z) (de x y z : Qc) : result sensor :=
  new_sensor (t_data tr) (t_delta tr) x y z ns de.

(** sensor1c.py:145-172 [_from_trace_seg2]. *)
Definition from_trace_seg2 (tr : trace) (h : seg2_header) (mx my : Qc -> Qc) : result sensor :=
  from_trace_plain tr (safely_get (g_stack h) 1%Z) (safely_get (g_delay h) 0%Qc)
    (mx (safely_get (g_receiver h) 0%Qc)) (my 0%Qc) 0%Qc.

(** sensor1c.py:174-222 [_from_trace_su] and 224-272 [_from_trace_segy] (same
    text).  Line 213 / 263 uses int_x, not int_y, in the non-negative branch. *)
Definition from_trace_su (tr : trace) (h : su_header) (mx my : Qc -> Qc) : result sensor :=
  let ns0 := safely_get (h_nstack h) 1%Z in
  let ns := if (ns0 =? 0)%Z then 1%Z else ns0 in
  let sc0 := safely_get (h_scale h) 1%Z in
  let sc := if (sc0 =? 0)%Z then 1%Z else sc0 in
  let int_x := safely_get (h_gx h) 0%Z in
  bind (scaled int_x int_x sc) (fun x =>
  let int_y := safely_get (h_gy h) 0%Z in
  bind (scaled int_y int_x sc) (fun y =>
  from_trace_plain tr ns (QcZ (safely_get (h_delay h) 0%Z) / QcZ 1000)%Qc (mx x) (my y) 0%Qc)).

(** sensor1c.py:72-133 [from_trace] with read_header=True and format=None. *)
Definition from_trace (tr : trace) (mx my : Qc -> Qc) : result sensor :=
  match t_header tr with
  | NoFormat => Err ValueError
  | Seg2 h => from_trace_seg2 tr h mx my
  | Su h => from_trace_su tr h mx my
  | Segy h => from_trace_su tr h mx my
  | OtherFormat => Err NotImplementedError
  end.

(** array1d.py:674-679 / 699-704: the check of `coordinate_units`. *)
Definition check_units (h : su_header) : result unit :=
  match h_units h with
  | Missing => Err KeyError
  | Unparsable => Err ValueError
  | Value u => if (u =? 0)%Z then Ok tt else if (u =? 1)%Z then Ok tt else Err ValueError
  end.

(** The file format fixed by `_format = trace.stats._format` (array1d.py:666). *)
Inductive fmt : Set := F_seg2 | F_su | F_segy.

(** array1d.py:665-717: the three local functions [parse_source].  The header of
    another format is an AttributeError. *)
Definition parse_source (f : fmt) (mx my : Qc -> Qc) (tr : trace) : result source :=
  match f, t_header tr with
  | F_seg2, Seg2 h => bind (attr_get (g_source h)) (fun x => Ok (mkSource (mx x) 0%Qc 0%Qc))
  | F_su, Su h =>
      bind (check_units h) (fun _ =>
      bind (item_get (h_scale h)) (fun sc0 =>
      let sc := if (sc0 =? 0)%Z then 1%Z else sc0 in
      bind (item_get (h_sx h)) (fun ix => bind (scaled ix ix sc) (fun x =>
      bind (item_get (h_sy h)) (fun iy => bind (scaled iy iy sc) (fun y =>
      Ok (mkSource (mx x) (my y) 0%Qc)))))))
  | F_segy, Segy h =>
      bind (check_units h) (fun _ =>
      bind (item_get (h_scale h)) (fun sc =>
      bind (item_get (h_sx h)) (fun ix => bind (scaled ix ix sc) (fun x =>
      bind (item_get (h_sy h)) (fun iy => bind (scaled iy iy sc) (fun y =>
      Ok (mkSource (mx x) (my y) 0%Qc)))))))
  | _, _ => Err AttributeError
  end.
Definition fmt_of (h : header) : option fmt :=
  match h with Seg2 _ => Some F_seg2 | Su _ => Some F_su | Segy _ => Some F_segy | _ => None end.

(** array1d.py:732-734: `for sensor, trace in zip(obj.sensors, stream.traces)`.
    The loop mutates the sensors; on an exception from_files returns nothing. *)
Fixpoint stack_traces (l : list sensor) (ts : list trace) : result (list sensor) :=
  match l, ts with
  | s :: l', t :: ts' =>
      bind (from_trace t (fun x => x) (fun y => y)) (fun n =>
      match sensor_stack_append s (ObjSensor n) with
      | (_, Err e) => Err e
      | (s', Ok _) => bind (stack_traces l' ts') (fun r => Ok (s' :: r))
      end)
  | _, _ => Ok l
  end.

(** array1d.py:724-734: one additional file. *)
Definition stack_file (f : fmt) (mx my : Qc -> Qc) (a : array) (stream : list trace) : result array :=
  match stream with
  | [] => Err IndexError                                    (* stream[0] *)
  | t0 :: _ =>
      bind (parse_source f mx my t0) (fun ns =>
      if negb (source_eq ns (src a)) then Err ValueError
      else bind (stack_traces (sensors a) stream) (fun l => Ok (mkArray l (src a))))
  end.

Section FromFiles.
  (** obspy.read: [read (Some k) f] with the keyword arguments k, [read None f]
      without any. *)
  Context {F K : Type} (read : option K -> F -> result (list trace)).

  Fixpoint stack_files (f : fmt) (mx my : Qc -> Qc) (a : array) (fs : list F) : result array :=
    match fs with
    | [] => Ok a
    | x :: t => bind (read None x) (fun stream =>
                bind (stack_file f mx my a stream) (fun a' => stack_files f mx my a' t))
    end.

  (** array1d.py:654-736 [Array1D.from_files] for a list of names.  An empty first
      stream leaves `trace` unbound (UnboundLocalError). *)
  Definition from_files (mx my : Qc -> Qc) (kw : option K) (fnames : list F) : result array :=
    match fnames with
    | [] => Err IndexError
    | f0 :: rest =>
        bind (read kw f0) (fun stream =>
        bind (mapM (fun t => from_trace t mx my) stream) (fun ss =>
        match rev stream with
        | [] => Err UnboundLocalError
        | last_tr :: _ =>
            match fmt_of (t_header last_tr) with
            | None => Err UnboundLocalError   (* excluded: from_trace already raised *)
            | Some f =>
                bind (parse_source f mx my last_tr) (fun s =>
                bind (new_array ss s) (fun a => stack_files f mx my a rest))
            end
        end))
    end.

  (** array1d.py:834: `amp += trace.data` (numpy in-place addition: a single
      sample is broadcast). *)
  Definition add_in_place (a d : list Qc) : result (list Qc) :=
    if Nat.eqb (length d) (length a) then Ok (map2 Qcplus a d)
    else match d with [v] => Ok (map (fun x => x + v)%Qc a) | _ => Err ValueError end.
  Fixpoint add_all (ch : Z) (a : list Qc) (fs : list F) : result (list Qc) :=
    match fs with
    | [] => Ok a
    | x :: t => bind (read None x) (fun stream => bind (pyget stream ch) (fun tr =>
                bind (add_in_place a (t_data tr)) (fun a' => add_all ch a' t)))
    end.
  (** array1d.py:828-835: mean of the source channel; returns samples and dt.
      Simplification: floating-point samples; SourceObjModel.v has integers,
      for which `/=` raises. *)
  Definition source_signal (ch : Z) (fs : list F) : result (list Qc * Qc) :=
    match fs with
    | [] => Err IndexError
    | f0 :: rest =>
        bind (read None f0) (fun stream => bind (pyget stream ch) (fun tr =>
        bind (add_all ch (t_data tr) rest) (fun a =>
        Ok (map (fun v => v / QcN (length fs))%Qc a, t_delta tr))))
    end.
End FromFiles.

(** 16 and 32 bit header fields; obspy raises ValueError if packing fails. *)
Definition pack (bits : Z) (z : Z) : result Z :=
  if (- 2 ^ (bits - 1) <=? z)%Z && (z <? 2 ^ (bits - 1))%Z then Ok z else Err ValueError.
Definition pack_unsigned (bits : Z) (z : Z) : result Z :=
  if (0 <=? z)%Z && (z <? 2 ^ bits)%Z then Ok z else Err ValueError.

(** array1d.py:762-787: the trace written for one sensor.  `rint(x)` is
    int(round(x)).  The time step is written in whole microseconds by obspy.
    Simplification: samples are not rounded to binary32 (FloatFileModel.v). *)
Definition micro (d : Qc) : Z := round_half_even (d * QcZ 1000000).
Definition write_sensor (s0 : source) (s : sensor) : result trace :=
  bind (pack 32 (round_half_even (src_x s0 * QcZ 1000))) (fun ix =>
  bind (pack 32 (round_half_even (src_y s0 * QcZ 1000))) (fun iy =>
  bind (pack 16 (nstacks (ser s) - 1)) (fun ns =>
  bind (pack 16 (round_half_even (delay (ser s) * QcZ 1000))) (fun de =>
  bind (pack 32 (round_half_even (sx s * QcZ 1000))) (fun gx =>
  bind (pack 32 (round_half_even (sy s * QcZ 1000))) (fun gy =>
  bind (pack_unsigned 16 (micro (dt (ser s)))) (fun d =>
  Ok (mkTrace (amp (ser s)) (QcZ d / QcZ 1000000)%Qc
        (Su (mkSu (Value 1%Z) (Value (-1000)%Z) (Value ix) (Value iy) (Value gx) (Value gy)
                  (Value ns) (Value de))))))))))).

(** array1d.py:756-789 [to_file]: [su] tells whether ftype == "su". *)
Definition to_file (a : array) (su : bool) : result (list trace) :=
  if su then mapM (write_sensor (src a)) (sensors a) else Err ValueError.
