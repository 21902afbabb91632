(* Model of Sensor1C.from_trace of /repo/swprocess/sensor1c.py with all its arguments, and of
   the trace readers of /repo/swprocess/activetimeseries.py.  HeaderModel.v has from_trace
   as from_files calls it, for traces whose header is that of their format. *)
From Verif Require Export HeaderModel.
From Coq Require Export String Ascii.
Local Open Scope string_scope.

(** `trace.stats`: the attribute `_format` (None: missing, or not a string) and the
    headers that are there. *)
Record stats : Type := mkStats {
  s_format : option string; s_seg2 : option seg2_header; s_su : option su_header; s_segy : option su_header }.
Record obspy_trace : Type := mkObspy { o_data : list Qc; o_delta : Qc; o_stats : stats }.

(** `str.upper` on ASCII. *)
Definition upper_ascii (c : ascii) : ascii :=
  let n := nat_of_ascii c in
  if ((97 <=? n) && (n <=? 122))%nat%bool then ascii_of_nat (n - 32) else c.
Fixpoint upper (s : string) : string :=
  match s with EmptyString => EmptyString | String c t => String (upper_ascii c) (upper t) end.

(** sensor1c.py:114-120. *)
Definition format_of (format : option string) (tr : obspy_trace) : result string :=
  match format with
  | Some f => Ok (upper f)
  | None => match s_format (o_stats tr) with
            | Some f => Ok (upper f)
            | None => Err ValueError
            end
  end.

(** sensor1c.py:77-133 with read_header=False. *)
Definition sensor_plain (tr : obspy_trace) (format : option string) (ns : Z) (de x y z : Qc) : result sensor :=
  bind (format_of format tr) (fun _ => new_sensor (o_data tr) (o_delta tr) x y z ns de).

(** sensor1c.py:145-172 [_from_trace_seg2]; the format is not handed on (166). *)
Definition sensor_seg2 (tr : obspy_trace) (mx my : Qc -> Qc) : result sensor :=
  match s_seg2 (o_stats tr) with
  | None => Err AttributeError
  | Some h => sensor_plain tr None (safely_get (g_stack h) 1%Z) (safely_get (g_delay h) 0%Qc)
                (mx (safely_get (g_receiver h) 0%Qc)) (my 0%Qc) 0%Qc
  end.
(** sensor1c.py:174-222 [_from_trace_su] and 224-272 [_from_trace_segy], after the header
    (193, 243) has been found. *)
Definition sensor_su (tr : obspy_trace) (hdr : option su_header) (mx my : Qc -> Qc) : result sensor :=
  match hdr with
  | None => Err AttributeError
  | Some h =>
      let ns0 := safely_get (h_nstack h) 1%Z in
      let ns := if (ns0 =? 0)%Z then 1%Z else ns0 in
      let sc0 := safely_get (h_scale h) 1%Z in
      let sc := if (sc0 =? 0)%Z then 1%Z else sc0 in
      let int_x := safely_get (h_gx h) 0%Z in
      bind (scaled int_x int_x sc) (fun x =>
      let int_y := safely_get (h_gy h) 0%Z in
      bind (scaled int_y int_x sc) (fun y =>
      sensor_plain tr None ns (QcZ (safely_get (h_delay h) 0%Z) / QcZ 1000)%Qc (mx x) (my y) 0%Qc))
  end.

(** sensor1c.py:72-133 [from_trace]. *)
Definition sensor_from_trace (tr : obspy_trace) (read_header : bool) (mx my : Qc -> Qc)
           (ns : Z) (de x y z : Qc) (format : option string) : result sensor :=
  bind (format_of format tr) (fun f =>
  if read_header then
    if String.eqb f "SEG2" then sensor_seg2 tr mx my
    else if String.eqb f "SU" then sensor_su tr (s_su (o_stats tr)) mx my
    else if String.eqb f "SEGY" then sensor_su tr (s_segy (o_stats tr)) mx my
    else Err NotImplementedError
  else new_sensor (o_data tr) (o_delta tr) x y z ns de).

(** activetimeseries.py:182-211 [from_trace]. *)
Definition series_from_trace (tr : obspy_trace) (ns : Z) (de : Qc) : result series :=
  new_series (o_data tr) (o_delta tr) ns de.
(** activetimeseries.py:158-180 [from_trace_seg2]: unguarded attributes and conversions. *)
Definition series_from_seg2 (tr : obspy_trace) : result series :=
  match s_seg2 (o_stats tr) with
  | None => Err AttributeError
  | Some h => bind (attr_get (g_stack h)) (fun ns =>
              bind (attr_get (g_delay h)) (fun de => series_from_trace tr ns de))
  end.
