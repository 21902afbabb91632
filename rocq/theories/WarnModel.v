(* Model of the warnings given while files are read (/repo/swprocess/sensor1c.py and
   /repo/swprocess/array1d.py) and while a record is padded
   (/repo/swprocess/activetimeseries.py).  The functions are those of HeaderModel.v and
   SeriesModel.v again, now with the calls of `warnings.warn` (and `logger.warning`) they make,
   in order; what obspy itself warns about is switched off by the code.  Texts are reduced
   to what they name.  Python's filter, which may hide repetitions, is not modelled. *)
From Verif Require Export HeaderModel.
From Coq Require Export String.
Local Open Scope string_scope.

Inductive warning : Type :=
| Failed (name : string)   (* "Failed to get {name}, set to {default}." sensor1c.py:140 *)
| StacksReset              (* "Resetting nstacks from zero to one." sensor1c.py:198, 248 *)
| ScaleReset               (* "Resetting scale to be applied ..." sensor1c.py:204, 254; array1d.py:683 *)
| UnitsUnset               (* "Coordinate units is unset, ..." array1d.py:675, 700 *)
| Approximate.             (* "`1/(df*dt)` is not an integer ..." activetimeseries.py:265 *)

(** A computation and the warnings it has given. *)
Definition warned (A : Type) : Type := (list warning * result A)%type.
Definition quiet {A} (r : result A) : warned A := ([], r).
Definition warn (w : warning) : warned unit := ([w], Ok tt).
Definition wbind {A B} (x : warned A) (f : A -> warned B) : warned B :=
  match snd x with
  | Ok a => (fst x ++ fst (f a), snd (f a))%list
  | Err e => (fst x, Err e)
  end.

(** sensor1c.py:135-143 [_safely_get_header]. *)
Definition safely_get_w {A} (name : string) (f : field A) (default : A) : warned A :=
  match f with
  | Value a => quiet (Ok a)
  | _ => wbind (warn (Failed name)) (fun _ => quiet (Ok default))
  end.
(** `if value == 0: warn; value = 1`, sensor1c.py:196-199, 202-205; array1d.py:682-685. *)
Definition nonzero_w (w : warning) (n : Z) : warned Z :=
  if (n =? 0)%Z then wbind (warn w) (fun _ => quiet (Ok 1%Z)) else quiet (Ok n).

(** sensor1c.py:164-172. *)
Definition from_trace_seg2_w (tr : trace) (h : seg2_header) (mx my : Qc -> Qc) : warned sensor :=
  wbind (safely_get_w "STACK" (g_stack h) 1%Z) (fun ns =>
  wbind (safely_get_w "DELAY" (g_delay h) 0%Qc) (fun de =>
  wbind (safely_get_w "RECEIVER_LOCATION" (g_receiver h) 0%Qc) (fun x =>
  quiet (from_trace_plain tr ns de (mx x) (my 0%Qc) 0%Qc)))).
(** sensor1c.py:193-222 and 243-272. *)
Definition from_trace_su_w (tr : trace) (h : su_header) (mx my : Qc -> Qc) : warned sensor :=
  wbind (safely_get_w "number_of_horizontally_stacked_traces_yielding_this_trace" (h_nstack h) 1%Z) (fun ns0 =>
  wbind (nonzero_w StacksReset ns0) (fun ns =>
  wbind (safely_get_w "scalar_to_be_applied_to_all_coordinates" (h_scale h) 1%Z) (fun sc0 =>
  wbind (nonzero_w ScaleReset sc0) (fun sc =>
  wbind (safely_get_w "group_coordinate_x" (h_gx h) 0%Z) (fun int_x =>
  wbind (quiet (scaled int_x int_x sc)) (fun x =>
  wbind (safely_get_w "group_coordinate_y" (h_gy h) 0%Z) (fun int_y =>
  wbind (quiet (scaled int_y int_x sc)) (fun y =>
  wbind (safely_get_w "delay_recording_time" (h_delay h) 0%Z) (fun de =>
  quiet (from_trace_plain tr ns (QcZ de / QcZ 1000)%Qc (mx x) (my y) 0%Qc)))))))))).
(** sensor1c.py:72-133 [from_trace] with read_header=True and format=None. *)
Definition from_trace_w (tr : trace) (mx my : Qc -> Qc) : warned sensor :=
  match t_header tr with
  | NoFormat => quiet (Err ValueError)
  | Seg2 h => from_trace_seg2_w tr h mx my
  | Su h => from_trace_su_w tr h mx my
  | Segy h => from_trace_su_w tr h mx my
  | OtherFormat => quiet (Err NotImplementedError)
  end.

(** array1d.py:674-679, 699-704. *)
Definition check_units_w (h : su_header) : warned unit :=
  match h_units h with
  | Missing => quiet (Err KeyError)
  | Unparsable => quiet (Err ValueError)
  | Value u => if (u =? 0)%Z then warn UnitsUnset else if (u =? 1)%Z then quiet (Ok tt) else quiet (Err ValueError)
  end.
(** array1d.py:665-717. *)
Definition parse_source_w (f : fmt) (mx my : Qc -> Qc) (tr : trace) : warned source :=
  match f, t_header tr with
  | F_seg2, Seg2 h => wbind (quiet (attr_get (g_source h))) (fun x => quiet (Ok (mkSource (mx x) 0%Qc 0%Qc)))
  | F_su, Su h =>
      wbind (check_units_w h) (fun _ =>
      wbind (quiet (item_get (h_scale h))) (fun sc0 =>
      wbind (nonzero_w ScaleReset sc0) (fun sc =>
      wbind (quiet (item_get (h_sx h))) (fun ix => wbind (quiet (scaled ix ix sc)) (fun x =>
      wbind (quiet (item_get (h_sy h))) (fun iy => wbind (quiet (scaled iy iy sc)) (fun y =>
      quiet (Ok (mkSource (mx x) (my y) 0%Qc)))))))))
  | F_segy, Segy h =>
      wbind (check_units_w h) (fun _ =>
      wbind (quiet (item_get (h_scale h))) (fun sc =>
      wbind (quiet (item_get (h_sx h))) (fun ix => wbind (quiet (scaled ix ix sc)) (fun x =>
      wbind (quiet (item_get (h_sy h))) (fun iy => wbind (quiet (scaled iy iy sc)) (fun y =>
      quiet (Ok (mkSource (mx x) (my y) 0%Qc))))))))
  | _, _ => quiet (Err AttributeError)
  end.

(** array1d.py:659-662: the sensors of the first file. *)
Fixpoint from_traces_w (ts : list trace) (mx my : Qc -> Qc) : warned (list sensor) :=
  match ts with
  | [] => quiet (Ok [])
  | t :: ts' => wbind (from_trace_w t mx my) (fun s =>
                wbind (from_traces_w ts' mx my) (fun l => quiet (Ok (s :: l))))
  end.
(** array1d.py:732-734. *)
Fixpoint stack_traces_w (l : list sensor) (ts : list trace) : warned (list sensor) :=
  match l, ts with
  | s :: l', t :: ts' =>
      wbind (from_trace_w t (fun x => x) (fun y => y)) (fun n =>
      match sensor_stack_append s (ObjSensor n) with
      | (_, Err e) => quiet (Err e)
      | (s', Ok _) => wbind (stack_traces_w l' ts') (fun r => quiet (Ok (s' :: r)))
      end)
  | _, _ => quiet (Ok l)
  end.
(** array1d.py:724-734. *)
Definition stack_file_w (f : fmt) (mx my : Qc -> Qc) (a : array) (stream : list trace) : warned array :=
  match stream with
  | [] => quiet (Err IndexError)
  | t0 :: _ =>
      wbind (parse_source_w f mx my t0) (fun ns =>
      if negb (source_eq ns (src a)) then quiet (Err ValueError)
      else wbind (stack_traces_w (sensors a) stream) (fun l => quiet (Ok (mkArray l (src a)))))
  end.
Section FromFiles.
  (** obspy.read as in HeaderModel.v; its warnings are ignored (array1d.py:654-656, 724-726). *)
  Context {F K : Type} (read : option K -> F -> result (list trace)).
  Fixpoint stack_files_w (f : fmt) (mx my : Qc -> Qc) (a : array) (fs : list F) : warned array :=
    match fs with
    | [] => quiet (Ok a)
    | x :: t => wbind (quiet (read None x)) (fun stream =>
                wbind (stack_file_w f mx my a stream) (fun a' => stack_files_w f mx my a' t))
    end.
  (** array1d.py:654-736 [Array1D.from_files] for a list of names. *)
  Definition from_files_w (mx my : Qc -> Qc) (kw : option K) (fnames : list F) : warned array :=
    match fnames with
    | [] => quiet (Err IndexError)
    | f0 :: rest =>
        wbind (quiet (read kw f0)) (fun stream =>
        wbind (from_traces_w stream mx my) (fun ss =>
        match rev stream with
        | [] => quiet (Err UnboundLocalError)
        | last_tr :: _ =>
            match fmt_of (t_header last_tr) with
            | None => quiet (Err UnboundLocalError)
            | Some f =>
                wbind (parse_source_w f mx my last_tr) (fun s =>
                wbind (quiet (new_array ss s)) (fun a => stack_files_w f mx my a rest))
            end
        end))
    end.
End FromFiles.

(** activetimeseries.py:256-266: the warning of zero_pad, given once the desired number of samples is
    known; what follows does not warn. *)
Definition zero_pad_w (s : series) (df : Qc) : list warning * (series * result unit) :=
  ((if Qcleb df 0%Qc then []
    else if Qceqb (df * dt s)%Qc 0%Qc then []
    else if Qceqb (1 / (df * dt s))%Qc (QcZ (round_half_even (1 / (df * dt s))%Qc)) then [] else [Approximate])%list,
   zero_pad s df).
