(* Vocabulary of C105: what the warnings of a file are to say. *)
From Verif Require Import HeaderModel WarnModel.
Local Open Scope string_scope.
Local Open Scope list_scope.

Definition unread {A} (name : string) (f : field A) : list warning :=
  match f with Value _ => [] | _ => [Failed name] end.
Definition zero (w : warning) (f : field Z) : list warning :=
  match f with Value n => if (n =? 0)%Z then [w] else [] | _ => [] end.
(** What is to be said about the header of a trace when a sensor is made of it: every value
    that is replaced by another. *)
Definition receiver_notes (h : header) : list warning :=
  match h with
  | Seg2 h => unread "STACK" (g_stack h) ++ unread "DELAY" (g_delay h) ++ unread "RECEIVER_LOCATION" (g_receiver h)
  | Su h | Segy h =>
      unread "number_of_horizontally_stacked_traces_yielding_this_trace" (h_nstack h) ++ zero StacksReset (h_nstack h)
      ++ unread "scalar_to_be_applied_to_all_coordinates" (h_scale h) ++ zero ScaleReset (h_scale h)
      ++ unread "group_coordinate_x" (h_gx h) ++ unread "group_coordinate_y" (h_gy h)
      ++ unread "delay_recording_time" (h_delay h)
  | OtherFormat | NoFormat => []
  end.
(** And when the source is made of it. *)
Definition source_notes (h : header) : list warning :=
  match h with
  | Su h => zero UnitsUnset (h_units h) ++ zero ScaleReset (h_scale h)
  | Segy h => zero UnitsUnset (h_units h)
  | _ => []
  end.
(** The notes on a further file, of which the first [n] traces are used and the source is
    taken from the first. *)
Definition further_notes (n : nat) (stream : list trace) : list warning :=
  List.concat (map (fun t => source_notes (t_header t)) (firstn 1 stream))
  ++ List.concat (map (fun t => receiver_notes (t_header t)) (firstn n stream)).

Definition given {A} (f : field A) (a : A) : Prop := f = Value a.
(** The sensor says what the header of its trace says (its y apart). *)
Definition as_recorded (t : trace) (mx : Qc -> Qc) (s : sensor) : Prop :=
  amp (ser s) = t_data t /\ dt (ser s) = t_delta t /\
  match t_header t with
  | Seg2 h => given (g_stack h) (nstacks (ser s)) /\ given (g_delay h) (delay (ser s))
              /\ exists x, given (g_receiver h) x /\ sx s = mx x
  | Su h | Segy h =>
      given (h_nstack h) (nstacks (ser s))
      /\ (exists d, given (h_delay h) d /\ delay (ser s) = (QcZ d / QcZ 1000)%Qc)
      /\ exists i c x, given (h_gx h) i /\ given (h_scale h) c /\ c <> 0%Z /\ scaled i i c = Ok x /\ sx s = mx x
  | _ => False
  end.
