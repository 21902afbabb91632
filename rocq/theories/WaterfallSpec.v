(* Independent vocabulary for the drawings of an array. *)
From Verif Require Import WaterfallModel ArraySpec.
Local Open Scope list_scope.

(** The curves of a drawing, and a curve with times and distances along the right axes. *)
Definition curves (m : list mark) : list (list flt * list flt) :=
  List.concat (map (fun e => match e with Curve x y => [(x, y)] | _ => [] end) m).
Definition drawn (time_ax : string) (ts ds : list flt) (c : list flt * list flt) : Prop :=
  time_ax = "x"%string /\ c = (ts, ds) \/ time_ax = "y"%string /\ c = (ds, ts).
Definition other (time_ax : string) : string := if String.eqb time_ax "x" then "y" else "x".
(** Where a sensor is drawn: at its position, or its distance from the first sensor. *)
Definition place (pnorm : bool) (a : array) (s : sensor) : Qc := if pnorm then (sx s - first_x a)%Qc else sx s.
(** Half the average distance between neighbouring sensors. *)
Definition half_spacing (a : array) : Qc :=
  ((last_x a - first_x a) / QcN (List.length (sensors a) - 1) / Q2Qc 2)%Qc.
Definition chosen_scale (scale : option Qc) (a : array) : Qc :=
  match scale with Some c => c | None => half_spacing a end.
(** What is drawn of a record: itself, or with its straight-line trend removed. *)
Definition plotted (dtr : bool) (s : sensor) : list Qc := if dtr then detrend (amp (ser s)) else amp (ser s).
(** The interval of a drawing's axis, if it was set. *)
Definition interval (m : list mark) (axis : string) (from to : Qc) : Prop := In (Limits axis from to) m.
(** Clicks given as (distance, time) pairs appear on the axes the way these are oriented. *)
Definition as_clicked (time_ax : string) (p : Qc * Qc) : Qc * Qc :=
  if String.eqb time_ax "x" then (snd p, fst p) else p.
Definition clicking (time_ax : string) (u : user) : user := mkUser (map (map (as_clicked time_ax)) (clicks u)) (waits u).
