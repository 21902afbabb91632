(* Vocabulary for the plot of the statistics of a PeaksSuite. *)
From Verif Require Import StatPlotModel.
Local Open Scope string_scope.
Local Open Scope nat_scope.
Local Open Scope list_scope.

(** The options given by the user. *)
Definition given (o : option (dict kw)) (key : string) (v : kw) : Prop := exists d, o = Some d /\ In (key, v) d.
Definition a_dict (o : option (dict kw)) : Prop := forall d, o = Some d -> NoDup (map fst d).
Definition absent (o : option (dict kw)) (key : string) : Prop := forall v, ~ given o key v.
(** What is drawn unless asked otherwise: black dots without connecting line, no legend entry. *)
Inductive usual : string -> kw -> Prop :=
| Line : usual "linestyle" (KStr "")
| Colour : usual "color" (KStr "k")
| Label : usual "label" KNone
| Marker : usual "marker" (KStr "o")
| Face : usual "markerfacecolor" (KStr "k")
| Size : usual "markersize" (KObj "0.5")
| Cap : usual "capsize" (KObj "2")
| Order : usual "zorder" (KObj "20").
(** The option [key] has value [v] in the drawing. *)
Definition wanted (o : option (dict kw)) (key : string) (v : kw) : Prop :=
  given o key v \/ (absent o key /\ usual key v).
Definition negative (x : flt) : Prop := flt_lt x f0 = true.
(** Numbers that can be drawn as error bars around the points. *)
Definition plottable (xx mean stddev : list flt) : Prop :=
  List.length mean = List.length xx /\ (List.length stddev = List.length xx \/ List.length stddev = 1) /\
  Forall (fun s => ~ negative s) stddev.
Definition reserved (key : string) : Prop := key = "x" \/ key = "y" \/ key = "yerr".
