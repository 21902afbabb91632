(* Vocabulary for surveys timed in another unit. *)
From Verif Require Import ArrayModel.
Local Open Scope list_scope.

(** The same survey with every time multiplied by [w] (seconds in milliseconds). *)
Definition timed_series (w : Qc) (s : series) : series := mkSeries (amp s) (w * dt s)%Qc (nstacks s) (w * delay s)%Qc (multiple s).
Definition timed_sensor (w : Qc) (s : sensor) : sensor := mkSensor (timed_series w (ser s)) (sx s) (sy s) (sz s).
Definition timed (w : Qc) (a : array) : array := mkArray (map (timed_sensor w) (sensors a)) (src a).
Definition timed_line (w : Qc) (l : line) : line := let '((x1, t1), (x2, t2)) := l in ((x1, (w * t1)%Qc), (x2, (w * t2)%Qc)).
(** The array and the outcome of a method that changes it. *)
Definition timed_result (w : Qc) (r : array * result unit) : array * result unit := (timed w (fst r), snd r).
