(* Vocabulary for surveys measured in another unit of length. *)
From Verif Require Import ArrayModel.
Local Open Scope list_scope.

(** The same survey with every length multiplied by [u] (metres in feet, kilometres in metres). *)
Definition measured_sensor (u : Qc) (s : sensor) : sensor := mkSensor (ser s) (u * sx s)%Qc (u * sy s)%Qc (u * sz s)%Qc.
Definition measured_source (u : Qc) (s : source) : source := mkSource (u * src_x s)%Qc (u * src_y s)%Qc (u * src_z s)%Qc.
Definition measured (u : Qc) (a : array) : array := mkArray (map (measured_sensor u) (sensors a)) (measured_source u (src a)).
Definition measured_line (u : Qc) (l : line) : line := let '((x1, t1), (x2, t2)) := l in (((u * x1)%Qc, t1), ((u * x2)%Qc, t2)).
(** The array and the outcome of a method that changes it. *)
Definition measured_result (u : Qc) (r : array * result unit) : array * result unit := (measured u (fst r), snd r).
