(* Vocabulary for surveys seen from the other side of the line. *)
From Verif Require Import ArrayModel.
Local Open Scope list_scope.

(** The same survey with the line counted in the other direction: the receivers come in the opposite order. *)
Definition mirrored_sensor (s : sensor) : sensor := mkSensor (ser s) (- sx s)%Qc (sy s) (sz s).
Definition mirrored_source (s : source) : source := mkSource (- src_x s)%Qc (src_y s) (src_z s).
Definition mirrored (a : array) : array := mkArray (rev (map mirrored_sensor (sensors a))) (mirrored_source (src a)).
Definition mirrored_line (l : line) : line := let '((x1, t1), (x2, t2)) := l in (((- x1)%Qc, t1), ((- x2)%Qc, t2)).
(** The source lies beyond the first or beyond the last receiver. *)
Definition off_end (a : array) : Prop :=
  (forall s, In s (sensors a) -> (src_x (src a) < sx s)%Qc) \/ (forall s, In s (sensors a) -> (sx s < src_x (src a))%Qc).
