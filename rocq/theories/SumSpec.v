(* Vocabulary for records of two sources at once. *)
From Verif Require Import ArrayModel.
Local Open Scope list_scope.

(** Two records of the same receiver with the same settings. *)
Definition same_receiver (s t : sensor) : Prop :=
  List.length (amp (ser s)) = List.length (amp (ser t)) /\ dt (ser s) = dt (ser t) /\ delay (ser s) = delay (ser t) /\ multiple (ser s) = multiple (ser t) /\ sx s = sx t.
Definition same_layout (a b : array) : Prop := Forall2 same_receiver (sensors a) (sensors b) /\ src a = src b.
(** Their sum, sample by sample. *)
Definition added_sensor (s t : sensor) : sensor := mkSensor (mkSeries (map2 Qcplus (amp (ser s)) (amp (ser t))) (dt (ser s)) (nstacks (ser s)) (delay (ser s)) (multiple (ser s))) (sx s) (sy s) (sz s).
Definition added (a b : array) : array := mkArray (map2 added_sensor (sensors a) (sensors b)) (src a).
