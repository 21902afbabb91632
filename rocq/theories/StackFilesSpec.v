(* Vocabulary of C19 for files of any number of traces. *)
From Verif Require Import SeriesModel SeriesSpec ArrayModel HeaderModel HeaderSpec.

(** The trace holds a record of the same place and the same sampling as receiver [r]. *)
Definition fits (r : sensor) (t : trace) : Prop :=
  exists n, decodes t n /\ same_place n r /\ compatible (ser r) (ser n).
(** The [i]-th records of those lists that have one. *)
Definition records_at (i : nat) (d : sensor) (files : list (list sensor)) : list sensor :=
  map (fun ns => nth i ns d) (filter (fun ns => Nat.ltb i (length ns)) files).
