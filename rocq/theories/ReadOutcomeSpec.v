(* Vocabulary of C20 and C73 for several files. *)
From Verif Require Import SeriesModel HeaderModel.

(** [tr] is the trace of file [x] on channel [ch]. *)
Definition recorded {F K : Type} (read : option K -> F -> result (list trace)) (ch : Z) (x : F) (tr : trace) : Prop :=
  exists st, read None x = Ok st /\ pyget st ch = Ok tr.
(** Reading file [x] or taking its channel [ch] raises [e]. *)
Definition missing {F K : Type} (read : option K -> F -> result (list trace)) (ch : Z) (x : F) (e : exn) : Prop :=
  read None x = Err e \/ exists st, read None x = Ok st /\ pyget st ch = Err e.
(** A record that can be added to one of [n] samples, and what it adds to sample [k]: a single
    sample is added to all of them. *)
Definition fits (n : nat) (t : trace) : Prop := length (t_data t) = n \/ length (t_data t) = 1.
Definition contribution (n k : nat) (t : trace) : Qc :=
  if Nat.eqb (length (t_data t)) n then nth k (t_data t) 0%Qc else nth 0 (t_data t) 0%Qc.
(** Where a sensor is. *)
Definition place (s : sensor) : Qc * Qc * Qc := (sx s, sy s, sz s).
