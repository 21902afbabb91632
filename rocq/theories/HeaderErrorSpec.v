(* Vocabulary for what reading and writing files refuses. *)
From Verif Require Import HeaderModel NumFacts.

(** The first of the required header fields that is absent or no number. *)
Fixpoint first_problem (l : list (field Z)) : option exn :=
  match l with
  | [] => None
  | Value _ :: l => first_problem l
  | Missing :: _ => Some KeyError
  | Unparsable :: _ => Some ValueError
  end.

(** What fits in the fields of a SU header. *)
Definition int16 (z : Z) : Prop := (-32768 <= z <= 32767)%Z.
Definition uint16 (z : Z) : Prop := (0 <= z <= 65535)%Z.
Definition int32 (z : Z) : Prop := (-2147483648 <= z <= 2147483647)%Z.
(** [x] in thousandths and [d] in microseconds, to the nearest integer. *)
Definition thousandths (x : Qc) : Z := round_half_even (x * QcZ 1000).
Definition microseconds (d : Qc) : Z := round_half_even (d * QcZ 1000000).
Definition fits (s : sensor) : Prop :=
  int32 (thousandths (sx s)) /\ int32 (thousandths (sy s)) /\ int16 (thousandths (delay (ser s))) /\
  int16 (nstacks (ser s) - 1) /\ uint16 (microseconds (dt (ser s))).
Definition source_fits (s : source) : Prop := int32 (thousandths (src_x s)) /\ int32 (thousandths (src_y s)).

(** Sample [k] of a record; a single sample stands for all of them. *)
Definition heard (k : nat) (d : list Qc) : Qc := match d with [v] => v | _ => nth k d 0%Qc end.

(** [tr] is the trace of channel [ch] in file [x]. *)
Definition channel_of {F K : Type} (read : option K -> F -> result (list trace)) (ch : Z) (x : F) (tr : trace) : Prop :=
  exists st, read None x = Ok st /\ pyget st ch = Ok tr.
(** A record that can be added to one of [n] samples. *)
Definition joins (n : nat) (tr : trace) : Prop := length (t_data tr) = n \/ length (t_data tr) = 1.

(** Two headers of the same file format. *)
Definition same_format (g h : header) : Prop :=
  match g, h with Seg2 _, Seg2 _ | Su _, Su _ | Segy _, Segy _ => True | _, _ => False end.

(** A number stored as a whole number of 1/[u]. *)
Definition stored (u : Z) (x : Qc) : Qc := (QcZ (round_half_even (x * QcZ u)) / QcZ u)%Qc.
(** A sensor after it was written and read: coordinates and delay in thousandths, the time
    step in millionths, one stack less unless it was the only one, no z, no padding. *)
Definition restored (s : sensor) : sensor :=
  mkSensor (mkSeries (amp (ser s)) (stored 1000000 (dt (ser s))) (Z.max 1 (nstacks (ser s) - 1)) (stored 1000 (delay (ser s))) 1)
    (stored 1000 (sx s)) (stored 1000 (sy s)) 0%Qc.
Definition restored_source (s : source) : source := mkSource (stored 1000 (src_x s)) (stored 1000 (src_y s)) 0%Qc.
