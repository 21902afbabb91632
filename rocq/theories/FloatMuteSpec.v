(* Vocabulary for the theorems on the mute in double precision. *)
From Verif Require Import FloatModel FloatSpec FloatMuteModel.

(** The time of the line at [p], and the number of samples (with fraction) from the start of the record to it. *)
Definition line_time (l : line) (p : R) : R :=
  let '((x1, t1), (x2, t2)) := l in t1 + (t2 - t1) / (x2 - x1) * (p - x1).
Definition sample_of (dt delay : R) (l : line) (p : R) : R := line_time l p / dt + Rabs (delay / dt).
(** A line given by doubles, not vertical and not steeper than 1 s/m, with times up to 1000 s; a receiver up to 100 km
    from it; a sampling interval of at least a microsecond and a delay of at most 1000 s. *)
Definition usual (dt delay : R) (l : line) (p : R) : Prop :=
  let '((x1, t1), (x2, t2)) := l in
  (double x1 /\ double t1 /\ double x2 /\ double t2 /\ double p) /\
  x1 <> x2 /\ Rabs (t2 - t1) <= Rabs (x2 - x1) /\ Rabs t1 <= 1000 /\ Rabs (p - x1) <= 100000 /\ / 1000000 <= dt /\ Rabs delay <= 1000.
(** A window of doubles between 0 and 1, one for each sample. *)
Definition good_taper (taper : nat -> list R) : Prop :=
  forall k, length (taper k) = k /\ Forall (fun w => double w /\ 0 <= w <= 1) (taper k).
(** The lines given are usual ones. *)
Definition usual_lines (dt delay : R) (ss se : option line) (p : R) : Prop :=
  (forall l, ss = Some l -> usual dt delay l p) /\ (forall l, se = Some l -> usual dt delay l p).
(** The position of the two lines, in samples; without a line, the first and the last sample. *)
Definition first_at (dt delay : R) (ss : option line) (p : R) : R := match ss with Some l => sample_of dt delay l p | None => 0 end.
Definition last_at (dt delay : R) (n : nat) (se : option line) (p : R) : R := match se with Some l => sample_of dt delay l p | None => INR n - 1 end.
