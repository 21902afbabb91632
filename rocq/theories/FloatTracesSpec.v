(* Vocabulary for the theorems on the matrix of traces in double precision. *)
From Verif Require Import FloatModel FloatSpec.

(** Sample [j] of trace [i]. *)
Definition at_ (m : list (list R)) (i j : nat) : R := nth j (nth i m []) 0.
(** [m] is made of [n] traces of [k] doubles. *)
Definition recorded (n k : nat) (m : list (list R)) : Prop :=
  length m = n /\ Forall (fun t => length t = k /\ Forall double t) m.
(** [x] is the greatest absolute value of trace [i] of [m], or of all. *)
Definition peak_of_trace (k : nat) (m : list (list R)) (i : nat) (x : R) : Prop :=
  (exists j, (j < k)%nat /\ Rabs (at_ m i j) = x) /\ forall j, (j < k)%nat -> Rabs (at_ m i j) <= x.
Definition peak_of_all (n k : nat) (m : list (list R)) (x : R) : Prop :=
  (exists i j, (i < n)%nat /\ (j < k)%nat /\ Rabs (at_ m i j) = x) /\
  forall i j, (i < n)%nat -> (j < k)%nat -> Rabs (at_ m i j) <= x.
(** [y] is the normalised value of a sample [x] of a record whose greatest absolute value is [p]: one unit is reached
    by the samples of that size and by no other, the sign is kept, and the error is one rounding. *)
Definition normalised (p x y : R) : Prop :=
  double y /\ -1 <= y <= 1 /\ (y = 1 <-> x = p) /\ (y = -1 <-> x = - p) /\ (0 <= x -> 0 <= y) /\ (x <= 0 -> y <= 0) /\
  Rabs (y - x / p) <= u * Rabs (x / p) + tiny / 32.
