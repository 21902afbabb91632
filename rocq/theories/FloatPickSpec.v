(* Vocabulary for the theorems on the automatic picks in double precision. *)
From Verif Require Import FloatModel FloatSpec.

Fixpoint total (l : list R) : R := match l with [] => 0 | x :: l' => x + total l' end.
(** The mean of the first ten samples (of all if there are fewer). *)
Definition start_mean (l : list R) : R := total (firstn 10 l) / INR (length (firstn 10 l)).
(** The distance of sample [j] from that mean, as a fraction of the peak [p]. *)
Definition deviation (l : list R) (p : R) (j : nat) : R := Rabs (nth j l 0 - start_mean l) / p.
Definition peak (l : list R) (p : R) : Prop := In p (map Rabs l) /\ forall x, In x l -> Rabs x <= p.
(** [j] is the first sample farther than the fraction [c] of the peak. *)
Definition arrival (l : list R) (p c : R) (j : nat) : Prop :=
  (j < length l)%nat /\ c < deviation l p j /\ forall i, (i < j)%nat -> deviation l p i <= c.
