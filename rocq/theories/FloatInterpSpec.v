(* Vocabulary for the theorems on the resampling of dispersion curves in double precision. *)
From Verif Require Import FloatModel FloatSpec.

(** A curve: at least one point, of doubles, with increasing x. *)
Fixpoint increasing (l : list (R * R)) : Prop :=
  match l with a :: ((b :: _) as t) => fst a < fst b /\ increasing t | _ => True end.
Definition curve (l : list (R * R)) : Prop :=
  l <> [] /\ Forall (fun a => double (fst a) /\ double (snd a)) l /\ increasing l.
(** [a] and [b] follow each other on the curve. *)
Definition neighbours (l : list (R * R)) (a b : R * R) : Prop := exists l1 l2, l = l1 ++ a :: b :: l2.
(** The straight line between two points. *)
Definition line (a b : R * R) (v : R) : R := snd a + (snd b - snd a) * ((v - fst a) / (fst b - fst a)).
(** The error allowed between two points. *)
Definition allowed (a b : R * R) : R :=
  6 * u * Rabs (snd b - snd a) + 2 * u * Rmax (Rabs (snd a)) (Rabs (snd b)) + 2 * (fst b - fst a + 1) * tiny.
