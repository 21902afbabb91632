(* Vocabulary for the theorems on double precision. *)
From Verif Require Import FloatModel.

(** Half of the distance of 1 to the next double, and a bound of the same kind for numbers so
    small that their last digits are lost. *)
Definition u : R := / IZR (2 ^ 53).
Definition tiny : R := / IZR (2 ^ 1070).

(** Exact weighted sums and means of samples with their stack counts. *)
Fixpoint total (l : list (R * Z)) : Z := match l with [] => 0%Z | (_, m) :: t => (m + total t)%Z end.
Fixpoint weighted (l : list (R * Z)) : R := match l with [] => 0 | (b, m) :: t => b * IZR m + weighted t end.
Definition mean (l : list (R * Z)) : R := weighted l / IZR (total l).
(** Every count is at least one and no sample is larger than [M]. *)
Definition counts_ok (l : list (R * Z)) (M : R) : Prop := Forall (fun r => (1 <= snd r)%Z /\ Rabs (fst r) <= M) l.

(** The exact step between neighbouring positions, and positions within 1000 km of zero. *)
Definition step (p : list R) (i : nat) : R := nth (S i) p 0 - nth i p 0.
Definition near_origin (p : list R) : Prop := Forall (fun x => Rabs x <= 1000000) p.
