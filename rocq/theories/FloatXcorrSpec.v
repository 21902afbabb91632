(* Vocabulary for the theorems on cross-correlation in double precision. *)
From Verif Require Import FloatModel FloatSpec.

(** Sample [i] of a record that is zero outside of its samples. *)
Definition sample (b : list R) (i : Z) : R := if (i <? 0)%Z then 0 else nth (Z.to_nat i) b 0.
Fixpoint sum_to (n : nat) (f : nat -> R) : R := match n with O => 0 | S m => sum_to m f + f m end.
(** The correlation of [a] with [b] delayed by [d] samples, and the sum of the absolute values of its terms. *)
Definition correlation (a b : list R) (d : Z) : R := sum_to (length a) (fun l => nth l a 0 * sample b (Z.of_nat l - d)).
Definition size (a b : list R) (d : Z) : R := sum_to (length a) (fun l => Rabs (nth l a 0 * sample b (Z.of_nat l - d))).
(** The delays for which the records overlap. *)
Definition overlap (a b : list R) (d : Z) : Prop := (- Z.of_nat (length b) < d < Z.of_nat (length a))%Z.
(** [d] is the best delay, by more than [E]. *)
Definition best_by (E : R) (a b : list R) (d : Z) : Prop :=
  overlap a b d /\ forall d', overlap a b d' -> d' <> d -> correlation a b d' + E < correlation a b d.
(** Error allowed in a correlation of records of which the first has [n] samples. *)
Definition allowed (n : nat) (s : R) : R := 1.1 * INR n * u * s + INR n * tiny.
