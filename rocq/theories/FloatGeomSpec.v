(* Vocabulary for the theorems on logarithmic spacing in double precision. *)
From Verif Require Import FloatModel FloatSpec.

(** A logarithm and a power with at most four times the error of a rounding (mathematical libraries promise less). *)
Definition good_log10 (f : R -> R) : Prop := forall x, 0 < x -> Rabs (f x - ln x / ln 10) <= 4 * u * Rabs (ln x / ln 10) + tiny.
Definition good_pow10 (f : R -> R) : Prop := forall y, Rabs y <= 300 -> Rabs (f y - Rpower 10 y) <= 4 * u * Rpower 10 y + tiny.
(** Entry [i] of [n] numbers from [a] to [b], each the same multiple of the one before. *)
Definition ratio (a b : R) (n : Z) : R := Rpower (b / a) (/ IZR (n - 1)).
Definition geometric_at (a b : R) (n i : Z) : R := a * Rpower (ratio a b n) (IZR i).
