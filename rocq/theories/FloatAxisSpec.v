(* Vocabulary for axes and derived coordinates in double precision. *)
From Verif Require Import FloatModel FloatSpec.

(** Outside of the limits by more than two rounding errors. *)
Definition clearly_outside (lo hi : option R) (x : R) : Prop :=
  (exists b, hi = Some b /\ b < x * (1 - 2 * u)) \/ (exists a, lo = Some a /\ x * (1 + 2 * u) < a).
(** The limits are doubles. *)
Definition double_limits (lo hi : option R) : Prop :=
  (forall a, lo = Some a -> double a) /\ (forall b, hi = Some b -> double b).
