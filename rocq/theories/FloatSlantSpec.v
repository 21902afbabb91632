(* Vocabulary for the slant stack in double precision. *)
From Verif Require Import FloatModel FloatSpec FloatSlantModel.

(** The largest position and the smallest velocity. *)
Definition farthest (ps : list R) (L : R) : Prop := In L ps /\ forall p, In p ps -> p <= L.
Definition slowest_velocity (vs : list R) (v : R) : Prop := In v vs /\ 0 < v /\ forall w, In w vs -> v <= w.
(** Sampling interval in seconds, distance in metres, velocity in metres per second. *)
Definition sizes_ok (dt p v : R) : Prop := / 1000000000 <= dt <= 100 /\ 1 / 1000 <= p /\ 1 / 1000 <= v <= 1000000.
(** Linear interpolation of samples, in exact arithmetic. *)
Definition interp (trace : Z -> R) (x : R) : R :=
  trace (Zfloor x) * (1 - (x - IZR (Zfloor x))) + trace (Zfloor x + 1)%Z * (x - IZR (Zfloor x)).
