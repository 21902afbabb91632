(* Vocabulary for the theorems on stacking and on normalised traces with infinities, NaN and overflow. *)
From Verif Require Import FloatModel FloatSpec FloatTracesModel FloatTracesSpec FloatIeeeModel.

(** A finite double of at most 2^e in absolute value. *)
Definition within (e : Z) (x : b64) : Prop := is_finite x = true /\ (Rabs (B2R x) <= bpow radix2 e)%R.
(** Records with their counts, as real numbers, and the number of stacks of all of them. *)
Definition reals (l : list (b64 * Z)) : list (R * Z) := map (fun r => (B2R (fst r), snd r)) l.
Definition stacks (l : list (b64 * Z)) : Z := total (reals l).
Definition counted (l : list (b64 * Z)) : Prop := Forall (fun r => (1 <= snd r)%Z) l /\ (stacks l <= 2 ^ 53)%Z.

(** [y] is what normalising by the greatest absolute value of [l] makes of its sample [x]. *)
Definition infinite (x : b64) : Prop := is_nan x = false /\ is_finite x = false.
Definition normalised_by (l : list b64) (x y : b64) : Prop :=
  (* a NaN anywhere *)
  ((exists z, In z l /\ is_nan z = true) -> is_nan y = true)
  (* no NaN, but an infinity *)
  /\ ((forall z, In z l -> is_nan z = false) -> (exists z, In z l /\ infinite z) ->
      (infinite x -> is_nan y = true) /\ (is_finite x = true -> is_finite y = true /\ B2R y = 0%R))
  (* nothing but zeros *)
  /\ ((forall z, In z l -> is_finite z = true /\ B2R z = 0%R) -> is_nan y = true)
  (* the usual case, p being the greatest absolute value *)
  /\ (forall p, (forall z, In z l -> is_finite z = true /\ (Rabs (B2R z) <= p)%R) -> (exists z, In z l /\ Rabs (B2R z) = p) -> (0 < p)%R ->
      is_finite y = true /\ normalised p (B2R x) (B2R y)).
(** Sample [j] of trace [i] is [x]. *)
Definition sample (m : list (list b64)) (i j : nat) (x : b64) : Prop := exists t, nth_error m i = Some t /\ nth_error t j = Some x.
