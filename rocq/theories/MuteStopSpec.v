(* Further vocabulary for muting (C21, C70): the effect for every pair of sample numbers. *)
From Verif Require Import SeriesModel SeriesSpec ArrayModel ArraySpec.

(** The factor of sample [k] in a record of [n] samples when the window goes from sample number
    [i] to [j]: the taper between the two, nothing elsewhere.  Two negative numbers count from the
    end of the record; a window of at most one sample that is not in the record leaves nothing. *)
Definition factor (taper : nat -> list Qc) (n i j k : Z) : Qc :=
  let between lo hi := if (lo <=? k)%Z && (k <? hi)%Z then nth (Z.to_nat (k - lo)) (taper (Z.to_nat (j - i))) 0%Qc else 0%Qc in
  if (0 <=? i)%Z && (j <=? n)%Z then between i j
  else if (- n <=? i)%Z && (j <? 0)%Z then between (i + n)%Z (j + n)%Z
  else 0%Qc.
(** [s'] is [s] with its samples multiplied by their factors and nothing else changed. *)
Definition windowed (taper : nat -> list Qc) (i j : Z) (s s' : sensor) : Prop :=
  only_samples_change s s' /\
  forall k, k < length (amp (ser s)) ->
    nth k (amp (ser s')) 0%Qc = (nth k (amp (ser s)) 0 * factor taper (Z.of_nat (length (amp (ser s)))) i j (Z.of_nat k))%Qc.
