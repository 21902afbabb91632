(* Vocabulary of C12 for coordinate scalars that are no power of ten. *)
From Verif Require Import Num HeaderModel HeaderSpec.

(** The unit to which coordinates with scalar [s] are rounded: the power of ten of its leading digit. *)
Definition decade_of (s : Z) (u : Qc) : Prop :=
  s = 0%Z /\ u = 1%Qc \/
  exists k, (0 <= k)%Z /\ (10 ^ k <= Z.abs s < 10 ^ (k + 1))%Z /\
            u = (if (s <? 0)%Z then 1 / QcZ (10 ^ k) else QcZ (10 ^ k))%Qc.
(** [x] is the multiple of [u] nearest to [v]; of two equally near ones the even one. *)
Definition nearest_multiple (u v x : Qc) : Prop :=
  exists k, x = (QcZ k * u)%Qc /\ (Qcabs (x - v) <= Q2Qc (1 # 2) * u)%Qc /\
            (Qcabs (x - v) = (Q2Qc (1 # 2) * u)%Qc -> Z.even k = true).
