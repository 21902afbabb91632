(* Vocabulary for the theorems on offsets in double precision. *)
From Verif Require Import FloatModel FloatSpec FloatStatSpec FloatOffsetModel.

(** The exact distance of a receiver to the source. *)
Definition distance (sx p : R) : R := Rabs (sx - p).
(** [r] is the smallest exact distance between neighbouring receivers. *)
Definition closest (ps : list R) (r : R) : Prop :=
  (exists i, (S i < length ps)%nat /\ step ps i = r) /\ forall i, (S i < length ps)%nat -> r <= step ps i.
(** The limit [x] is not within a rounding error of the offset of [p]. *)
Definition clear_of (sx p x : R) : Prop := u * distance sx p < Rabs (distance sx p - x).
(** The receivers up to the first one that is farther than [hi]. *)
Fixpoint until (sx hi : R) (ps : list R) : list R :=
  match ps with [] => [] | p :: t => p :: (if Rlt_dec hi (distance sx p) then [] else until sx hi t) end.
Definition strictly_between (sx lo hi p : R) : bool :=
  if Rlt_dec lo (distance sx p) then if Rlt_dec (distance sx p) hi then true else false else false.
