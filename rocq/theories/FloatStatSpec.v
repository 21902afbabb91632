(* Vocabulary for the theorems on statistics in double precision. *)
From Verif Require Import FloatModel FloatSpec FloatStatModel.

(** The values present in a column. *)
Fixpoint present (l : list (option R)) : list R :=
  match l with [] => [] | Some x :: t => x :: present t | None :: t => present t end.
(** Exact sum, mean, mean magnitude and standard deviation (with n-1) of some numbers. *)
Fixpoint Rsum (l : list R) : R := match l with [] => 0 | x :: t => x + Rsum t end.
Definition exact_mean (l : list R) : R := Rsum l / INR (length l).
Definition mean_size (l : list R) : R := Rsum (map Rabs l) / INR (length l).
Definition exact_std (l : list R) : R :=
  sqrt (Rsum (map (fun x => (x - exact_mean l) * (x - exact_mean l)) l) / INR (length l - 1)).

(** [m] and [s] are a mean and a standard deviation that numpy can return for the column [l]. *)
Definition a_mean (l : list (option R)) (m : R) : Prop :=
  exists t, Permutation (leaves t) (filled l) /\ m = fmean t (count l).
Definition a_std (l : list (option R)) (s : R) : Prop :=
  exists m t, a_mean l m /\ Permutation (leaves t) (squares m l) /\ s = fstd t (count l).
(** An error far below anything of interest, 2^-500. *)
Definition speck : R := / IZR (2 ^ 500).
