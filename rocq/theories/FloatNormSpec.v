(* Vocabulary for the theorems on normalisation in double precision. *)
From Verif Require Import FloatModel FloatSpec FloatNormModel.

(** Entry in row [i] and column [j]. *)
Definition at_ (m : list (list R)) (i j : nat) : R := nth j (nth i m []) 0.
(** [m] has [nr] rows of [nc] numbers, all of them doubles and none negative. *)
Definition powers (nr nc : nat) (m : list (list R)) : Prop :=
  length m = nr /\ Forall (fun row => length row = nc /\ Forall (fun x => double x /\ 0 <= x) row) m.
(** [x] is the greatest entry of column [j], or of all. *)
Definition column_top (nr : nat) (m : list (list R)) (j : nat) (x : R) : Prop :=
  (exists i, (i < nr)%nat /\ at_ m i j = x) /\ forall i, (i < nr)%nat -> at_ m i j <= x.
Definition top (nr nc : nat) (m : list (list R)) (x : R) : Prop :=
  (exists i j, (i < nr)%nat /\ (j < nc)%nat /\ at_ m i j = x) /\
  forall i j, (i < nr)%nat -> (j < nc)%nat -> at_ m i j <= x.
(** A very small number, 2^-1000, which still has full precision. *)
Definition small : R := / IZR (2 ^ 1000).
(** Every column has an entry of at least 2^-400 and no entry is above 2^400. *)
Definition in_range (nr nc : nat) (m : list (list R)) : Prop :=
  (forall j, (j < nc)%nat -> exists i, (i < nr)%nat /\ / IZR (2 ^ 400) <= at_ m i j) /\
  (forall i j, (i < nr)%nat -> (j < nc)%nat -> at_ m i j <= IZR (2 ^ 400)).
(** The error allowed for [x] after [k] calls. *)
Definition allowed (k : nat) (x : R) : R := 4 * INR k * (u * x + / IZR (2 ^ 600)).
