(* Independent vocabulary for the properties of the Statistics class. *)
From Verif Require Import StatsModel.
From Coq Require Import List Arith.
Local Open Scope nat_scope.
Local Open Scope list_scope.

(** Every row has [n] entries. *)
Definition rectangular (n : nat) (m : matrix) : Prop := forall r, In r m -> List.length r = n.
Definition cell (m : matrix) (i j : nat) : flt := nth j (nth i m []) NaN.
Definition value (m : matrix) (i j : nat) : Prop := is_nan (cell m i j) = false.
(** Position of the first observed value; the number of entries if there is none. *)
Fixpoint lead (r : list flt) : nat :=
  match r with
  | [] => 0
  | x :: t => if is_nan x then S (lead t) else 0
  end.
(** Number of observed values with row in [r0, r1) and column in [c0, c1). *)
Definition sum_over (a b : nat) (f : nat -> nat) : nat := list_sum (map f (seq a (b - a))).
Definition values_in (m : matrix) (r0 c0 r1 c1 : nat) : nat :=
  sum_over r0 r1 (fun i => sum_over c0 c1 (fun j => if is_nan (cell m i j) then 0 else 1)).
Definition cells_in (r0 c0 r1 c1 : nat) : nat := (r1 - r0) * (c1 - c0).
(** A region ((r0, c0), (r1, c1)) of the matrix, its ends excluded. *)
Definition inside (nrows ncols : nat) (g : region) : Prop :=
  let '((r0, c0), (r1, c1)) := g in r0 < r1 /\ r1 <= nrows /\ c0 < c1 /\ c1 <= ncols.
Definition has_density (m : matrix) (threshold : Qc) (g : region) : Prop :=
  let '((r0, c0), (r1, c1)) := g in
  (threshold <= QcN (values_in m r0 c0 r1 c1) / QcN (cells_in r0 c0 r1 c1))%Qc.
Definition has_column (j : nat) (g : region) : Prop := snd (fst g) <= j < snd (snd g).
(** Number of missing values before (i, j), column by column. *)
Definition missing_before (m : matrix) (i j : nat) : nat :=
  sum_over 0 j (fun c => sum_over 0 (List.length m) (fun r => if is_nan (cell m r c) then 1 else 0))
  + sum_over 0 i (fun r => if is_nan (cell m r j) then 1 else 0).
