(* Vocabulary for the removal of sparse rows and columns (PeaksSuite._drop). *)
From Verif Require Import SuiteModel.
From Coq Require Import Sorted.
Local Open Scope nat_scope.
Local Open Scope list_scope.

Definition missing_in (l : list flt) : nat := List.length (filter is_nan l).
Definition observed_in (l : list flt) : nat := List.length (filter (fun x => negb (is_nan x)) l).
(** A row or column with fewer observed values than asked for, by number or by share. *)
Definition too_sparse (share : Qc) (number : Z) (l : list flt) : Prop :=
  l <> [] /\ ((Z.of_nat (observed_in l) < number)%Z \/ (QcN (observed_in l) / QcN (List.length l) < share)%Qc).
Definition entry (m : list (list flt)) (i j : nat) : flt := nth j (nth i m []) NaN.
Definition part (m : list (list flt)) (is_ js : list nat) : list (list flt) := map (fun i => map (entry m i) js) is_.
Definition row_part (m : list (list flt)) (i : nat) (js : list nat) : list flt := map (entry m i) js.
Definition column_part (m : list (list flt)) (j : nat) (is_ : list nat) : list flt := map (fun i => entry m i j) is_.
(** [ks] lists, in order, the indices below [n] that satisfy [P]. *)
Definition exactly (n : nat) (P : nat -> Prop) (ks : list nat) : Prop :=
  StronglySorted lt ks /\ forall k, In k ks <-> k < n /\ P k.
(** Sparse columns removed, then the rows sparse in what is left; and the other way round. *)
Definition columns_first (pr pc : Qc) (cnt : Z) (nr nc : nat) m is_ js : Prop :=
  exactly nc (fun j => ~ too_sparse pc cnt (column_part m j (seq 0 nr))) js /\
  exactly nr (fun i => ~ too_sparse pr 0 (row_part m i js)) is_.
Definition rows_first (pr pc : Qc) (cnt : Z) (nr nc : nat) m is_ js : Prop :=
  exactly nr (fun i => ~ too_sparse pr 0 (row_part m i (seq 0 nc))) is_ /\
  exactly nc (fun j => ~ too_sparse pc cnt (column_part m j is_)) js.
(** Missing values removed per observed value removed (plus one). *)
Definition gain (m : list (list flt)) is_ js : Qc :=
  ((QcN (missing_in (concat m)) - QcN (missing_in (concat (part m is_ js))))
   / (QcN (observed_in (concat m)) - QcN (observed_in (concat (part m is_ js))) + 1))%Qc.
