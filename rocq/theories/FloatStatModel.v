(* Model of the mean and standard deviation of dispersion curves with every operation in double
   precision (/repo/swprocess/peakssuite.py:577-578, stats.py:413-414): np.nanmean and np.nanstd with
   ddof=1 of one column of the data matrix.

   numpy replaces the missing values by zero, adds all entries and divides by the number of values
   present.  The order in which it adds depends on the memory layout of the matrix, hence a sum is
   here any bracketing of the entries in any order, and the theorems hold for each of them.  As in FloatModel.v there is no
   overflow, infinity or NaN; a missing value is None. *)
From Coq Require Export Permutation.
From Verif Require Export FloatModel.

(** A bracketing of the entries to add; [Permutation (leaves t) l] if these are the entries of [l] in any order (numpy
    adds eight interleaved partial sums, BLAS others). *)
Inductive tree := Leaf (x : R) | Node (a b : tree).
Fixpoint leaves (t : tree) : list R := match t with Leaf x => [x] | Node a b => leaves a ++ leaves b end.
(** The rounded sum in this order. *)
Fixpoint fsum (t : tree) : R := match t with Leaf x => x | Node a b => RN (fsum a + fsum b) end.

(** numpy's _replace_nan(a, 0) and the number of values present. *)
Definition filled (l : list (option R)) : list R := map (fun o => match o with Some x => x | None => 0 end) l.
Definition count (l : list (option R)) : nat := length (filter (fun o => match o with Some _ => true | None => false end) l).

(** np.nanmean: the sum over the number of values. *)
Definition fmean (t : tree) (n : nat) : R := RN (fsum t / INR n).
(** np.nanstd(ddof=1): the squared deviations from [avg], with zeros for missing values, ... *)
Definition squares (avg : R) (l : list (option R)) : list R :=
  map (fun o => match o with Some x => RN (RN (x - avg) * RN (x - avg)) | None => 0 end) l.
(** ... are added, divided by the number of values less one, and the square root taken. *)
Definition fstd (t : tree) (n : nat) : R := RN (sqrt (RN (fsum t / INR (n - 1)))).
