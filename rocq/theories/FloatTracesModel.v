(* Model of the matrix of traces and of its normalisation with every operation in double precision
   (/repo/swprocess/array1d.py:86-117).  As in FloatModel.v there is no overflow, infinity or NaN: the division by zero
   of a trace of zeros, for which numpy gives NaN, is excluded by the hypotheses of the theorems. *)
From Coq Require Export String.
From Verif Require Export FloatModel FloatSlantModel.

(** array1d.py:110 and 114: np.max(np.abs(.)) *)
Definition largest (l : list R) : R := np_max (map Rabs l).
Definition divided (l : list R) (d : R) : list R := map (fun x => RN (x / d)) l.
(** array1d.py:106-111: one row.  [detrend] is signal.detrend, or the identity for `detrend=False`. *)
Definition row_of (detrend : list R -> list R) (normalize : string) (amplitude : list R) : list R :=
  let amp := detrend amplitude in
  if String.eqb normalize "each" then divided amp (largest amp) else amp.
(** array1d.py:105-116.  Simplification: the traces have as many samples as the first one (otherwise the assignment of
    line 111 fails or repeats a single sample; see ArrayModel.v). *)
Definition timeseriesmatrix (detrend : list R -> list R) (normalize : string) (traces : list (list R)) : list (list R) :=
  let matrix := map (row_of detrend normalize) traces in
  if String.eqb normalize "all" then map (fun row => divided row (largest (concat matrix))) matrix else matrix.
