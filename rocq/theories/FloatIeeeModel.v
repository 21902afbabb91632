(* Model of stacking and of the normalisation of traces with IEEE double precision numbers as they are, with infinities, NaN, signed
   zeros and overflow (/repo/swprocess/activetimeseries.py:128-152 and array1d.py:86-117).  FloatModel.v and FloatTracesModel.v describe
   the same operations over real numbers, without overflow. *)
From Flocq Require Export Core.
From Flocq.IEEE754 Require Export BinarySingleNaN.
From Coq Require Export ZArith Reals List String.
Export ListNotations.

(** Doubles; numpy gives every NaN the same meaning, so there is only one. *)
Global Instance prec64 : Prec_gt_0 53. Proof. reflexivity. Qed.
Global Instance emax64 : Prec_lt_emax 53 1024. Proof. reflexivity. Qed.
Definition b64 : Type := binary_float 53 1024.
Definition bplus : b64 -> b64 -> b64 := Bplus mode_NE.
Definition bmult : b64 -> b64 -> b64 := Bmult mode_NE.
Definition bdiv : b64 -> b64 -> b64 := Bdiv mode_NE.
(** float(n) of a Python integer in the range of the doubles *)
Definition of_Z (n : Z) : b64 := binary_normalize 53 1024 prec64 emax64 mode_NE n 0 false.

(** ** Stacking, activetimeseries.py:146-149, for one sample. *)
Definition stack2 (a : b64) (n : Z) (b : b64) (m : Z) : b64 :=
  bdiv (bplus (bmult a (of_Z n)) (bmult b (of_Z m))) (of_Z (n + m)).
Fixpoint stack_all (a : b64) (n : Z) (l : list (b64 * Z)) : b64 * Z :=
  match l with
  | [] => (a, n)
  | (b, m) :: t => stack_all (stack2 a n b m) (n + m) t
  end.

(** ** Normalisation of traces *)
(** np.maximum: NaN if one of the two is. *)
Definition maximum (x y : b64) : b64 := if is_nan x then x else if is_nan y then y else if Bltb x y then y else x.
(** np.max(np.abs(l)), array1d.py:110 and 114; zero for no samples, where numpy raises. *)
Definition largest (l : list b64) : b64 := fold_left maximum (map Babs l) (B754_zero false).
(** array1d.py:110-111, 114 *)
Definition divided (l : list b64) (d : b64) : list b64 := map (fun x => bdiv x d) l.
(** array1d.py:105-116, with the simplification stated in FloatTracesModel.v: all traces have the same length.  [detrend] is
    signal.detrend, or the identity. *)
Definition row_of (detrend : list b64 -> list b64) (normalize : string) (amplitude : list b64) : list b64 :=
  let amp := detrend amplitude in
  if String.eqb normalize "each" then divided amp (largest amp) else amp.
Definition timeseriesmatrix (detrend : list b64 -> list b64) (normalize : string) (traces : list (list b64)) : list (list b64) :=
  let matrix := map (row_of detrend normalize) traces in
  if String.eqb normalize "all" then map (fun row => divided row (largest (List.concat matrix))) matrix else matrix.
