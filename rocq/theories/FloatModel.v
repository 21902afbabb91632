(* Model of the arithmetic of some functions in double precision: stacking
   (/repo/swprocess/activetimeseries.py:113-149), the coordinates and delays of SU files
   (sensor1c.py:194-222, array1d.py:756-789) and the receiver spacing (array1d.py:159-166).
   The other models use exact rational numbers.

   Doubles are real numbers of 53 binary digits with exponent at least -1074 (Flocq's FLT
   format); every operation is rounded to the nearest one, ties to even.  Simplification:
   there is no overflow, infinity or NaN; the magnitudes of the theorems are far below
   2^1024. *)
From Coq Require Export Reals ZArith List.
From Flocq Require Export Core.
Export ListNotations.
Open Scope R_scope.

Definition fexp : Z -> Z := FLT_exp (-1074) 53.
Definition double (x : R) : Prop := generic_format radix2 fexp x.
(** The double nearest to [x]. *)
Definition RN (x : R) : R := round radix2 fexp ZnearestE x.

(** `float.__round__(x, n)` for n >= 0: the double nearest to the decimal number of [n] places
    nearest to [x] (CPython computes with the exact decimal expansion of [x]). *)
Definition round_places (x : R) (n : Z) : R := RN (IZR (ZnearestE (x * IZR (10 ^ n))) / IZR (10 ^ n)).
(** `int.__round__(i, -n)`: to a multiple of 10^n, ties to even. *)
Definition round_tens (i n : Z) : Z := (ZnearestE (IZR i / IZR (10 ^ n)) * 10 ^ n)%Z.

(** sensor1c.py:208-210: the coordinate read from integer [i] with the scalar -10^e or 10^e;
    int(np.log10(10^e)) is e.  Division of integers is correctly rounded; for a positive
    scalar everything is done in integers. *)
Definition read_divided (i e : Z) : R := round_places (RN (IZR i / IZR (10 ^ e))) e.
Definition read_multiplied (i e : Z) : Z := round_tens (i * 10 ^ e) e.
(** sensor1c.py:219: the delay read from integer [i]. *)
Definition read_delay (i : Z) : R := RN (IZR i / 1000).

(** array1d.py:762, 771-784: `int(round(x*1000))`. *)
Definition write_thousandths (x : R) : Z := ZnearestE (RN (x * 1000)).

(** activetimeseries.py:146-148 for one sample; the stack counts are integers below 2^53, hence
    doubles, and so is their sum. *)
Definition stack2 (a : R) (n : Z) (b : R) (m : Z) : R :=
  RN (RN (RN (a * IZR n) + RN (b * IZR m)) / IZR (n + m)).
(** Sample and stack count after appending the records [l] one after the other (149). *)
Fixpoint stack_all (a : R) (n : Z) (l : list (R * Z)) : R * Z :=
  match l with
  | [] => (a, n)
  | (b, m) :: t => stack_all (stack2 a n b m) (n + m) t
  end.

(** array1d.py:160-166: np.diff, min and max of the differences, comparison with 1E-2 and
    numpy's round to two places, rint(100 x) / 100.  None: ValueError. *)
Fixpoint diffs (l : list R) : list R :=
  match l with
  | x :: ((y :: _) as t) => RN (y - x) :: diffs t
  | _ => []
  end.
Definition least (d : R) (l : list R) : R := fold_left Rmin l d.
Definition greatest (d : R) (l : list R) : R := fold_left Rmax l d.
Definition numpy_round2 (x : R) : R := RN (IZR (ZnearestE (RN (x * 100))) / 100).
Definition spacing (position : list R) : option R :=
  match diffs position with
  | [] => None
  | d :: l => if Rlt_dec (RN (greatest d l - least d l)) (RN (1 / 100)) then Some (numpy_round2 (least d l)) else None
  end.
