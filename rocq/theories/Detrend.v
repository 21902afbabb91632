(* scipy.signal.detrend(x, type="linear"), the operation behind
   sigpropy TimeSeries.detrend (maswworkflows.py:64-67, 265-266) and
   array1d.py:109.  Contract: the least-squares straight line through the
   samples is subtracted.  Written with the closed formula for the
   least-squares line of points (i, y_i), i = 0..n-1. *)
From Verif Require Export Num.

Definition mean (l : list Qc) : Qc := (Qcsum l / QcN (length l))%Qc.

(** Centred abscissae i - (n-1)/2. *)
Definition ramp (n : nat) : list Qc :=
  map (fun i => (QcN i - QcZ (Z.of_nat n - 1) / Q2Qc 2)%Qc) (seq 0 n).

Definition dot (a b : list Qc) : Qc := Qcsum (map2 Qcmult a b).

(** slope = sum (i-m) y_i / sum (i-m)^2; a single sample has slope 0. *)
Definition slope (l : list Qc) : Qc :=
  let r := ramp (length l) in
  let d := dot r r in
  if Qceqb d 0%Qc then 0%Qc else (dot r l / d)%Qc.

Definition detrend (l : list Qc) : list Qc :=
  let m := mean l in let b := slope l in
  map2 (fun x y => (y - (m + b * x))%Qc) (ramp (length l)) l.
