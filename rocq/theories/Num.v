(* Exact rational numbers [Qc] with boolean comparisons, Python's round/int,
   and a small tactic to decide linear arithmetic over them. *)
From Verif Require Export Py.
From Coq Require Export QArith Qcanon Qround Lqa.
Close Scope Q_scope.
Close Scope Qc_scope.
Open Scope nat_scope.

Definition Qcleb (x y : Qc) : bool := Qle_bool (this x) (this y).
Definition Qcltb (x y : Qc) : bool := negb (Qle_bool (this y) (this x)).
Definition Qceqb (x y : Qc) : bool := Qeq_bool (this x) (this y).

Definition Qcabs (x : Qc) : Qc := if Qcltb x 0%Qc then Qcopp x else x.
Definition Qcmax2 (x y : Qc) : Qc := if Qcltb x y then y else x.
Definition Qcmin2 (x y : Qc) : Qc := if Qcltb y x then y else x.

(** Injections. *)
Definition QcZ (z : Z) : Qc := Q2Qc (inject_Z z).
Definition QcN (n : nat) : Qc := QcZ (Z.of_nat n).

Definition Qcfloor (x : Qc) : Z := Qfloor (this x).
Definition Qcceil (x : Qc) : Z := Qceiling (this x).

(** Python's [round(x)]: nearest integer, ties to even. *)
Definition round_half_even (x : Qc) : Z :=
  let f := Qcfloor x in
  let r := Qcminus x (QcZ f) in                     (* 0 <= r < 1 *)
  let half := Q2Qc (1 # 2) in
  if Qcltb r half then f
  else if Qcltb half r then (f + 1)%Z
  else if Z.even f then f else (f + 1)%Z.

(** Python's [int(x)]: truncation towards zero. *)
Definition trunc (x : Qc) : Z :=
  if Qcltb x 0%Qc then (- Qcfloor (Qcopp x))%Z else Qcfloor x.

Definition Qcsum (l : list Qc) : Qc := fold_right Qcplus 0%Qc l.
