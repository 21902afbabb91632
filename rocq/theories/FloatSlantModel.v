(* Model of the slant stack (/repo/swprocess/wavefieldtransforms.py:441-490) in double precision,
   see FloatModel.v; TransformModel.v has it in exact arithmetic. *)
From Verif Require Export FloatModel.

(** np.max of a non-empty array. *)
Definition np_max (l : list R) : R := match l with [] => 0 | x :: t => greatest x t end.
(** wavefieldtransforms.py:469: number of intercept times of records of [npts] samples, for receivers
    at the positions [ps] (462-463, the nearest one at zero) and the velocities [vs]; int() truncates. *)
Definition truncated_moveout (dt : R) (ps vs : list R) : Z :=
  Ztrunc (RN (RN (np_max ps * np_max (map (fun v => RN (1 / v)) vs)) / dt)).
Definition tau_count (npts : Z) (dt : R) (ps vs : list R) : Z := (npts - truncated_moveout dt ps vs - 1)%Z.
(** wavefieldtransforms.py:474-479 for the receiver at [p] and the velocity [v]. *)
Definition float_index (dt p v : R) : R := RN (RN (p / dt) / v).
Definition lower_index (dt p v : R) : Z := Ztrunc (float_index dt p v).
Definition weight (dt p v : R) : R := RN (float_index dt p v - IZR (lower_index dt p v)).
(** wavefieldtransforms.py:480-482: the highest sample number read for this receiver, at the last
    intercept time; numpy raises IndexError if it is [npts] or more. *)
Definition highest_read (npts : Z) (dt : R) (ps vs : list R) (p v : R) : Z :=
  (tau_count npts dt ps vs - 1 + lower_index dt p v + 1)%Z.
(** wavefieldtransforms.py:481-482: the amplitude used at intercept time number [tau]; [trace i] is
    sample number i of the receiver at [p]. *)
Definition amplitude (trace : Z -> R) (dt p v : R) (tau : Z) : R :=
  let i := (tau + lower_index dt p v)%Z in
  RN (RN (trace i * RN (1 - weight dt p v)) + RN (trace (i + 1)%Z * weight dt p v)).
