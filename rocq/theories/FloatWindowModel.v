(* Model of the part of a correlation that is kept, in double precision (/repo/swprocess/array1d.py:856-866); ArrayModel.v
   has it in exact arithmetic.  As in FloatModel.v there is no overflow, infinity or NaN. *)
From Verif Require Export FloatModel FloatSlantModel.

(** array1d.py:858-860: int((tmin-0.5)/dt) with tmin = min_offset/vmax. *)
Definition lag_min (o vmax dt : R) : Z := Ztrunc (RN (RN (RN (o / vmax) - / 2) / dt)).
(** array1d.py:862-863: int(tmax/dt) with tmax = max_offset/vmin. *)
Definition lag_max (o vmin dt : R) : Z := Ztrunc (RN (RN (o / vmin) / dt)).
(** array1d.py:856 and 865-867: the bounds of the slice, for the smallest and the largest offset and a source signal of [n]
    samples. *)
Definition window (n : nat) (omin omax vmin vmax dt : R) : Z * Z :=
  (Z.of_nat n + lag_min omin vmax dt, Z.of_nat n + lag_max omax vmin dt)%Z.
