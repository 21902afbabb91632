(* Model of the mute with every operation in double precision (/repo/swprocess/array1d.py:541-598); ArrayModel.v has it
   in exact arithmetic.  As in FloatModel.v there is no overflow, infinity or NaN. *)
From Verif Require Export FloatModel.

(** Two points (distance, time) that define a line. *)
Definition line : Type := ((R * R) * (R * R))%type.
(** array1d.py:566 *)
Definition ndelay (dt delay : R) : R := Rabs (RN (delay / dt)).
(** array1d.py:571-574 and 580-583 for the receiver at [p].  A vertical line, whose slope is infinite, is excluded by the
    hypotheses of the theorems. *)
Definition line_index (dt delay : R) (l : line) (p : R) : Z :=
  let '((x1, t1), (x2, t2)) := l in
  let slope := RN (RN (t2 - t1) / RN (x2 - x1)) in
  let time := RN (t1 + RN (slope * RN (p - x1))) in
  Ztrunc (RN (RN (time / dt) + ndelay dt delay)).
(** array1d.py:569-576 and 578-585: without a line, the first and the last sample. *)
Definition start_index (dt delay : R) (l : option line) (p : R) : Z :=
  match l with Some l => line_index dt delay l p | None => 0%Z end.
Definition stop_index (dt delay : R) (n : nat) (l : option line) (p : R) : Z :=
  match l with Some l => line_index dt delay l p | None => (Z.of_nat n - 1)%Z end.
(** array1d.py:593-597 for one receiver: the samples multiplied by the window.  [taper] gives the Tukey window of each
    length.  Simplification: 0 <= start <= stop <= nsamples, a hypothesis of the theorems (ArrayModel.v has the other cases). *)
Definition window_at (taper : nat -> list R) (start stop : Z) (j : nat) : R :=
  if andb (start <=? Z.of_nat j)%Z (Z.of_nat j <? stop)%Z then nth (j - Z.to_nat start) (taper (Z.to_nat (stop - start))) 0 else 0.
Definition muted (taper : nat -> list R) (start stop : Z) (amp : list R) : list R :=
  map (fun j => RN (nth j amp 0 * window_at taper start stop j)) (seq 0 (length amp)).
Definition mute_trace (taper : nat -> list R) (dt delay : R) (ss se : option line) (p : R) (amp : list R) : list R :=
  muted taper (start_index dt delay ss p) (stop_index dt delay (length amp) se p) amp.
