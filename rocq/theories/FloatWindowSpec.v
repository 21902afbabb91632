(* Vocabulary for the theorems on the part of a correlation that is kept. *)
From Verif Require Import FloatModel FloatSpec.

(** The lags, in samples, half a second before the fastest wave reaches the nearest receiver and when the slowest wave
    reaches the farthest one. *)
Definition earliest (omin vmax dt : R) : R := (omin / vmax - / 2) / dt.
Definition latest (omax vmin dt : R) : R := omax / vmin / dt.
Definition usual_window (omin omax vmin vmax dt : R) : Prop :=
  0 <= omin <= omax /\ omax <= 10000 /\ 1 <= vmin <= vmax /\ / 10000000 <= dt <= 1.
(** Not within a thousandth of a whole number. *)
Definition between (x : R) : Prop := forall k : Z, / 1000 < Rabs (x - IZR k).
