(* Vocabulary for the values of the slant stack in double precision. *)
From Verif Require Import FloatModel FloatSpec FloatSlantModel FloatSlantSpec FloatTaupModel.

(** The trapezoidal rule over the receivers, in exact arithmetic, of the wavefield along the line that arrives after the time of sample
    [tau] and travels with the velocity [v]. *)
Definition arrival (dt v : R) (tau : Z) (r : receiver) : R := interp (snd r) (IZR tau + fst r / (v * dt)).
Fixpoint trapezoids (dt v : R) (tau : Z) (rs : list receiver) : R :=
  match rs with
  | r :: ((r' :: _) as t) => (fst r' - fst r) * ((arrival dt v tau r' + arrival dt v tau r) / 2) + trapezoids dt v tau t
  | _ => 0
  end.
(** Receivers in order of position, with samples of at most [A], whose greatest moveout is [T] samples. *)
Fixpoint ordered (rs : list receiver) : Prop :=
  match rs with r :: ((r' :: _) as t) => fst r <= fst r' /\ ordered t | _ => True end.
Definition line_ok (dt v A T : R) (rs : list receiver) : Prop :=
  ordered rs /\ Forall (fun r => double (fst r) /\ (forall i, Rabs (snd r i) <= A) /\
    (fst r = 0 /\ 0 < dt /\ 0 < v \/ sizes_ok dt (fst r) v) /\ fst r / (v * dt) <= T) rs.
(** Length of the line. *)
Definition aperture (rs : list receiver) : R := fst (last rs (0, fun _ => 0)) - fst (hd (0, fun _ => 0) rs).
(** Bound of the error of one amplitude, see C99_amplitude. *)
Definition reading_error (A T : R) : R := A * (12 * u * T + 8 * u) + 8 * tiny * (A + 1).
