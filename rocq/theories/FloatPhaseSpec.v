(* Vocabulary for the theorems on the phase-shift transform in double precision. *)
From Verif Require Import FloatModel FloatSpec.

Definition norm (x y : R) : R := sqrt (x * x + y * y).
(** A C library with at most twice the error of a rounding. *)
Definition good_hypot (f : R -> R -> R) : Prop := forall x y, double x -> double y -> Rabs (f x y - norm x y) <= 2 * u * norm x y + tiny.
Definition good_cos (f : R -> R) : Prop := forall x, double x -> Rabs (f x - cos x) <= 2 * u.
Definition good_sin (f : R -> R) : Prop := forall x, double x -> Rabs (f x - sin x) <= 2 * u.
(** The trapezoidal integral over the offsets [xs] of the function with the values [cs]. *)
Fixpoint trapezoid (xs cs : list R) : R :=
  match xs, cs with
  | x :: ((x' :: _) as xt), c :: ((c' :: _) as ct) => (x' - x) * ((c + c') / 2) + trapezoid xt ct
  | _, _ => 0
  end.
(** The length of the array: the sum of the distances between neighbours. *)
Fixpoint extent (xs : list R) : R :=
  match xs with x :: ((x' :: _) as xt) => Rabs (x' - x) + extent xt | _ => 0 end.
(** [re] and [im] are the parts of complex numbers of absolute value one, and [re'] and [im'] are computed with an error of
    at most [e] in each part. *)
Definition computed (e : R) (c c' : list R) : Prop := Forall2 (fun x x' => double x' /\ Rabs (x' - x) <= e) c c'.
Definition phases (re im : list R) : Prop := Forall2 (fun x y => x * x + y * y = 1) re im.
(** The exact power, and the error allowed in it. *)
Definition exact_power (xs re im : list R) : R := norm (trapezoid xs re) (trapezoid xs im).
Definition allowed (e : R) (xs : list R) : R := extent xs * (3 * e + 3 * (INR (length xs) + 6) * u) + 10 * INR (length xs) * tiny.
(** The error of a phase term whose angle is at most [T]. *)
Definition phase_error (T : R) : R := (13 * T + 14) * u.
(** The parts of exp(2 pi i f x / v) F / |F|, and the phase-shift power of McMechan and Yedlin. *)
Definition phase (v f x : R) : R := 2 * PI * f * x / v.
Definition unit_re (t : R) (F : R * R) : R := (cos t * fst F - sin t * snd F) / norm (fst F) (snd F).
Definition unit_im (t : R) (F : R * R) : R := (cos t * snd F + sin t * fst F) / norm (fst F) (snd F).
Definition phase_power (xs : list R) (Fs : list (R * R)) (f v : R) : R :=
  exact_power xs (map (fun q => unit_re (phase v f (fst q)) (snd q)) (combine xs Fs)) (map (fun q => unit_im (phase v f (fst q)) (snd q)) (combine xs Fs)).
(** Offsets, frequencies, velocities and spectra of usual size. *)
Definition usual (xs : list R) (Fs : list (R * R)) (f v : R) : Prop :=
  Forall (fun x => double x /\ Rabs x <= 1000000000) xs /\ INR (length xs) <= 1073741824 /\ length Fs = length xs /\
  Forall (fun F => double (fst F) /\ double (snd F) /\ / IZR (2 ^ 400) <= norm (fst F) (snd F) <= IZR (2 ^ 400)) Fs /\
  Rabs f <= 1000000000 /\ 0 < v.
