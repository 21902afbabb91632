(* Independent vocabulary for the slant-stack spectrum and the resolution wavenumber. *)
From Verif Require Import SpectrumModel BeamSpec ArraySpec TransformSpec.
Local Open Scope R_scope.

(** The Fourier sum at frequency [f] of the [n] values p 0, p 1, ... taken every [dt] seconds. *)
Definition fourier (n : nat) (p : nat -> Qc) (dt : Qc) (f : R) : C :=
  sumC n (fun t => Cmul (RtoC (toR (p t))) (cexp (- (2 * PI * f * (INR t * toR dt))))).
(** Every sensor records the wavelet [w] after the time the wave of velocity [v] needs to reach
    it, which is a whole number of samples. *)
Definition same_wave (a : array) (w : list Qc) (v : Qc) : Prop :=
  forall s, In s (sensors a) -> exists d, (d <= List.length w)%nat /\
    amp (ser s) = delayed d w /\ (dist a s = v * (QcN d * dt (ser s)))%Qc.
(** [g] is the smallest distance between two receivers. *)
Definition smallest_gap (a : array) (g : Qc) : Prop :=
  (0 < g)%Qc /\ (exists s t, In s (sensors a) /\ In t (sensors a) /\ sx t - sx s = g)%Qc /\
  forall s t, In s (sensors a) -> In t (sensors a) -> (sx s < sx t)%Qc -> (g <= sx t - sx s)%Qc.
(** On the array, plane waves of wavenumbers [k1] and [k2] differ at most by a common factor. *)
Definition indistinguishable (a : array) (k1 k2 : R) : Prop :=
  exists c, forall s, In s (sensors a) -> cexp (k1 * toR (sx s)) = Cmul c (cexp (k2 * toR (sx s))).
(** All receivers are on a grid of step [g]. *)
Definition evenly_spaced (a : array) (g : Qc) : Prop :=
  exists x0, forall s, In s (sensors a) -> exists j, (sx s = x0 + QcZ j * g)%Qc.
