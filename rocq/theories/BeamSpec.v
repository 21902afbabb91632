(* Independent vocabulary for the beamforming properties. *)
From Verif Require Import BeamModel ArraySpec.
Local Open Scope R_scope.

(** A complex number that is a real one, and its sign. *)
Definition real_nonneg (u : C) : Prop := snd u = 0 /\ 0 <= fst u.
(** Sum over the first [n] indices. *)
Definition sumC (n : nat) (f : nat -> C) : C := Csum (map f (seq 0 n)).
Definition sumR (n : nat) (f : nat -> R) : R := Rsum (map f (seq 0 n)).
(** Entry (a, c) of a matrix. *)
Definition at2 (m : list (list C)) (a c : nat) : C := nth c (nth a m []) C0.
Definition square (n : nat) (m : list (list C)) : Prop :=
  List.length m = n /\ forall r, In r m -> List.length r = n.
(** Hermitian form u^H m u. *)
Definition form (n : nat) (m : list (list C)) (u : nat -> C) : C :=
  sumC n (fun a => sumC n (fun c => Cmul (Cmul (Cconj (u a)) (at2 m a c)) (u c))).
(** channels x blocks *)
Definition tensor (n b : nat) (t : list (list C)) : Prop :=
  List.length t = n /\ forall r, In r t -> List.length r = b.
Definition ascending (l : list R) : Prop :=
  forall i, (S i < List.length l)%nat -> nth i l 0 <= nth (S i) l 0.
(** Distance from the nearest to the farthest receiver. *)
Definition aperture (l : list R) : R := nth (List.length l - 1) l 0 - nth 0 l 0.
(** weights of the receivers *)
Definition receiver_weight (weighting : option string) (x : R) : R :=
  match weighting with
  | Some w => if String.eqb w "sqrt" then x else 1
  | None => 1
  end.
(** Entry (row i, column j), if there is one. *)
Definition entry_at {X} (m : list (list X)) (i j : nat) : option X :=
  match nth_error m i with Some r => nth_error r j | None => None end.
(** The source is not between the outermost sensors. *)
Definition outside (a : array) : Prop :=
  (src_x (src a) <= first_x a)%Qc \/ (last_x a < src_x (src a))%Qc.
(** Distance between the outermost sensors. *)
Definition spread (a : array) : R := toR (last_x a - first_x a).
(** The frequencies of the array's records are k*df for k = 0, 1, ..., thinned by m. *)
Definition grid (a : array) (n : nat) (df : Qc) (m : nat) : Prop :=
  exists s rest, sensors a = s :: rest /\ nsamples (ser s) = n /\ (0 < n)%nat /\
    internal_df (ser s) = Ok df /\ multiple (ser s) = Z.of_nat m /\ (0 < m)%nat.
(** Spectrum of a sensor's record at bin k. *)
Definition spectrum_of (k : nat) (s : sensor) : C := dft (amp (ser s)) k.
(** At bin k (frequency f) the array records a plane wave of velocity v: every
    sensor has its own amplitude, and a phase that decreases with distance. *)
Definition plane_wave (a : array) (k : nat) (f v : R) : Prop :=
  exists phi, forall s, In s (sensors a) -> exists A, 0 < A /\
    spectrum_of k s = Cmul (RtoC A) (cexp (phi - 2 * PI * f * toR (dist a s) / v)).
(** The record [w] delayed by [d] samples, what leaves at the end coming back at the start. *)
Definition delayed {X} (d : nat) (w : list X) : list X :=
  skipn (List.length w - d) w ++ firstn (List.length w - d) w.
(** Every sensor records the wavelet [w], scaled, after the time the wave of velocity [v] needs
    to reach it, which is a whole number of samples. *)
Definition travelling (a : array) (w : list Qc) (v : Qc) : Prop :=
  forall s, In s (sensors a) -> exists A d, (0 < A)%Qc /\ (d <= List.length w)%nat /\
    amp (ser s) = map (Qcmult A) (delayed d w) /\
    (dist a s = v * (QcN d * dt (ser s)))%Qc.
(** The same array with other amplitudes: each record multiplied by its own positive factor. *)
Definition rescaled (s s' : sensor) : Prop :=
  exists c, (0 < c)%Qc /\ amp (ser s') = map (Qcmult c) (amp (ser s)) /\
    dt (ser s') = dt (ser s) /\ multiple (ser s') = multiple (ser s) /\ sx s' = sx s.
