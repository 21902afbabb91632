(* Vocabulary for the theorems on the frequency-domain beamformer in double precision. *)
From Coq Require Import String.
From Verif Require Import FloatModel FloatSpec FloatPhaseSpec.

(** What one receiver at offset [x] with the spectrum [F] contributes: its spectrum, divided by its absolute value for
    the weighting "invamp" and multiplied with the offset for the weighting "sqrt". *)
Definition contribution (weighting : string) (x : R) (F : R * R) : R * R :=
  if String.eqb weighting "invamp" then (fst F / norm (fst F) (snd F), snd F / norm (fst F) (snd F))
  else if String.eqb weighting "sqrt" then (x * fst F, x * snd F) else F.
(** The parts of the sum over the receivers of exp(2 pi i f x / v) times the contribution. *)
Fixpoint beam_re (weighting : string) (f v : R) (gs : list (R * (R * R))) : R :=
  match gs with
  | [] => 0
  | (x, F) :: t => let c := contribution weighting x F in
      (cos (phase v f x) * fst c - sin (phase v f x) * snd c) + beam_re weighting f v t
  end.
Fixpoint beam_im (weighting : string) (f v : R) (gs : list (R * (R * R))) : R :=
  match gs with
  | [] => 0
  | (x, F) :: t => let c := contribution weighting x F in
      (cos (phase v f x) * snd c + sin (phase v f x) * fst c) + beam_im weighting f v t
  end.
(** The squared absolute value of this sum, and the greatest power any velocity can have: all contributions in phase. *)
Definition beam_power (weighting : string) (xs : list R) (Fs : list (R * R)) (f v : R) : R :=
  let gs := combine xs Fs in beam_re weighting f v gs * beam_re weighting f v gs + beam_im weighting f v gs * beam_im weighting f v gs.
Fixpoint strength (weighting : string) (gs : list (R * (R * R))) : R :=
  match gs with
  | [] => 0
  | (x, F) :: t => norm (fst (contribution weighting x F)) (snd (contribution weighting x F)) + strength weighting t
  end.
Definition in_phase (weighting : string) (xs : list R) (Fs : list (R * R)) : R := strength weighting (combine xs Fs) * strength weighting (combine xs Fs).
(** The weighting by offsets needs receivers at least a millimetre from the source. *)
Definition off_source (weighting : string) (xs : list R) : Prop :=
  weighting = "sqrt"%string -> Forall (fun x => 1 / 1000 <= Rabs x) xs.
(** The error allowed, with phases of at most [T]. *)
Definition beam_error (T : R) (n : nat) : R := (25 * T + 9 * INR n + 41) * u.
