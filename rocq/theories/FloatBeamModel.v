(* Model of the frequency-domain beamformer with plane steering in double precision
   (/repo/swprocess/wavefieldtransforms.py:617-656 and 684-711); BeamModel.v has it in exact arithmetic.  A
   complex number is a pair of doubles.  The products of matrices are computed by BLAS, which adds the rounded products of
   the parts in an order of its own, hence a sum is here any bracketing of these products in any order (an
   implementation with fused multiply-add, which rounds less often, is not covered).  As in FloatModel.v there is no
   overflow, infinity or NaN. *)
From Coq Require Import String.
From Verif Require Export FloatModel FloatStatModel.

Definition complex : Type := (R * R)%type.
(** np.conjugate *)
Definition conj (z : complex) : complex := (fst z, - snd z).
(** A sum of the entries of [l] as computed. *)
Definition sum_of (l : list R) (s : R) : Prop := exists t, Permutation (leaves t) l /\ s = fsum t.
(** np.dot of a row and a column of complex numbers: [z] is a possible result. *)
Definition products_re (a b : list complex) : list R :=
  flat_map (fun q => [RN (fst (fst q) * fst (snd q)); RN (- (snd (fst q) * snd (snd q)))]) (combine a b).
Definition products_im (a b : list complex) : list R :=
  flat_map (fun q => [RN (fst (fst q) * snd (snd q)); RN (snd (fst q) * fst (snd q))]) (combine a b).
Definition dot_of (a b : list complex) (z : complex) : Prop :=
  sum_of (products_re a b) (fst z) /\ sum_of (products_im a b) (snd z).

(** wavefieldtransforms.py:687-695: the spectrum of one receiver at one frequency after the weighting "invamp"; there is
    one block, so that the mean is the value itself. *)
Definition spectrum (hypot_ : R -> R -> R) (weighting : string) (F : complex) : complex :=
  if String.eqb weighting "invamp" then
    let w := RN (1 / hypot_ (fst F) (snd F)) in (RN (fst F * w), RN (snd F * w))
  else F.
(** wavefieldtransforms.py:703-709: an entry of tslice tslice^H; adding it to zero and dividing by the one block are exact. *)
Definition correlation_of (Fa Fb : complex) (m : complex) : Prop := dot_of [Fa] [conj Fb] m.
(** wavefieldtransforms.py:628-633 and 648: the entry times the weight of the pair of receivers. *)
Definition pair_weight (weighting : string) (xa xb : R) : R := if String.eqb weighting "sqrt" then RN (xa * xb) else 1.
Definition weighted (w : R) (m : complex) : complex := (RN (fst m * w), RN (snd m * w)).
(** wavefieldtransforms.py:650: 2*np.pi*f/v * offset; 641-642 and 651: np.exp(-1j*kx) with the cosine and sine of the C
    library. *)
Definition wave_angle (v f x : R) : R := RN (RN (RN (RN (2 * RN PI) * f) / v) * x).
Definition steering (cos_ sin_ : R -> R) (v f x : R) : complex := (cos_ (- wave_angle v f x), sin_ (- wave_angle v f x)).
(** wavefieldtransforms.py:652-653: the inner product, the entry of steer^H (sscm*w) for receiver b; [gs] are the offsets and weighted
    spectra of all receivers. *)
Definition entry_of (weighting : string) (steer : list complex) (gs : list (R * complex)) (b : R * complex) (r : complex) : Prop :=
  exists col, Forall2 (fun a z => exists m, correlation_of (snd a) (snd b) m /\ z = weighted (pair_weight weighting (fst a) (fst b)) m) gs col /\
    dot_of (map conj steer) col r.
(** wavefieldtransforms.py:652-654: [p] is a possible entry of the power for the frequency [f] and the velocity [v], [Fs] being the
    spectra of the receivers at [f], which enter as given doubles. *)
Definition beam_of (cos_ sin_ : R -> R) (hypot_ : R -> R -> R) (weighting : string) (xs : list R) (Fs : list complex) (f v : R) (p : complex) : Prop :=
  let steer := map (steering cos_ sin_ v f) xs in
  let gs := combine xs (map (spectrum hypot_ weighting) Fs) in
  exists rs, Forall2 (entry_of weighting steer gs) gs rs /\ dot_of rs steer p.
