(* Model of the integration over the array of the phase-shift transform in double precision
   (/repo/swprocess/wavefieldtransforms.py:571-578); BeamModel.v has it in exact arithmetic.  As in FloatModel.v there is
   no overflow, infinity or NaN. *)
From Verif Require Export FloatModel FloatSlantModel FloatStatModel FloatNormModel.

(** wavefieldtransforms.py:573 and 575: the imaginary part of exponent*frq; the real part is zero.  1j*2*np.pi is exactly
    twice the double nearest to pi. *)
Definition angle (v f x : R) : R := RN (RN (RN (RN (2 * PI) / v) * x) * f).
(** wavefieldtransforms.py:575-576: the parts of shift*fft/np.abs(fft) for one receiver, with [cos_] and [sin_] of the C
    library for np.exp of an imaginary number.  Products of complex numbers are computed from four real products, and numpy
    divides by a complex number without imaginary part by multiplying with the reciprocal. *)
Definition inner_re (cos_ sin_ : R -> R) (hypot_ : R -> R -> R) (t : R) (F : R * R) : R :=
  RN (RN (RN (cos_ t * fst F) - RN (sin_ t * snd F)) * RN (1 / hypot_ (fst F) (snd F))).
Definition inner_im (cos_ sin_ : R -> R) (hypot_ : R -> R -> R) (t : R) (F : R * R) : R :=
  RN (RN (RN (cos_ t * snd F) + RN (sin_ t * fst F)) * RN (1 / hypot_ (fst F) (snd F))).
(** wavefieldtransforms.py:571 and 577: 0.5*dx*(inner[:-1] + inner[1:]) for the real (or the imaginary) parts [cs] of
    `inner`; the product of a real and a complex number has rounded products as parts. *)
Fixpoint panels (xs cs : list R) : list R :=
  match xs, cs with
  | x :: ((x' :: _) as xt), c :: ((c' :: _) as ct) =>
      RN (RN (/ 2 * RN (x' - x)) * RN (c + c')) :: panels xt ct
  | _, _ => []
  end.
(** wavefieldtransforms.py:577: np.abs(np.sum(.)), the parts added in the orders of [t] and [t']; [hypot_] is the
    absolute value of a complex number as computed by the C library. *)
Definition integral_of (hypot_ : R -> R -> R) (xs re im : list R) (p : R) : Prop :=
  exists t t', Permutation (leaves t) (panels xs re) /\ Permutation (leaves t') (panels xs im) /\ p = hypot_ (fsum t) (fsum t').
(** wavefieldtransforms.py:572-578: [p] is a possible entry for the velocity [v] and the frequency [f]; [Fs] are the
    spectra of the receivers at [f] (:557-558), which enter as given doubles. *)
Definition power_of (cos_ sin_ : R -> R) (hypot_ : R -> R -> R) (xs : list R) (Fs : list (R * R)) (f v p : R) : Prop :=
  integral_of hypot_ xs (map (fun q => inner_re cos_ sin_ hypot_ (angle v f (fst q)) (snd q)) (combine xs Fs))
    (map (fun q => inner_im cos_ sin_ hypot_ (angle v f (fst q)) (snd q)) (combine xs Fs)) p.
