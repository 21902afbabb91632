(* Model of the axes of a dispersion image (/repo/swprocess/wavefieldtransforms.py:51-82, 516-527)
   and of the derived coordinates of peaks (peaks.py:117-139, 368-410) in double precision, see
   FloatModel.v; TransformModel.v and PeaksModel.v have them in exact arithmetic. *)
From Verif Require Export FloatModel.

(** np.linspace(start, stop, n) for n >= 2, entry number i (wavefieldtransforms.py:54, 57):
    delta = stop - start; step = delta/(n-1); i*step + start, or i/(n-1)*delta + start if the step is
    zero; the last entry is replaced by stop. *)
Definition linspace_at (start stop : R) (n i : Z) : R :=
  if Z.eqb i (n - 1) then stop
  else
    let delta := RN (stop - start) in
    let step := RN (delta / IZR (n - 1)) in
    if Req_EM_T step 0 then RN (RN (RN (IZR i / IZR (n - 1)) * delta) + start)
    else RN (RN (IZR i * step) + start).

(** wavefieldtransforms.py:517 with activetimeseries.py:102-110: frequency number i of a record of [n]
    samples. *)
Definition internal_step (n : Z) (dt : R) : R := RN (1 / RN (IZR n * dt)).
Definition frequency_at (n : Z) (dt : R) (i : Z) : R := RN (IZR i * internal_step n dt).
(** np.argmin: the first of the smallest entries of [d 0 .. d (n-1)]. *)
Fixpoint argmin_of (d : Z -> R) (n : nat) : Z :=
  match n with
  | O => 0%Z
  | S m => let best := argmin_of d m in if Rlt_dec (d (Z.of_nat m)) (d best) then Z.of_nat m else best
  end.
(** wavefieldtransforms.py:79-80: number of the frequency nearest to [f]. *)
Definition frequency_id (n : Z) (dt f : R) : Z :=
  argmin_of (fun i => Rabs (RN (frequency_at n dt i - f))) (Z.to_nat n).
(** wavefieldtransforms.py:79-82: range(lowest, highest + 1, multiple). *)
Definition kept_ids (n : Z) (dt fmin fmax : R) (multiple : Z) (i : Z) : Prop :=
  exists k, (0 <= k)%Z /\ i = (frequency_id n dt fmin + k * multiple)%Z /\ (i < frequency_id n dt fmax + 1)%Z.

(** peaks.py:117-139 for one peak; np.pi is the double nearest to pi. *)
Definition slowness (v : R) : R := RN (1 / v).
Definition wavelength (f v : R) : R := RN (v / f).
Definition wavenumber (f v : R) : R := RN (RN (RN (2 * RN PI) * f) / v).
(** peaks.py:396-410 for one valid peak whose attribute has the value [x]: rejected or not. *)
Definition rejected (lo hi : option R) (x : R) : Prop :=
  match lo, hi with
  | None, None => False
  | None, Some b => b < x
  | Some a, None => x < a
  | Some a, Some b => b < x \/ x < a
  end.
