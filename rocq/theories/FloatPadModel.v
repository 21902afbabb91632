(* Model of zero padding and trimming (/repo/swprocess/activetimeseries.py:102-110, 213-287) in
   double precision, see FloatModel.v; only numbers of samples, multiples, frequency steps and
   times are computed, the samples themselves are moved unchanged. *)
From Verif Require Export FloatModel.

(** activetimeseries.py:262-263: `int(round(1/(df*dt)))`. *)
Definition new_count (df dt : R) : Z := ZnearestE (RN (1 / RN (df * dt))).
(** activetimeseries.py:268-287 for a record of [n] samples, [k] being the new count: number of
    samples afterwards and `_multiple`.  Division of integers is correctly rounded, and
    int() truncates.  None: the remainder by zero, ZeroDivisionError. *)
Definition pad_count (n k : Z) : option (Z * Z) :=
  if (n <? k)%Z then Some ((n + (k - n))%Z, 1%Z)
  else if (k <? n)%Z then
    if (k =? 0)%Z then None
    else if (n mod k =? 0)%Z then Some (n, Ztrunc (RN (IZR n / IZR k)))
    else let padding := (k - n mod k)%Z in
         Some ((n + padding)%Z, Ztrunc (RN (IZR (n + padding) / IZR k)))
  else Some (n, 1%Z).
(** activetimeseries.py:234-287 for df > 0. *)
Definition zero_pad_count (n : Z) (df dt : R) : option (Z * Z) := pad_count n (new_count df dt).
(** activetimeseries.py:102-110: the frequency step a padded record reports. *)
Definition reported_step (n multiple : Z) (dt : R) : R := RN (RN (1 / RN (IZR n * dt)) * IZR multiple).

(** activetimeseries.py:116-119 with sigpropy's `np.arange(0, nsamples)*dt`: the time of sample i. *)
Definition sample_time (dt delay : R) (i : Z) : R := RN (RN (IZR i * dt) + delay).
(** sigpropy's trim: np.argmin(np.abs(time - t)), the first of the nearest samples. *)
Definition distance (dt delay t : R) (i : Z) : R := Rabs (RN (sample_time dt delay i - t)).
Fixpoint nearest_sample (dt delay t : R) (n : nat) : Z :=
  match n with
  | O => 0%Z
  | S m => let best := nearest_sample dt delay t m in
           if Rlt_dec (distance dt delay t (Z.of_nat m)) (distance dt delay t best) then Z.of_nat m else best
  end.
