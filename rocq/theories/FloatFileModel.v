(* Model of the samples and the time step of an array written to an SU file and read again, in floating-point arithmetic
   (/repo/swprocess/array1d.py:756-789 and /repo/swprocess/sensor1c.py:132); HeaderModel.v has them in exact arithmetic,
   FloatModel.v has the coordinates and the delay.

   The samples of a file are single-precision numbers: real numbers of 24 binary digits with exponent at least -149; a
   magnitude of 2^128 or more after rounding is infinite. *)
From Verif Require Export FloatModel.

Definition sexp : Z -> Z := FLT_exp (-149) 24.
Definition single (x : R) : Prop := generic_format radix2 sexp x.
(** The single nearest to [x] if exponents had no upper bound. *)
Definition RN32 (x : R) : R := round radix2 sexp ZnearestE x.

(** A sample of a file. *)
Inductive stored : Type := Finite (x : R) | Infinite (negative : bool).
(** array1d.py:765: `np.array(sensor.amplitude, dtype=np.float32)` for one finite sample. *)
Definition store (x : R) : stored :=
  if Rlt_dec (Rabs (RN32 x)) (bpow radix2 128) then Finite (RN32 x) else Infinite (if Rlt_dec x 0 then true else false).
(** sensor1c.py:132: the samples of a trace become doubles again, without a change. *)
Definition recalled (s : stored) : option R := match s with Finite x => Some x | Infinite _ => None end.

(** obspy's Stats keeps the sampling rate: setting `delta` sets the rate to 1/delta, and reading it gives 1/rate. *)
Definition stats_delta (d : R) : R := RN (1 / RN (1 / d)).
(** array1d.py:766 and obspy's writer, `int(round(delta*1E6))`. *)
Definition write_step (dt : R) : Z := ZnearestE (RN (stats_delta dt * 1000000)).
(** obspy's reader sets delta to the number of microseconds divided by 1E6; sensor1c.py:132: dt=trace.stats.delta. *)
Definition read_step (k : Z) : R := stats_delta (RN (IZR k / 1000000)).

(** numpy's allclose for one pair of samples, `abs(x-y) <= atol + rtol*abs(y)` (activetimeseries.py:406). *)
Definition close (x y : R) : Prop := RN (Rabs (RN (x - y))) <= RN (RN (/ 100000000) + RN (RN (/ 100000) * Rabs y)).
(** A record: its time step and samples.  [reread dt xs]: what is read from a file with this record; None if a sample is
    infinite. *)
Fixpoint recall_all (l : list stored) : option (list R) :=
  match l with
  | [] => Some []
  | s :: t => match recalled s, recall_all t with Some x, Some xs => Some (x :: xs) | _, _ => None end
  end.
Definition reread (dt : R) (xs : list R) : option (R * list R) :=
  match recall_all (map store xs) with Some ys => Some (read_step (write_step dt), ys) | None => None end.
(** activetimeseries.py:386-409 [__eq__] of two records with the same stack count and delay. *)
Definition same_record (a b : R * list R) : Prop := fst a = fst b /\ Forall2 close (snd a) (snd b).
