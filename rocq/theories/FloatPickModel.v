(* Model of the automatic picks of first arrivals in double precision (/repo/swprocess/array1d.py:421-439); ArrayModel.v has
   them in exact arithmetic.  As in FloatModel.v there is no overflow, infinity or NaN. *)
From Verif Require Export FloatModel FloatStatModel FloatTracesModel.

(** array1d.py:435: np.mean(trace[:10]), the sum taken in the order of [t]. *)
Definition start_mean_of (trace : list R) (m : R) : Prop :=
  exists t, Permutation (leaves t) (firstn 10 trace) /\ m = RN (fsum t / INR (length (firstn 10 trace))).
(** array1d.py:435-436: the first index of abs(trace-mean) > threshold; None: IndexError. *)
Fixpoint first_above (threshold m : R) (i : nat) (trace : list R) : option nat :=
  match trace with
  | [] => None
  | x :: trace' => if Rlt_dec threshold (Rabs (RN (x - m))) then Some i else first_above threshold m (S i) trace'
  end.
(** array1d.py:430 and 434-436: a possible pick on a receiver with the recorded amplitudes [amplitude]. *)
Definition pick_of (detrend : list R -> list R) (threshold : R) (amplitude : list R) (o : option nat) : Prop :=
  exists m, let trace := row_of detrend "each" amplitude in start_mean_of trace m /\ o = first_above threshold m 0 trace.
