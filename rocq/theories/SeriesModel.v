(* Model of /repo/swprocess/activetimeseries.py and of the in-memory part of
   /repo/swprocess/sensor1c.py. *)
From Verif Require Export Num.

(** activetimeseries.py:62-86. The object's state: `_amp` (one row, as a list),
    `dt`, `_nstacks`, `_delay`, `_multiple`.  Simplification: samples and times
    are exact rationals instead of binary64 floats. *)
Record series : Type := mkSeries {
  amp : list Qc;
  dt : Qc;
  nstacks : Z;
  delay : Qc;
  multiple : Z
}.

(** sigpropy TimeSeries.nsamples *)
Definition nsamples (s : series) : nat := length (amp s).

Definition set_amp (s : series) (a : list Qc) : series :=
  mkSeries a (dt s) (nstacks s) (delay s) (multiple s).
Definition set_multiple (s : series) (m : Z) : series :=
  mkSeries (amp s) (dt s) (nstacks s) (delay s) m.

(** activetimeseries.py:42-60 [_check_input] and 62-86 [__init__].
    Simplification: `int(nstacks)` and `float(delay)` receive numbers. *)
Definition new_series (a : list Qc) (d : Qc) (ns : Z) (de : Qc) : result series :=
  if (ns <=? 0)%Z then Err ValueError
  else if Qcltb 0%Qc de then Err ValueError
  else Ok (mkSeries a d ns de 1).

(** activetimeseries.py:102-105 [_df] (sigpropy: 1/(nsamples*dt)) and
    107-110 [df] (user facing: _df*multiple). *)
Definition internal_df (s : series) : result Qc :=
  let q := (QcN (nsamples s) * dt s)%Qc in
  if Qceqb q 0%Qc then Err ZeroDivisionError else Ok (1 / q)%Qc.
Definition user_df (s : series) : result Qc :=
  bind (internal_df s) (fun d => Ok (d * QcZ (multiple s))%Qc).

(** activetimeseries.py:116-119 [time] (sigpropy: arange(nsamples)*dt). *)
Definition time (s : series) : list Qc :=
  map (fun i => (QcN i * dt s + delay s)%Qc) (range (nsamples s)).

(** A Sensor1C is an ActiveTimeSeries with a position (sensor1c.py:28-52). *)
Record sensor : Type := mkSensor {
  ser : series;
  sx : Qc;
  sy : Qc;
  sz : Qc
}.
Definition set_ser (s : sensor) (t : series) : sensor :=
  mkSensor t (sx s) (sy s) (sz s).

(** sensor1c.py:37-40 [__init__]. *)
Definition new_sensor (a : list Qc) (d x y z : Qc) (ns : Z) (de : Qc) : result sensor :=
  bind (new_series a d ns de) (fun s => Ok (mkSensor s x y z)).

(** What may be passed where a time series is expected. *)
Inductive pyobj : Type :=
| ObjSeries (s : series)      (* an ActiveTimeSeries that is no Sensor1C *)
| ObjSensor (s : sensor)      (* a Sensor1C (hence an ActiveTimeSeries) *)
| ObjOther.                   (* anything else *)

(** Attribute names used in the `exclude` arguments. *)
Inductive attr : Set := A_dt | A_nstacks | A_delay | A_nsamples | A_x | A_y | A_z.
Definition attr_eqb (a b : attr) : bool :=
  match a, b with
  | A_dt, A_dt | A_nstacks, A_nstacks | A_delay, A_delay | A_nsamples, A_nsamples
  | A_x, A_x | A_y, A_y | A_z, A_z => true
  | _, _ => false
  end.
Definition excluded (ex : list attr) (a : attr) : bool := existsb (attr_eqb a) ex.

(** activetimeseries.py:393-399: the attribute loop of [_is_similar]. *)
Definition series_similar (ex : list attr) (s t : series) : bool :=
  (excluded ex A_dt || Qceqb (dt s) (dt t))
  && (excluded ex A_nstacks || (nstacks s =? nstacks t)%Z)
  && (excluded ex A_delay || Qceqb (delay s) (delay t))
  && (excluded ex A_nsamples || Nat.eqb (nsamples s) (nsamples t)).

(** activetimeseries.py:386-399 [ActiveTimeSeries._is_similar], with the
    isinstance test of line 391. *)
Definition is_similar (ex : list attr) (s : series) (o : pyobj) : bool :=
  match o with
  | ObjSeries t => series_similar ex s t
  | ObjSensor t => series_similar ex s (ser t)
  | ObjOther => false
  end.

(** sensor1c.py:274-291 [Sensor1C._is_similar]. *)
Definition sensor_similar (ex : list attr) (s t : sensor) : bool :=
  (excluded ex A_x || Qceqb (sx s) (sx t))
  && (excluded ex A_y || Qceqb (sy s) (sy t))
  && (excluded ex A_z || Qceqb (sz s) (sz t))
  && series_similar ex (ser s) (ser t).
Definition sensor_is_similar (ex : list attr) (s : sensor) (o : pyobj) : bool :=
  match o with
  | ObjSensor t => sensor_similar ex s t
  | _ => false
  end.

(** activetimeseries.py:145-149: the arithmetic of [stack_append].  Python's
    division by the sum of the stack counts is [Qcdiv]; the sum is never zero
    for objects built by the constructors (proved in SeriesProofs.v). *)
Definition stack_data (s t : series) : series :=
  let w := (nstacks s + nstacks t)%Z in
  mkSeries
    (map2 (fun a b => ((a * QcZ (nstacks s) + b * QcZ (nstacks t)) / QcZ w)%Qc)
          (amp s) (amp t))
    (dt s) w (delay s) (multiple s).

(** activetimeseries.py:121-149 [ActiveTimeSeries.stack_append]. *)
Definition stack_append (s : series) (o : pyobj) : series * result unit :=
  if is_similar [A_nstacks] s o then
    match o with
    | ObjSeries t => (stack_data s t, Ok tt)
    | ObjSensor t => (stack_data s (ser t), Ok tt)
    | ObjOther => (s, Err ValueError)         (* excluded by is_similar *)
    end
  else (s, Err ValueError).

(** The same inherited method on a Sensor1C, where `self._is_similar` is
    Sensor1C's. *)
Definition sensor_stack_append (s : sensor) (o : pyobj) : sensor * result unit :=
  if sensor_is_similar [A_nstacks] s o then
    match o with
    | ObjSensor t => (set_ser s (stack_data (ser s) (ser t)), Ok tt)
    | _ => (s, Err ValueError)
    end
  else (s, Err ValueError).

(** activetimeseries.py:151-156 [from_activetimeseries]: copies through the
    constructor, hence `_multiple` restarts at 1. *)
Definition copy_series (s : series) : result series :=
  new_series (amp s) (dt s) (nstacks s) (delay s).

(** sensor1c.py:54-64 [from_sensor1c]. *)
Definition copy_sensor (s : sensor) : result sensor :=
  new_sensor (amp (ser s)) (dt (ser s)) (sx s) (sy s) (sz s) (nstacks (ser s)) (delay (ser s)).

(** Python's min/max over a non-empty sequence (first extremum). *)
Definition lmin (a : Qc) (l : list Qc) : Qc := fold_left Qcmin2 l a.
Definition lmax (a : Qc) (l : list Qc) : Qc := fold_left Qcmax2 l a.

Definition argmin (l : list Qc) : result nat := argbest Qcltb l.
Definition argmax (l : list Qc) : result nat := argbest (fun a b => Qcltb b a) l.

(** sigpropy TimeSeries.trim (contract): refuses an interval that is reversed or
    exceeds the time vector, otherwise keeps the samples from the one nearest to
    [st] to the one nearest to [en], both included. *)
Definition base_trim (s : series) (st en : Qc) : series * result unit :=
  match time s with
  | [] => (s, Err ValueError)                       (* min() of empty sequence *)
  | t0 :: ts =>
      if Qcltb st (lmin t0 ts) || Qcltb en st || Qcltb (lmax t0 ts) en
      then (s, Err IndexError)
      else
        match argmin (map (fun t => Qcabs (t - st)%Qc) (time s)),
              argmin (map (fun t => Qcabs (t - en)%Qc) (time s)) with
        | Ok i, Ok j => (set_amp s (skipn i (firstn (j + 1) (amp s))), Ok tt)
        | Err e, _ => (s, Err e)
        | _, Err e => (s, Err e)
        end
  end.

(** activetimeseries.py:213-232 [trim]: sigpropy's trim, then
    `self._delay = start_time`. *)
Definition trim (s : series) (st en : Qc) : series * result unit :=
  match base_trim s st en with
  | (s', Err e) => (s', Err e)
  | (s', Ok _) => (mkSeries (amp s') (dt s') (nstacks s') st (multiple s'), Ok tt)
  end.

(** activetimeseries.py:287: np.concatenate((amp, np.zeros((1, padding)))).
    np.zeros refuses a negative dimension. *)
Definition append_zeros (s : series) (padding : Z) : series * result unit :=
  if (padding <? 0)%Z then (s, Err ValueError)
  else (set_amp s (amp s ++ repeat 0%Qc (Z.to_nat padding)), Ok tt).

(** activetimeseries.py:234-287 [zero_pad], branch by branch.  `_multiple` is
    reset before `df` is checked (line 258-260). `int(a/b)` is [Z.quot]. *)
Definition zero_pad (s : series) (df : Qc) : series * result unit :=
  let s1 := set_multiple s 1 in
  if Qcleb df 0%Qc then (s1, Err ValueError)
  else if Qceqb (df * dt s)%Qc 0%Qc then (s1, Err ZeroDivisionError)
  else
    let n := Z.of_nat (nsamples s) in
    let N := round_half_even (1 / (df * dt s))%Qc in
    if (n <? N)%Z then append_zeros s1 (N - n)
    else if (N <? n)%Z then
      if (N =? 0)%Z then (s1, Err ZeroDivisionError)
      else if (n mod N =? 0)%Z then (set_multiple s (Z.quot n N), Ok tt)
      else
        let padding := (N - n mod N)%Z in
        append_zeros (set_multiple s (Z.quot (n + padding) N)) padding
    else (s1, Ok tt).

(** Sensor1C inherits trim and zero_pad. *)
Definition sensor_trim (st en : Qc) (s : sensor) : sensor * result unit :=
  let (t, r) := trim (ser s) st en in (set_ser s t, r).
Definition sensor_zero_pad (df : Qc) (s : sensor) : sensor * result unit :=
  let (t, r) := zero_pad (ser s) df in (set_ser s t, r).

(** Sample [i] of a signal that is zero outside its record. *)
Definition sample (l : list Qc) (i : Z) : Qc :=
  if (i <? 0)%Z then 0%Qc else nth (Z.to_nat i) l 0%Qc.

(** scipy.signal.correlate(a, b, mode="full") (contract):
    z[k] = sum_l a[l] * b[l-k+M-1], k = 0 .. N+M-2; empty input gives an
    empty array. *)
Definition correlate (a b : list Qc) : list Qc :=
  let N := length a in let M := length b in
  match a, b with
  | [], _ | _, [] => []
  | _, _ =>
      map (fun k => Qcsum (map (fun l =>
             (nth l a 0 * sample b (Z.of_nat l - Z.of_nat k + Z.of_nat M - 1))%Qc) (range N)))
          (range (N + M - 1))
  end.

(** activetimeseries.py:289-319 [crosscorr] (mode left at its default). *)
Definition crosscorr (ex : list attr) (a b : series) : result (list Qc) :=
  if series_similar ex a b then Ok (correlate (amp a) (amp b)) else Err ValueError.

(** activetimeseries.py:345-352: shifting with zero fill. `b[:-shifts]` and
    `b[abs(shifts):]` are Python slices. *)
Definition shift_amp (k : Z) (b : list Qc) : list Qc :=
  if (0 <? k)%Z then repeat 0%Qc (Z.to_nat k) ++ pyslice None (Some (- k)%Z) b
  else if (k <? 0)%Z then pyslice (Some (Z.abs k)) None b ++ repeat 0%Qc (Z.to_nat (Z.abs k))
  else b.

(** activetimeseries.py:321-352 [crosscorr_shift]. *)
Definition crosscorr_shift (ex : list attr) (a b : series) : result (Z * list Qc) :=
  bind (crosscorr ex a b) (fun corr =>
  bind (argmax corr) (fun loc =>
    let k := (Z.of_nat loc + 1 - Z.of_nat (nsamples b))%Z in
    Ok (k, shift_amp k (amp b)))).

(** activetimeseries.py:354-384 [from_cross_stack] called on ActiveTimeSeries.
    (Called on Sensor1C it raises TypeError at line 377, since
    Sensor1C.from_activetimeseries requires x, y, z.) *)
Definition from_cross_stack (a b : series) : result series :=
  bind (copy_series a) (fun obj =>
  bind (copy_series b) (fun b_copy =>
  bind (crosscorr_shift [A_nsamples; A_nstacks] a b_copy) (fun ks =>
    match stack_append obj (ObjSeries (set_amp b_copy (snd ks))) with
    | (obj', Ok _) => Ok obj'
    | (_, Err e) => Err e
    end))).

(** np.allclose(a, b) with its defaults: |a-b| <= atol + rtol*|b|.
    Simplification: atol = 10^-8 and rtol = 10^-5 exactly. *)
Definition atol : Qc := Q2Qc (1 # 100000000).
Definition rtol : Qc := Q2Qc (1 # 100000).
Definition isclose (a b : Qc) : bool := Qcleb (Qcabs (a - b)) (atol + rtol * Qcabs b)%Qc.
Definition allclose (a b : list Qc) : bool := forallb (fun x => x) (map2 isclose a b).

(** activetimeseries.py:401-409 [__eq__]; sensor1c.py:293-298. *)
Definition series_eq (s : series) (o : pyobj) : bool :=
  is_similar [] s o &&
  match o with
  | ObjSeries t => allclose (amp s) (amp t)
  | ObjSensor t => allclose (amp s) (amp (ser t))
  | ObjOther => false
  end.
Definition sensor_eq (s : sensor) (o : pyobj) : bool :=
  sensor_is_similar [] s o &&
  match o with
  | ObjSensor t => allclose (amp (ser s)) (amp (ser t))
  | _ => false
  end.
