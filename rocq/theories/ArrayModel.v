(* Model of /repo/swprocess/array1d.py (in-memory operations) and
   /repo/swprocess/source.py. *)
From Verif Require Export SeriesModel Flt Detrend.

(** source.py:23-59: a position. *)
Record source : Type := mkSource { src_x : Qc; src_y : Qc; src_z : Qc }.
(** source.py:64-71 [__eq__] between two sources. *)
Definition source_eq (a b : source) : bool :=
  Qceqb (src_x a) (src_x b) && Qceqb (src_y a) (src_y b) && Qceqb (src_z a) (src_z b).

(** array1d.py:36-84: attributes `sensors` and `source`. *)
Record array : Type := mkArray { sensors : list sensor; src : source }.
Definition set_sensors (a : array) (l : list sensor) : array := mkArray l (src a).

(** array1d.py:54-59: the checks of [_check_array], sensor by sensor;
    [positions] is the list built so far. *)
Fixpoint check_sensors (example : sensor) (positions : list Qc) (l : list sensor)
  : result unit :=
  match l with
  | [] => Ok tt
  | s :: t =>
      if negb (sensor_similar [A_x; A_y; A_z] example s) then Err ValueError
      else if existsb (Qceqb (sx s)) positions then Err ValueError
      else check_sensors example (positions ++ [sx s]) t
  end.

(** array1d.py:61-63: np.argsort of the positions; insertion sort by x.
    (positions are distinct here, so stability is irrelevant) *)
Fixpoint insert_sensor (s : sensor) (l : list sensor) : list sensor :=
  match l with
  | [] => [s]
  | t :: l' => if Qcltb (sx t) (sx s) then t :: insert_sensor s l' else s :: l
  end.
Definition sort_sensors (l : list sensor) : list sensor :=
  fold_right insert_sensor [] l.

(** array1d.py:48-65 [_check_array] and 67-84 [__init__]; `sensors[0]` of an
    empty list raises IndexError. *)
Definition new_array (l : list sensor) (s : source) : result array :=
  match l with
  | [] => Err IndexError
  | e :: t => bind (check_sensors e [sx e] t) (fun _ => Ok (mkArray (sort_sensors l) s))
  end.

(** array1d.py:119-133 [position]. *)
Definition position (a : array) : list Qc := map sx (sensors a).
Definition position_normalized (a : array) : result (list Qc) :=
  match sensors a with
  | [] => Err IndexError
  | s0 :: _ => Ok (map (fun s => (sx s - sx s0)%Qc) (sensors a))
  end.

(** array1d.py:135-142 [offsets]. *)
Definition offset_of (a : array) (s : sensor) : Qc := Qcabs (src_x (src a) - sx s).
Definition offsets (a : array) : list Qc := map (offset_of a) (sensors a).

(** array1d.py:149-152 [nchannels]. *)
Definition nchannels (a : array) : nat := length (sensors a).

(** np.diff *)
Fixpoint diffs (l : list Qc) : list Qc :=
  match l with
  | a :: ((b :: _) as t) => (b - a)%Qc :: diffs t
  | _ => []
  end.

(** round(x, 2) *)
Definition round2 (x : Qc) : Qc := (QcZ (round_half_even (x * Q2Qc 100)) / Q2Qc 100)%Qc.

(** array1d.py:158-166 [spacing]; min() of an empty sequence raises ValueError. *)
Definition spacing (a : array) : result Qc :=
  match diffs (position a) with
  | [] => Err ValueError
  | d :: t =>
      if Qcltb (lmax d t - lmin d t)%Qc (Q2Qc (1 # 100)) then Ok (round2 (lmin d t))
      else Err ValueError
  end.

(** array1d.py:168-172 [_source_inside]; `position[0]` of an empty list would
    raise, arrays are never empty. *)
Definition first_x (a : array) : Qc := hd 0%Qc (position a).
Definition last_x (a : array) : Qc := last (position a) 0%Qc.
Definition source_inside (a : array) : bool :=
  Qcltb (first_x a) (src_x (src a)) && Qcltb (src_x (src a)) (last_x a).

(** array1d.py:238-240 [_flip_required]. *)
Definition flip_required (a : array) : bool := Qcltb (last_x a) (src_x (src a)).

(** array1d.py:174-190 [trim]: sensor after sensor. *)
Definition array_trim (a : array) (st en : Qc) : array * result unit :=
  let (l, r) := for_each (sensor_trim st en) (sensors a) in (set_sensors a l, r).

(** array1d.py:221-236 [zero_pad]. *)
Definition array_zero_pad (a : array) (df : Qc) : array * result unit :=
  let (l, r) := for_each (sensor_zero_pad df) (sensors a) in (set_sensors a l, r).

(** array1d.py:206-212: the loop of [trim_offsets], with its `break`. *)
Fixpoint trim_offsets_loop {A} (mn mx : Qc) (l : list (Qc * A)) : list A :=
  match l with
  | [] => []
  | (o, s) :: t =>
      let here := if Qcltb mn o && Qcltb o mx then [s] else [] in
      if Qcltb mx o then here else here ++ trim_offsets_loop mn mx t
  end.
(** array1d.py:192-219 [trim_offsets]. *)
Definition trim_offsets (a : array) (mn mx : Qc) : array * result unit :=
  match trim_offsets_loop mn mx (combine (offsets a) (sensors a)) with
  | [] => (a, Err ValueError)
  | l => (set_sensors a l, Ok tt)
  end.

(** maswworkflows.py:64-67: detrend every sensor in place. *)
Definition detrend_sensor (s : sensor) : sensor :=
  set_ser s (set_amp (ser s) (detrend (amp (ser s)))).
Definition array_detrend (a : array) : array :=
  set_sensors a (map detrend_sensor (sensors a)).

(** ** Mute, array1d.py:541-598 *)

(** Two points (distance, time) defining a line. *)
Definition line : Type := ((Qc * Qc) * (Qc * Qc))%type.

(** array1d.py:569-574 / 578-583: index of the line for each trace,
    np.array(times/dt + ndelay, dtype=int) truncates towards zero; a vertical
    line divides by zero. *)
Definition line_time (l : line) (x : Qc) : Qc :=
  let '((x1, t1), (x2, t2)) := l in
  (t1 + (t2 - t1) / (x2 - x1) * (x - x1))%Qc.
Definition line_indices (l : line) (dt ndelay : Qc) (pos : list Qc) : result (list Z) :=
  let '((x1, _), (x2, _)) := l in
  if Qceqb (x2 - x1)%Qc 0%Qc then Err ZeroDivisionError
  else Ok (map (fun x => trunc (line_time l x / dt + ndelay)%Qc) pos).

(** numpy `w[lo:hi] = arr`: the array must have the length of the slice or
    length one (broadcast). *)
Definition set_slice (w : list Qc) (lo hi : Z) (arr : list Qc) : result (list Qc) :=
  let a := clip_index (length w) lo in
  let b := clip_index (length w) hi in
  let len := b - a in
  if Nat.eqb (length arr) len then Ok (firstn a w ++ arr ++ skipn (a + len) w)
  else match arr with
       | [v] => Ok (firstn a w ++ repeat v len ++ skipn (a + len) w)
       | _ => Err ValueError
       end.

(** scipy.signal.windows.tukey(M, **window_kwargs): refused for negative M.
    [taper] is the window of length M >= 0 determined by window_kwargs. *)
Definition tukey (taper : nat -> list Qc) (M : Z) : result (list Qc) :=
  if (M <? 0)%Z then Err ValueError else Ok (taper (Z.to_nat M)).

(** numpy `amp *= w` in place: the factors must have the length of the samples or
    length one (broadcast). *)
Definition scale_by (l w : list Qc) : result (list Qc) :=
  if Nat.eqb (length w) (length l) then Ok (map2 Qcmult l w)
  else match w with
       | [v] => Ok (map (fun x => (x * v)%Qc) l)
       | _ => Err ValueError
       end.

(** array1d.py:593-598: one trace. *)
Definition mute_sensor (taper : nat -> list Qc) (n : nat) (start stop : Z) (s : sensor)
  : sensor * result unit :=
  match bind (bind (tukey taper (stop - start)) (set_slice (repeat 0%Qc n) start stop))
             (scale_by (amp (ser s))) with
  | Err e => (s, Err e)
  | Ok l => (set_ser s (set_amp (ser s) l), Ok tt)
  end.
Fixpoint mute_loop (taper : nat -> list Qc) (n : nat) (idx : list (Z * Z)) (l : list sensor)
  : list sensor * result unit :=
  match idx, l with
  | (a, b) :: idx', s :: t =>
      match mute_sensor taper n a b s with
      | (s', Err e) => (s' :: t, Err e)
      | (s', Ok _) => let (t', r) := mute_loop taper n idx' t in (s' :: t', r)
      end
  | _, _ => (l, Ok tt)
  end.

(** array1d.py:541-598 [mute].  `ndelay = abs(delay/dt)` as written; the window has
    the length of the first trace. *)
Definition mute (a : array) (taper : nat -> list Qc) (ss se : option line)
  : array * result unit :=
  match sensors a with
  | [] => (a, Err IndexError)
  | s0 :: _ =>
      let d := dt (ser s0) in
      if Qceqb d 0%Qc then (a, Err ZeroDivisionError)
      else
        let ndelay := Qcabs (delay (ser s0) / d)%Qc in
        let n := nsamples (ser s0) in
        let pos := position a in
        let starts := match ss with
                      | Some l => line_indices l d ndelay pos
                      | None => Ok (map (fun _ => 0%Z) pos)
                      end in
        let stops := match se with
                     | Some l => line_indices l d ndelay pos
                     | None => Ok (map (fun _ => (Z.of_nat n - 1)%Z) pos)
                     end in
        match bind starts (fun i => bind stops (fun j => Ok (combine i j))) with
        | Err e => (a, Err e)
        | Ok idx => let (l, r) := mute_loop taper n idx (sensors a) in (set_sensors a l, r)
        end
  end.

(** ** Matrices *)

(** The normalisation argument of [timeseriesmatrix]; any other string behaves
    like "none". *)
Inductive norm_mode : Set := NormNone | NormEach | NormAll.

Definition absmax (l : list Qc) : result Qc :=
  match l with [] => Err ValueError | a :: t => Ok (lmax (Qcabs a) (map Qcabs t)) end.
Definition normalize_row (m : Qc) (l : list Qc) : list flt :=
  map (fun v => fdiv (Fin v) (Fin m)) l.

(** array1d.py:107-112: one row. *)
Definition tsm_row (dtr : bool) (norm : norm_mode) (s : sensor) : result (list flt) :=
  let l := if dtr then detrend (amp (ser s)) else amp (ser s) in
  match norm with
  | NormEach => bind (absmax l) (fun m => Ok (normalize_row m l))
  | _ => Ok (map Fin l)
  end.
(** array1d.py:86-117 [timeseriesmatrix].  np.max of an empty matrix raises
    ValueError. *)
Definition timeseriesmatrix (a : array) (dtr : bool) (norm : norm_mode)
  : result (list (list flt)) :=
  match sensors a with
  | [] => Err IndexError
  | _ =>
    bind (mapM (tsm_row dtr norm) (sensors a)) (fun m =>
      match norm with
      | NormAll =>
          bind (fmax (concat (map (map fabs) m))) (fun mx =>
            Ok (map (map (fun v => fdiv v mx)) m))
      | _ => Ok m
      end)
  end.

(** array1d.py:600-609 [_flipped_tseries_and_offsets]. *)
Definition flipped (a : array) : list (list Qc) * list Qc :=
  let m := map (fun s => amp (ser s)) (sensors a) in
  if flip_required a then (rev m, rev (offsets a)) else (m, offsets a).

(** array1d.py:738-746 [from_array1d]. *)
Definition copy_array (a : array) : result array :=
  bind (mapM copy_sensor (sensors a)) (fun l => new_array l (src a)).

(** array1d.py:791-800 [is_similar] and 802-811 [__eq__] between two arrays. *)
Definition array_similar (a b : array) : bool :=
  Nat.eqb (nchannels a) (nchannels b) && source_eq (src a) (src b).
Definition array_eq (a b : array) : bool :=
  array_similar a b &&
  forallb (fun x => x) (map2 (fun s t => sensor_eq s (ObjSensor t)) (sensors a) (sensors b)).

(** array1d.py:421-439 [_pick_on_threshold]: first sample whose distance from
    the mean of the first ten samples exceeds the threshold; IndexError when
    there is none. *)
Fixpoint first_index {A} (p : A -> bool) (i : nat) (l : list A) : result nat :=
  match l with
  | [] => Err IndexError
  | a :: t => if p a then Ok i else first_index p (S i) t
  end.
Definition fmean (l : list flt) : flt :=
  fdiv (fold_left fadd l f0) (Fin (QcN (length l))).
Definition pick_trace (thr : Qc) (trace : list flt) : result nat :=
  let m := fmean (firstn 10 trace) in
  first_index (fun v => flt_lt (Fin thr) (fabs (fsub v m))) 0 trace.
Definition pick_on_threshold (a : array) (thr : Qc) : result (list Qc * list Qc) :=
  bind (timeseriesmatrix a true NormEach) (fun m =>
  bind (mapM (fun tr => bind (pick_trace thr tr) (fun i =>
          match sensors a with
          | [] => Err IndexError
          | s0 :: _ => pyget (time (ser s0)) (Z.of_nat i)
          end)) m) (fun ts => Ok (position a, ts))).

(** ** Arrays with a source signal, array1d.py:818-879 *)

(** array1d.py:845-879 [xcorrelate]: the slice of the correlation that is kept.
    [srcamp], [srcdt] are the source signal; `int()` truncates. *)
Definition xcorr_bounds (srcn : nat) (srcdt minoff maxoff vmin vmax : Qc) : result (Z * Z) :=
  if Qceqb vmax 0%Qc || Qceqb vmin 0%Qc || Qceqb srcdt 0%Qc then Err ZeroDivisionError
  else
    let lo := trunc ((minoff / vmax - Q2Qc (1 # 2)) / srcdt)%Qc in
    let hi := trunc (maxoff / vmin / srcdt)%Qc in
    Ok (Z.of_nat srcn + lo, Z.of_nat srcn + hi)%Z.

Definition xcorrelate (a : array) (srcamp : list Qc) (srcdt : Qc) (vmin vmax : Qc)
  : array * result unit :=
  match offsets a with
  | [] => (a, Err ValueError)
  | o :: os =>
      match xcorr_bounds (length srcamp) srcdt (lmin o os) (lmax o os) vmin vmax with
      | Err e => (a, Err e)
      | Ok (lo, hi) =>
          match mapM (fun s =>
                  new_sensor (pyslice (Some lo) (Some hi) (correlate (amp (ser s)) srcamp))
                             (dt (ser s)) (sx s) (sy s) (sz s) (nstacks (ser s)) 0%Qc)
                (sensors a) with
          | Err e => (a, Err e)
          | Ok l => (set_sensors a l, Ok tt)
          end
      end
  end.
(** array1d.py:850-854: default velocities. *)
Definition xcorr_default_vmin : Qc := Q2Qc 50.
Definition xcorr_default_vmax : Qc := Q2Qc 3000.
