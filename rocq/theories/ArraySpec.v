(* Independent vocabulary for the properties of arrays. *)
From Verif Require Import SeriesModel SeriesSpec NumFacts ArrayModel.
From Coq Require Export Sorting.Sorted Sorting.Permutation.

(** Two sensors can live in the same array. *)
Definition agree (s t : sensor) : Prop :=
  dt (ser s) = dt (ser t) /\ nstacks (ser s) = nstacks (ser t) /\
  delay (ser s) = delay (ser t) /\ length (amp (ser s)) = length (amp (ser t)).

Definition increasing (l : list Qc) : Prop := StronglySorted (fun a b => (a < b)%Qc) l.

(** Non-empty, strictly increasing x, mutually agreeing sensors. *)
Definition consistent (a : array) : Prop :=
  sensors a <> [] /\ increasing (map sx (sensors a)) /\
  (forall s t, In s (sensors a) -> In t (sensors a) -> agree s t).

(** All sensors report the same (user-facing) frequency step. *)
Definition same_step (a : array) : Prop :=
  forall s t, In s (sensors a) -> In t (sensors a) -> user_df (ser s) = user_df (ser t).

(** Everything the user can do to an array in place. *)
Inductive array_op : Type :=
| ArrTrim (st en : Qc)
| ArrOffsets (mn mx : Qc)
| ArrPad (df : Qc)
| ArrMute (taper : nat -> list Qc) (ss se : option line)
| ArrDetrend.
Definition array_call (a : array) (o : array_op) : array * result unit :=
  match o with
  | ArrTrim st en => array_trim a st en
  | ArrOffsets mn mx => trim_offsets a mn mx
  | ArrPad df => array_zero_pad a df
  | ArrMute w ss se => mute a w ss se
  | ArrDetrend => (array_detrend a, Ok tt)
  end.
(** The state after a history; exceptions are caught by the user. *)
Definition array_run (a : array) (ops : list array_op) : array :=
  fold_left (fun a o => fst (array_call a o)) ops a.
(** No zero_pad call of the history raised. *)
Fixpoint pads_succeed (a : array) (ops : list array_op) : Prop :=
  match ops with
  | [] => True
  | o :: t => (match o with ArrPad _ => snd (array_call a o) = Ok tt | _ => True end) /\
              pads_succeed (fst (array_call a o)) t
  end.

(** Distance between the source and a sensor. *)
Definition dist (a : array) (s : sensor) : Qc := Qcabs (sx s - src_x (src a)).

(** [f] picked the elements of [l] satisfying [p], in order. *)
Definition kept {A} (p : A -> bool) (l l' : list A) : Prop := l' = filter p l.

(** The time at which the straight line through two points crosses x. *)
Definition on_line (l : line) (x t : Qc) : Prop :=
  let '((x1, t1), (x2, t2)) := l in ((t - t1) * (x2 - x1) = (t2 - t1) * (x - x1))%Qc.
Definition slanted (l : line) : Prop := let '((x1, _), (x2, _)) := l in x1 <> x2.

(** Arrays a user can obtain: the constructor, then any history. *)
Definition sensor_ok (s : sensor) : Prop :=
  (1 <= nstacks (ser s))%Z /\ (delay (ser s) <= 0)%Qc /\ (0 < dt (ser s))%Qc /\
  multiple (ser s) = 1%Z /\ amp (ser s) <> [].
Definition array_reachable (a : array) : Prop :=
  exists l s a0 ops, Forall sensor_ok l /\ new_array l s = Ok a0 /\ a = array_run a0 ops.

(** Only the samples of [s'] may differ from those of [s]. *)
Definition only_samples_change (s s' : sensor) : Prop :=
  sx s' = sx s /\ sy s' = sy s /\ sz s' = sz s /\ dt (ser s') = dt (ser s) /\
  nstacks (ser s') = nstacks (ser s) /\ delay (ser s') = delay (ser s) /\
  multiple (ser s') = multiple (ser s) /\ length (amp (ser s')) = length (amp (ser s)).

(** [m] is the largest magnitude in [l]. *)
Definition largest_magnitude (l : list Qc) (m : Qc) : Prop :=
  (exists v, In v l /\ Qcabs v = m) /\ (forall v, In v l -> (Qcabs v <= m)%Qc).

(** The signal window [ts, te) of sensor [s] meant by the two lines.  A missing
    start line means the first sample; a missing end line means, as coded, the
    time of the last sample. *)
Definition mute_window (ss se : option line) (s : sensor) (ts te : Qc) : Prop :=
  match ss with
  | Some l => slanted l /\ on_line l (sx s) ts
  | None => ts = delay (ser s)
  end /\
  match se with
  | Some l => slanted l /\ on_line l (sx s) te
  | None => te = time_at (ser s) (length (amp (ser s)) - 1)
  end.
(** The window lies inside the record. *)
Definition window_fits (s : sensor) (ts te : Qc) : Prop :=
  (delay (ser s) <= ts)%Qc /\ (ts <= te)%Qc /\ (te <= time_at (ser s) (length (amp (ser s))))%Qc.
(** The sample interval [i] contains the time [t]. *)
Definition at_sample (s : sensor) (t : Qc) (i : nat) : Prop :=
  (time_at (ser s) i <= t)%Qc /\ (t < time_at (ser s) (S i))%Qc.
(** The muted record: taper inside, zeros outside. *)
Definition muted (taper : nat -> list Qc) (s s' : sensor) (i0 i1 : nat) : Prop :=
  forall i, i < length (amp (ser s)) ->
    nth i (amp (ser s')) 0%Qc =
    if (i0 <=? i) && (i <? i1) then (nth i (amp (ser s)) 0 * nth (i - i0)%nat (taper (i1 - i0)%nat) 0)%Qc
    else 0%Qc.

(** First arrival: the first sample whose normalised distance from the mean of
    the first ten samples exceeds the threshold. *)
Definition exceeds (d : list Qc) (m thr : Qc) (i : nat) : Prop :=
  (thr < Qcabs (nth i d 0 / m - mean (map (fun v => v / m) (firstn 10 d))))%Qc.
Definition first_exceeding (d : list Qc) (m thr : Qc) (i : nat) : Prop :=
  i < length d /\ exceeds d m thr i /\ forall j, j < i -> ~ exceeds d m thr j.

(** The lag, in samples, at which the kept part of a cross-correlation is meant
    to start and to end. *)
Definition intended_first_lag (srcdt minoff vmax : Qc) : Z :=
  trunc ((minoff / vmax - Q2Qc (1 # 2)) / srcdt)%Qc.
Definition intended_end_lag (srcdt maxoff vmin : Qc) : Z := trunc (maxoff / vmin / srcdt)%Qc.
(** Smallest and largest source-receiver distance. *)
Definition nearest_offset (a : array) (o : Qc) : Prop :=
  (exists s, In s (sensors a) /\ dist a s = o) /\ forall s, In s (sensors a) -> (o <= dist a s)%Qc.
Definition farthest_offset (a : array) (o : Qc) : Prop :=
  (exists s, In s (sensors a) /\ dist a s = o) /\ forall s, In s (sensors a) -> (dist a s <= o)%Qc.
