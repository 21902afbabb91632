(* Independent vocabulary for the properties of time records. *)
From Verif Require Import SeriesModel NumFacts.

(** Mean of values weighted by (positive) stack counts. *)
Definition weighted_mean (l : list (Z * Qc)) : Qc :=
  (Qcsum (map (fun p => QcZ (fst p) * snd p)%Qc l) / QcZ (fold_right Z.add 0%Z (map fst l)))%Qc.

(** Two records can be averaged. *)
Definition compatible (s t : series) : Prop :=
  dt s = dt t /\ delay s = delay t /\ length (amp s) = length (amp t).

(** Stack a list of records one after the other (a Python for loop). *)
Fixpoint stack_all (s : series) (ts : list series) : series * result unit :=
  match ts with
  | [] => (s, Ok tt)
  | t :: ts' => match stack_append s (ObjSeries t) with
                | (s', Ok _) => stack_all s' ts'
                | (s', Err e) => (s', Err e)
                end
  end.

(** Everything the user can do to a single record in place. *)
Inductive series_op : Type :=
| OpTrim (st en : Qc)
| OpPad (df : Qc)
| OpStack (t : pyobj).
Definition series_step (s : series) (o : series_op) : series :=
  match o with
  | OpTrim a b => fst (trim s a b)
  | OpPad df => fst (zero_pad s df)
  | OpStack t => fst (stack_append s t)
  end.
(** The state after a history; calls that raise are caught by the user and
    leave whatever state they leave. *)
Definition series_run (s : series) (ops : list series_op) : series :=
  fold_left series_step ops s.

(** [b] delayed by [k] samples: what sample [i] of the shifted record must be. *)
Definition delayed (k : Z) (b : list Qc) (i : nat) : Qc := sample b (Z.of_nat i - k).
(** Inner product of [a] with the delayed [b]. *)
Definition similarity (a b : list Qc) (k : Z) : Qc :=
  Qcsum (map (fun i => nth i a 0%Qc * delayed k b i)%Qc (seq 0 (length a))).

(** Time of sample [i]. *)
Definition time_at (s : series) (i : nat) : Qc := (QcN i * dt s + delay s)%Qc.

(** [o] can be averaged onto the record [s] / the sensor [s]. *)
Definition compatible_obj (s : series) (o : pyobj) : Prop :=
  match o with
  | ObjSeries t => compatible s t
  | ObjSensor t => compatible s (ser t)
  | ObjOther => False
  end.
Definition compatible_sensor_obj (s : sensor) (o : pyobj) : Prop :=
  match o with
  | ObjSensor t => sx s = sx t /\ sy s = sy t /\ sz s = sz t /\ compatible (ser s) (ser t)
  | _ => False
  end.

(** Sum of the stack counts. *)
Definition total_stacks (l : list series) : Z := fold_right Z.add 0%Z (map nstacks l).

(** A history of zero_pad calls (exceptions caught by the caller). *)
Definition pads (s : series) (dfs : list Qc) : series :=
  fold_left (fun s df => fst (zero_pad s df)) dfs s.

(** [i] is the first sample nearest to time [t]. *)
Definition nearest_sample (s : series) (t : Qc) (i : nat) : Prop :=
  i < length (amp s) /\
  (forall k, k < length (amp s) -> (Qcabs (time_at s i - t) <= Qcabs (time_at s k - t))%Qc) /\
  (forall k, k < i -> (Qcabs (time_at s i - t) < Qcabs (time_at s k - t))%Qc).

(** The requested interval lies inside the record. *)
Definition in_span (s : series) (st en : Qc) : Prop :=
  (time_at s 0 <= st)%Qc /\ (st <= en)%Qc /\ (en <= time_at s (length (amp s) - 1))%Qc.

(** Objects built by the constructors have a stack count of at least one. *)
Definition obj_valid (o : pyobj) : Prop :=
  match o with
  | ObjSeries t => (1 <= nstacks t)%Z
  | ObjSensor t => (1 <= nstacks (ser t))%Z
  | ObjOther => True
  end.
Definition op_valid (o : series_op) : Prop :=
  match o with OpStack t => obj_valid t | _ => True end.

(** A record built by the constructor and then modified by any history. *)
Definition reachable (s : series) : Prop :=
  exists a d n de s0 ops, new_series a d n de = Ok s0 /\ (0 < d)%Qc /\
    Forall op_valid ops /\ s = series_run s0 ops.
(** [c] is a faithful copy of [s], as far as a user can observe. *)
Definition faithful_copy (s c : series) : Prop :=
  amp c = amp s /\ dt c = dt s /\ nstacks c = nstacks s /\ delay c = delay s /\
  user_df c = user_df s.
