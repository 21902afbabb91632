(* Sensors and arrays as Python objects: /repo/swprocess/array1d.py and sensor1c.py,
   with the question which arrays hold which sensor.  An Array1D keeps references to
   the sensors it was given (array1d.py:62-63, 84); its methods change these objects.

   Assumed of sigpropy, which is not part of /repo: TimeSeries.__init__ stores a fresh
   array of doubles, so two sensors never share their samples.  Source positions have no
   setter (source.py:35-45), hence sources are values here. *)
From Verif Require Export ArrayModel.

(** An array: the sensors it refers to, in order, and its source. *)
Record array_obj : Type := mkArrayObj { held : list nat; held_source : source }.
(** All sensors and all arrays made so far, in the order of their making; a sensor is
    named by its index. *)
Record memory : Type := mkMemory { cells : list sensor; arrays : list array_obj }.
Definition empty_memory : memory := mkMemory [] [].

Definition no_sensor : sensor := mkSensor (mkSeries [] 1%Qc 1 0%Qc 1) 0%Qc 0%Qc 0%Qc.
Definition no_array : array_obj := mkArrayObj [] (mkSource 0%Qc 0%Qc 0%Qc).
Definition cell (w : memory) (r : nat) : sensor := nth r (cells w) no_sensor.
Definition array_at (w : memory) (i : nat) : array_obj := nth i (arrays w) no_array.
(** What the array shows now. *)
Definition seen (w : memory) (i : nat) : array :=
  mkArray (map (cell w) (held (array_at w i))) (held_source (array_at w i)).

Fixpoint replace_at {A} (n : nat) (a : A) (l : list A) : list A :=
  match l, n with
  | [], _ => []
  | _ :: t, O => a :: t
  | b :: t, S n' => b :: replace_at n' a t
  end.
(** Give the objects [rs] the states [vs]. *)
Fixpoint store_all (rs : list nat) (vs : list sensor) (l : list sensor) : list sensor :=
  match rs, vs with
  | r :: rs', v :: vs' => store_all rs' vs' (replace_at r v l)
  | _, _ => l
  end.

(** The methods of an array that change it. *)
Inductive method : Type :=
| Trim (st en : Qc)                                        (* array1d.py:174-190 *)
| ZeroPad (df : Qc)                                        (* array1d.py:221-236 *)
| Mute (taper : nat -> list Qc) (ss se : option line)      (* array1d.py:541-598 *)
| DetrendEach                                              (* maswworkflows.py:64-67 *)
| TrimOffsets (mn mx : Qc)                                 (* array1d.py:192-219 *)
| Correlate (srcamp : list Qc) (srcdt vmin vmax : Qc).     (* array1d.py:845-879 *)
Definition call (a : array) (m : method) : array * result unit :=
  match m with
  | Trim st en => array_trim a st en
  | ZeroPad df => array_zero_pad a df
  | Mute taper ss se => mute a taper ss se
  | DetrendEach => (array_detrend a, Ok tt)
  | TrimOffsets mn mx => trim_offsets a mn mx
  | Correlate srcamp srcdt vmin vmax => xcorrelate a srcamp srcdt vmin vmax
  end.

(** array1d.py:61-63: the references in the order of the positions. *)
Fixpoint insert_ref (x : nat -> Qc) (r : nat) (l : list nat) : list nat :=
  match l with
  | [] => [r]
  | t :: l' => if Qcltb (x t) (x r) then t :: insert_ref x r l' else r :: l
  end.
Definition sort_refs (x : nat -> Qc) (l : list nat) : list nat := fold_right (insert_ref x) [] l.

(** One statement of a program. *)
Inductive deed : Type :=
| MakeSensor (a : list Qc) (d x y z : Qc) (ns : Z) (de : Qc)   (* sensor1c.py:37-40 *)
| CopySensor (r : nat)                                         (* sensor1c.py:54-65 *)
| MakeArray (rs : list nat) (s : source)                       (* array1d.py:67-84 *)
| CopyArray (i : nat)                                          (* array1d.py:738-746 *)
| OnArray (i : nat) (m : method)
| SensorTrim (r : nat) (st en : Qc)                            (* activetimeseries.py:213-232 *)
| SensorPad (r : nat) (df : Qc)                                (* activetimeseries.py:234-287 *)
| SensorAppend (r r' : nat).                                   (* activetimeseries.py:121-149 *)

Definition existing (w : memory) (d : deed) : bool :=
  let s r := r <? length (cells w) in
  let a i := i <? length (arrays w) in
  match d with
  | MakeSensor _ _ _ _ _ _ _ => true
  | CopySensor r | SensorTrim r _ _ | SensorPad r _ => s r
  | SensorAppend r r' => s r && s r'
  | MakeArray rs _ => forallb s rs
  | CopyArray i | OnArray i _ => a i
  end.

Definition add_cells (w : memory) (l : list sensor) : memory := mkMemory (cells w ++ l) (arrays w).
Definition add_array (w : memory) (o : array_obj) : memory := mkMemory (cells w) (arrays w ++ [o]).
Definition set_cell (w : memory) (r : nat) (s : sensor) : memory :=
  mkMemory (replace_at r s (cells w)) (arrays w).
Definition set_held (w : memory) (i : nat) (l : list nat) : memory :=
  mkMemory (cells w) (replace_at i (mkArrayObj l (held_source (array_at w i))) (arrays w)).

(** Array1D(sensors, source), array1d.py:48-84: a new array of existing objects. *)
Definition make_array (w : memory) (rs : list nat) (s : source) : memory * result unit :=
  match new_array (map (cell w) rs) s with
  | Err e => (w, Err e)
  | Ok _ => (add_array w (mkArrayObj (sort_refs (fun r => sx (cell w r)) rs) s), Ok tt)
  end.

(** A method call: [trim_offsets] and [xcorrelate] give `self.sensors` a new list, of
    some of the old objects and of new ones; the others change the objects. *)
Definition call_method (w : memory) (i : nat) (m : method) : memory * result unit :=
  match m with
  | TrimOffsets mn mx =>
      match trim_offsets_loop mn mx (combine (offsets (seen w i)) (held (array_at w i))) with
      | [] => (w, Err ValueError)
      | l => (set_held w i l, Ok tt)
      end
  | Correlate _ _ _ _ =>
      match call (seen w i) m with
      | (_, Err e) => (w, Err e)
      | (a', Ok _) =>
          (set_held (add_cells w (sensors a')) i (seq (length (cells w)) (length (sensors a'))), Ok tt)
      end
  | _ =>
      let (a', r) := call (seen w i) m in
      (mkMemory (store_all (held (array_at w i)) (sensors a') (cells w)) (arrays w), r)
  end.

(** A statement that names no existing object does nothing. *)
Definition perform (w : memory) (d : deed) : memory * result unit :=
  if negb (existing w d) then (w, Err UnboundLocalError)
  else match d with
  | MakeSensor a d x y z ns de =>
      match new_sensor a d x y z ns de with
      | Err e => (w, Err e)
      | Ok s => (add_cells w [s], Ok tt)
      end
  | CopySensor r =>
      match copy_sensor (cell w r) with
      | Err e => (w, Err e)
      | Ok s => (add_cells w [s], Ok tt)
      end
  | MakeArray rs s => make_array w rs s
  | CopyArray i =>
      match mapM copy_sensor (sensors (seen w i)) with
      | Err e => (w, Err e)
      | Ok l =>
          match make_array (add_cells w l) (seq (length (cells w)) (length l)) (held_source (array_at w i)) with
          | (_, Err e) => (w, Err e)
          | ok => ok
          end
      end
  | OnArray i m => call_method w i m
  | SensorTrim r st en => let (s, res) := sensor_trim st en (cell w r) in (set_cell w r s, res)
  | SensorPad r df => let (s, res) := sensor_zero_pad df (cell w r) in (set_cell w r s, res)
  | SensorAppend r r' =>
      let (s, res) := sensor_stack_append (cell w r) (ObjSensor (cell w r')) in (set_cell w r s, res)
  end.
(** A program; exceptions are caught. *)
Definition run (w : memory) (l : list deed) : memory := fold_left (fun w d => fst (perform w d)) l w.

(** array1d.py:86-117 [timeseriesmatrix] for sensors that need not agree: the matrix has
    the length of the first record, and numpy fills a row only with as many values or
    with one (detrend and normalisation as in [ArrayModel.timeseriesmatrix]). *)
Definition fill_row (n : nat) (row : list flt) : result (list flt) :=
  if Nat.eqb (length row) n then Ok row
  else match row with
       | [v] => Ok (repeat v n)
       | _ => Err ValueError
       end.
Definition matrix_of (a : array) (dtr : bool) (norm : norm_mode) : result (list (list flt)) :=
  match sensors a with
  | [] => Err IndexError
  | s0 :: _ =>
    bind (mapM (fun s => bind (tsm_row dtr norm s) (fill_row (nsamples (ser s0)))) (sensors a)) (fun m =>
      match norm with
      | NormAll =>
          bind (fmax (concat (map (map fabs) m))) (fun mx =>
            Ok (map (map (fun v => fdiv v mx)) m))
      | _ => Ok m
      end)
  end.
