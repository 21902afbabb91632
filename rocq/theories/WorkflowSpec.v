(* Independent vocabulary for the workflow properties. *)
From Verif Require Import WorkflowModel ArraySpec.
Local Open Scope string_scope.
Local Open Scope nat_scope.
Local Open Scope list_scope.
Local Open Scope py_scope.

(** The source is strictly between two receivers. *)
Definition surrounded (a : array) : Prop :=
  exists s t, In s (sensors a) /\ In t (sensors a) /\ (sx s < src_x (src a))%Qc /\ (src_x (src a) < sx t)%Qc.

(** ** The documented steps *)
Inductive action : Type :=
| RefuseInside                          (* a source inside the array is an error *)
| KeepOffsets (mn mx : flt)             (* only receivers at these offsets *)
| RemoveTrend
| SelectNoise (b e : Qc)                (* once per run *)
| TrimTime (b e : Qc)
| MutePicked (method : string)          (* lines picked once per run *)
| SelectSignal (b e : Qc)               (* once per run *)
| SignalToNoise (fl fh : Qc) (pad : bool) (df : Qc)
| Correlate (srcamp : list Qc) (srcdt vl vh : Qc)
| PadRecords (df : Qc).
(** The Tukey window used when no window is given. *)
Definition default_window : json := JDict [("alpha", JNum (Fin (Q2Qc (1 # 5))))].
Definition act (E : environment) (o : action) (w : wf) : result wf :=
  let a := w_array w in
  match o with
  | RefuseInside => if source_inside a then Err ValueError else Ok w
  | KeepOffsets mn mx => on_array w (limit_offsets a mn mx)
  | RemoveTrend => Ok (set_array w (array_detrend a))
  | SelectNoise b e =>
      match w_noise w with
      | Some _ => Ok w
      | None => do c <- copy_array a; do c <- changed (array_trim c b e); Ok (set_noise w c)
      end
  | TrimTime b e => on_array w (array_trim a b e)
  | MutePicked method =>
      match w_lines w with
      | Some l => on_array w (mute a (e_taper E default_window) (Some (fst l)) (Some (snd l)))
      | None =>
          if String.eqb method "interactive" then
            do l <- e_user E a;
            do a <- changed (mute a (e_taper E default_window) (Some (fst l)) (Some (snd l)));
            Ok (set_lines (set_array w a) l)
          else Err KeyError
      end
  | SelectSignal b e =>
      match w_signal w with
      | Some _ => Ok w
      | None => do c <- copy_array a; do c <- changed (array_trim c b e); Ok (set_signal w c)
      end
  | SignalToNoise fl fh pad df =>
      match w_signal w, w_noise w with
      | Some s, Some n =>
          match snr_from_arrays (e_spectrum E) s n fl fh pad (Some df) with
          | ((s', n'), Ok r) => Ok (set_snr w s' n' r)
          | (_, Err e) => Err e
          end
      | _, _ => Err (if pad then AttributeError else TypeError)
      end
  | Correlate sa sd vl vh => on_array w (xcorrelate a sa sd vl vh)
  | PadRecords df => on_array w (array_zero_pad a df)
  end.
(** The actions in order, up to the first exception. *)
Fixpoint perform (E : environment) (l : list action) (w : wf) : result wf :=
  match l with [] => Ok w | o :: t => do w' <- act E o w; perform E t w' end.
Definition when (b : bool) (l : list action) : list action := if b then l else [].

(** Up to and including the choice of the signal window. *)
Definition preparation (p : arguments) : list action :=
  [RefuseInside; KeepOffsets (given f0 (a_min_offset p)) (given PInf (a_max_offset p)); RemoveTrend]
  ++ when (given false (a_snr p)) [SelectNoise (given (Q2Qc (-1 # 2)) (a_noise_begin p)) (given 0%Qc (a_noise_end p))]
  ++ when (given false (a_trim p)) [TrimTime (given 0%Qc (a_trim_begin p)) (given 1%Qc (a_trim_end p))]
  ++ when (given false (a_mute p)) [MutePicked (given "interactive" (a_method p))]
  ++ when (given false (a_snr p)) [SelectSignal (given 0%Qc (a_signal_begin p)) (given (Q2Qc (1 # 2)) (a_signal_end p))].
Definition ratio (p : arguments) : list action :=
  when (given false (a_snr p))
    [SignalToNoise (given (QcZ 5) (a_fmin p)) (given (QcZ 100) (a_fmax p)) (given true (a_pad_snr p)) (given 1%Qc (a_df_snr p))].
Definition padding (p : arguments) : list action := when (given false (a_pad p)) [PadRecords (given 1%Qc (a_df p))].
(** Everything the time-domain workflow does to the records. *)
Definition plan (p : arguments) : list action := preparation p ++ ratio p ++ padding p.

(** ** Settings *)
Fixpoint at_path (j : json) (path : list string) : option json :=
  match path, j with
  | [], _ => Some j
  | k :: t, JDict d => match lookup k d with Some v => at_path v t | None => None end
  | _, _ => None
  end.
(** The entry "processing" of the created settings. *)
Definition processing (p : arguments) : json := given JNull (at_path (create_settings_dict p) ["processing"]).
(** The same arguments with other window_kwargs. *)
Definition with_window (p : arguments) (k : option (list (string * json))) : arguments :=
  mkArguments (a_workflow p) (a_trim p) (a_trim_begin p) (a_trim_end p) (a_mute p) (a_method p) k
    (a_pad p) (a_df p) (a_transform p) (a_fmin p) (a_fmax p) (a_vmin p) (a_vmax p) (a_nvel p)
    (a_vspace p) (a_weighting p) (a_steering p) (a_snr p) (a_noise_begin p) (a_noise_end p)
    (a_signal_begin p) (a_signal_end p) (a_pad_snr p) (a_df_snr p) (a_min_offset p) (a_max_offset p).
(** The same arguments with weighting "none" and steering "plane". *)
Definition with_fk (p : arguments) : arguments :=
  mkArguments (a_workflow p) (a_trim p) (a_trim_begin p) (a_trim_end p) (a_mute p) (a_method p) (a_window_kwargs p)
    (a_pad p) (a_df p) (a_transform p) (a_fmin p) (a_fmax p) (a_vmin p) (a_vmax p) (a_nvel p)
    (a_vspace p) (Some "none") (Some "plane") (a_snr p) (a_noise_begin p) (a_noise_end p)
    (a_signal_begin p) (a_signal_end p) (a_pad_snr p) (a_df_snr p) (a_min_offset p) (a_max_offset p).
(** Replace one entry, found by its path. *)
Fixpoint replace_entry (j : json) (path : list string) (v : json) : json :=
  match path, j with
  | [], _ => v
  | k :: t, JDict d => match lookup k d with Some x => JDict (update k (replace_entry x t v) d) | None => j end
  | _, _ => j
  end.

(** One run after the other with the same settings dict: the outcomes. *)
Fixpoint in_turn {A} (runs : list (json -> json * A)) (st : json) : list A :=
  match runs with [] => [] | r :: t => snd (r st) :: in_turn t (fst (r st)) end.

(** ** Registries *)
Record registration (C : Type) : Type := mkReg { g_which : which; g_name : string; g_class : C }.
Arguments mkReg {C}. Arguments g_which {C}. Arguments g_name {C}. Arguments g_class {C}.
Definition history_of {C} (r : registries C) (h : list (registration C)) : registries C :=
  fold_left (fun r g => register (g_which g) (g_name g) (g_class g) r) h r.
(** [c] is the class of the last registration under this name in this registry. *)
Definition last_registered {C} (h : list (registration C)) (w : which) (n : string) (c : C) : Prop :=
  exists h1 h2, h = h1 ++ mkReg w n c :: h2 /\ forall g, In g h2 -> ~ (g_which g = w /\ g_name g = n).
Definition never_registered {C} (h : list (registration C)) (w : which) (n : string) : Prop :=
  forall g, In g h -> ~ (g_which g = w /\ g_name g = n).

(** ** Frequency-domain stacking *)
(** [ws]: the workflow object after each file; muting lines, noise and signal are kept
    from one file to the next. *)
Fixpoint successive (E : environment) (p : arguments) (w : wf) (files : list string) (ws : list wf) : Prop :=
  match files, ws with
  | [], [] => True
  | f :: files', w' :: ws' =>
      (exists a, load E (Name f) = Ok a /\ perform E (preparation p ++ padding p) (set_array w a) = Ok w') /\
      successive E p w' files' ws'
  | _, _ => False
  end.
(** Same time step, delay, number of samples and frequency multiple. *)
Definition alike (s t : sensor) : Prop :=
  dt (ser s) = dt (ser t) /\ delay (ser s) = delay (ser t) /\
  List.length (amp (ser s)) = List.length (amp (ser t)) /\ multiple (ser s) = multiple (ser t).
Definition like (m : sensor) (a : array) : Prop := sensors a <> [] /\ forall s, In s (sensors a) -> alike m s.
(** All transforms of swprocess: one record, the frequencies and velocities of the empty
    transform, finite power with one row for each row of the empty one and one column for each
    frequency. *)
Definition standard (geomspace : Qc -> Qc -> Z -> result (list Qc)) (g : array -> json -> result (transform flt)) : Prop :=
  forall a proc t st e, g a proc = Ok t -> wt_of proc = Ok st -> empty_from_array geomspace a st = Ok e ->
    wn t = 1%Z /\ wfrq t = wfrq e /\ wvel t = wvel e /\ exists m, power t = map (map Fin) m /\
    List.length m = List.length (power e) /\ forall r, In r m -> List.length r = List.length (wfrq e).
