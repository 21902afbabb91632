(* What the printed descriptions of the workflows say. *)
From Coq Require Import List String Ascii.
From Verif Require Import WorkflowModel WorkflowSpec.
Import ListNotations.
Local Open Scope string_scope.
Local Open Scope list_scope.
Local Open Scope py_scope.

(** The lines of a text. *)
Fixpoint lines (s : string) : list string :=
  match s with
  | EmptyString => [EmptyString]
  | String c t =>
      if Ascii.eqb c (ascii_of_nat 10) then EmptyString :: lines t
      else match lines t with l :: r => String c l :: r | [] => [String c EmptyString] end
  end.
(** What a reader takes each line to announce.  Creating the array, the transform and
    the repetition are not changes of the records. *)
Definition says (p : arguments) (signal : list Qc) (d : Qc) (line : string) : list action :=
  match line with
  | "  - Check array is acceptable." => [RefuseInside]
  | "  - Perform trim in space (if desired)." => [KeepOffsets (given f0 (a_min_offset p)) (given PInf (a_max_offset p))]
  | "  - Perform linear detrend on each trace." => [RemoveTrend]
  | "  - Perform trim in time (if desired)." =>
      when (given false (a_trim p)) [TrimTime (given 0%Qc (a_trim_begin p)) (given 1%Qc (a_trim_end p))]
  | "  - Perform mute (if desired)." => when (given false (a_mute p)) [MutePicked (given "interactive" (a_method p))]
  | "  - Cross-correlate traces with source." => [Correlate signal d (given (QcZ 100) (a_vmin p)) (given (QcZ 1000) (a_vmax p))]
  | "  - Perform pad  (if desired)." => when (given false (a_pad p)) [PadRecords (given 1%Qc (a_df p))]
  | _ => []
  end.
Definition announced (p : arguments) (signal : list Qc) (d : Qc) (text : string) : list action :=
  List.concat (map (says p signal d) (lines text)).
(** Steps of the signal-to-noise ratio. *)
Definition of_ratio (o : action) : bool :=
  match o with SelectNoise _ _ | SelectSignal _ _ | SignalToNoise _ _ _ _ => true | _ => false end.

(** The end of a time-domain run: transform the records with the class named in the settings. *)
Definition then_transform (E : environment) (p : arguments) (r : result wf) : json * result outcome :=
  match r with
  | Err e => (create_settings_dict p, Err e)
  | Ok w =>
      match lookup (given "fdbf" (a_transform p)) (e_transforms E) with
      | None => (create_settings_dict p, Err KeyError)
      | Some c => let (proc', r) := c (w_array w) (processing p) in
                  (replace_entry (create_settings_dict p) ["processing"] proc', do t <- r; Ok (mkOutcome t (w_array w) (w_snr w)))
      end
  end.
(** A new array with these sensors whose records are cut to begin at time zero. *)
Definition from_zero (a : array) : result array :=
  do b <- new_array (sensors a) (src a);
  match sensors b with
  | [] => Err IndexError
  | s :: _ => do t <- qmax (time (ser s)); changed (array_trim b 0%Qc t)
  end.
(** Each file on its own: load, then the announced steps. *)
Fixpoint file_by_file (E : environment) (steps : list action) (w : wf) (files : list string) (ws : list wf) : Prop :=
  match files, ws with
  | [], [] => True
  | f :: files', w' :: ws' =>
      (exists a, load E (Name f) = Ok a /\ perform E steps (set_array w a) = Ok w') /\ file_by_file E steps w' files' ws'
  | _, _ => False
  end.
