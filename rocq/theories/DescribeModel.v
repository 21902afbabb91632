(* Model of the printed descriptions of the MASW workflows
   (swprocess/maswworkflows.py).  A str is a Coq string; "\n" is the character 10. *)
From Coq Require Import List String Ascii.
From Verif Require Import WorkflowModel.
Local Open Scope string_scope.

Definition newline : string := String (ascii_of_nat 10) EmptyString.

(** SingleMaswWorkflow.__str__, maswworkflows.py:168-179 *)
Definition single_str : string :=
  let msg := newline in
  let msg := msg ++ "MaswWorkflow: single" ++ newline in
  let msg := msg ++ "  - Create Array1D from file (ignore if multiple)." ++ newline in
  let msg := msg ++ "  - Check array is acceptable." ++ newline in
  let msg := msg ++ "  - Perform trim in space (if desired)." ++ newline in
  let msg := msg ++ "  - Perform linear detrend on each trace." ++ newline in
  let msg := msg ++ "  - Perform trim in time (if desired)." ++ newline in
  let msg := msg ++ "  - Perform mute (if desired)." ++ newline in
  let msg := msg ++ "  - Perform pad  (if desired)." ++ newline in
  msg ++ "  - Perform transform.".
(** TimeDomainMaswWorkflow.__str__, maswworkflows.py:186-197 *)
Definition time_domain_str : string :=
  let msg := newline in
  let msg := msg ++ "MaswWorkflow: time-domain" ++ newline in
  let msg := msg ++ "  - Create Array1D from files." ++ newline in
  let msg := msg ++ "  - Check array is acceptable." ++ newline in
  let msg := msg ++ "  - Perform trim in space (if desired)." ++ newline in
  let msg := msg ++ "  - Perform linear detrend on each trace." ++ newline in
  let msg := msg ++ "  - Perform trim in time (if desired)." ++ newline in
  let msg := msg ++ "  - Perform mute (if desired)." ++ newline in
  let msg := msg ++ "  - Perform pad  (if desired)." ++ newline in
  msg ++ "  - Perform transform.".
(** TimeDomainXcorrMaswWorkflow.__str__, maswworkflows.py:242-254 *)
Definition xcorr_str : string :=
  let msg := newline in
  let msg := msg ++ "MaswWorkflow: time-domain" ++ newline in
  let msg := msg ++ "  - Create Array1D from files." ++ newline in
  let msg := msg ++ "  - Check array is acceptable." ++ newline in
  let msg := msg ++ "  - Perform trim in space (if desired)." ++ newline in
  let msg := msg ++ "  - Perform linear detrend on each trace." ++ newline in
  let msg := msg ++ "  - Cross-correlate traces with source." ++ newline in
  let msg := msg ++ "  - Perform trim in time (if desired)." ++ newline in
  let msg := msg ++ "  - Perform mute (if desired)." ++ newline in
  let msg := msg ++ "  - Perform pad  (if desired)." ++ newline in
  msg ++ "  - Perform transform.".
(** FrequencyDomainMaswWorkflow.__str__, maswworkflows.py:307-319 *)
Definition frequency_domain_str : string :=
  let msg := newline in
  let msg := msg ++ "MaswWorkflow: frequency-domain" ++ newline in
  let msg := msg ++ "  - Create Array1D from file." ++ newline in
  let msg := msg ++ "  - Check array is acceptable." ++ newline in
  let msg := msg ++ "  - Perform trim in space (if desired)." ++ newline in
  let msg := msg ++ "  - Perform linear detrend on each trace." ++ newline in
  let msg := msg ++ "  - Perform trim in time (if desired)." ++ newline in
  let msg := msg ++ "  - Perform mute (if desired)." ++ newline in
  let msg := msg ++ "  - Perform pad  (if desired)." ++ newline in
  let msg := msg ++ "  - Perform transform." ++ newline in
  msg ++ "  - Repeat steps for remaining files, stacking in frequency-domain." ++ newline.
(** str(workflow) for an instance of a registered class. *)
Definition workflow_str (c : workflow_class) : string :=
  match c with
  | Single => single_str | TimeDomain => time_domain_str
  | TimeDomainXcorr => xcorr_str | FrequencyDomain => frequency_domain_str
  end.
