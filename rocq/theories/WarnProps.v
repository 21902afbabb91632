(* Property C105: what swprocess warns of while it reads files and pads records. *)
From Verif Require Import NumFacts SeriesModel SeriesSpec SeriesProofs ArrayModel HeaderModel WarnModel WarnSpec WarnProofs.
Local Open Scope string_scope.
Local Open Scope list_scope.
Local Notation q n d := (Q2Qc (n # d)).
Local Notation id1 := (fun x : Qc => x).

(** ** C105 *)
(** Warnings change nothing: whatever the files and maps, the outcome is the one of the
    theorems about reading. *)
Theorem C105_values : forall {F K : Type} (read : option K -> F -> result (list trace)) mx my kw fs,
  snd (from_files_w read mx my kw fs) = from_files read mx my kw fs.
Proof. intros F K. exact from_files_same. Qed.
Print Assumptions C105_values.

(** Making a sensor of a trace warns of every header value that is replaced, in the order of
    reading, of nothing else, and whether or not the sensor is then accepted. *)
Theorem C105_sensor : forall t mx my,
  fst (from_trace_w t mx my) = receiver_notes (t_header t) /\ snd (from_trace_w t mx my) = from_trace t mx my.
Proof. intros t mx my. split; [apply from_trace_notes|apply from_trace_same]. Qed.
Print Assumptions C105_sensor.

(** Reading files that are accepted warns of the traces of the first file, of the source as told
    by its last trace, and for each further file of the source as told by its first trace and of as
    many traces as there are receivers. *)
Theorem C105_files : forall {F K : Type} (read : option K -> F -> result (list trace)) mx my kw f0 rest a,
  from_files read mx my kw (f0 :: rest) = Ok a ->
  exists first streams lead last,
    read kw f0 = Ok first /\ mapM (read None) rest = Ok streams /\ first = lead ++ [last] /\
    fst (from_files_w read mx my kw (f0 :: rest))
    = List.concat (map (fun t => receiver_notes (t_header t)) first) ++ source_notes (t_header last)
      ++ List.concat (map (further_notes (List.length first)) streams).
Proof. intros F K read mx my kw f0 rest a H. apply from_files_notes with (a := a). rewrite from_files_same. exact H. Qed.
Print Assumptions C105_files.

(** A sensor made without a warning has the samples, step, stack count, delay and x its header says.
    Missing: y (below). *)
Theorem C105_silent_partial : forall t mx my s,
  from_trace_w t mx my = ([], Ok s) -> as_recorded t mx s.
Proof. exact silent_trace. Qed.
Print Assumptions C105_silent_partial.

Local Definition su (n scale gx gy delay : field Z) : su_header :=
  mkSu (Value 1%Z) scale (Value (-5)%Z) (Value 0%Z) gx gy n delay.
Local Definition tr1 (h : header) : trace := mkTrace [QcZ 1; QcZ 2] (q 1 1000) h.

(** The y of the header replaced by the x, and not a word about it. *)
Theorem C105_silent_y_refuted : exists t h s,
  t_header t = Su h /\ h_scale h = Value 1%Z /\ h_gy h = Value 7%Z /\
  from_trace_w t id1 id1 = ([], Ok s) /\ sy s <> QcZ 7.
Proof.
  exists (tr1 (Su (su (Value 1%Z) (Value 1%Z) (Value 3%Z) (Value 7%Z) (Value 0%Z)))). eexists. eexists.
  split; [reflexivity|]. split; [reflexivity|]. split; [reflexivity|]. split; [vm_compute; reflexivity|].
  intros H. apply (f_equal (fun x => Qceqb x (QcZ 7))) in H. vm_compute in H. discriminate H.
Qed.
Print Assumptions C105_silent_y_refuted.

(** Padding that succeeds warns exactly if the frequency step afterwards is not the one asked for. *)
Theorem C105_padding : forall s df, (0 < dt s)%Qc -> (0 < df)%Qc -> (df * dt s < Q2Qc 2)%Qc ->
  exists s' ws, zero_pad_w s df = (ws, (s', Ok tt)) /\ zero_pad s df = (s', Ok tt)
    /\ (ws = [] \/ ws = [Approximate]) /\ (ws = [] <-> user_df s' = Ok df).
Proof.
  intros s df A B C. destruct (pad_notes s df A B C) as (s' & E & I). exists s'. eexists. split; [exact E|].
  split; [rewrite <- pad_same, E; reflexivity|]. split; [destruct (Qc_eq_dec _ _); auto|]. rewrite <- I, E. reflexivity.
Qed.
Print Assumptions C105_padding.
(** Padding to a step that is not positive is refused without a warning. *)
Theorem C105_padding_refused : forall s df, (df <= 0)%Qc ->
  zero_pad_w s df = ([], (set_multiple s 1, Err ValueError)).
Proof. exact pad_refused. Qed.
Print Assumptions C105_padding_refused.

(** Two files: the first has a trace without stack count and one with scale 0, the second no delay. *)
Local Definition disk (files : list (list trace)) (_ : option unit) (f : nat) : result (list trace) :=
  match nth_error files f with Some s => Ok s | None => Err FileNotFoundError end.
Local Definition one := Value 1%Z.
Local Definition nil0 := Value 0%Z.
Example C105_example :
  let w := from_files_w (disk [[tr1 (Su (su Missing one nil0 nil0 nil0)); tr1 (Su (su one nil0 (Value 3%Z) nil0 nil0))];
                               [tr1 (Su (su one one nil0 nil0 Unparsable)); tr1 (Su (su one one (Value 3%Z) nil0 nil0));
                                tr1 (Su (su nil0 one (Value 3%Z) nil0 nil0))]]) id1 id1 None [0; 1]%nat in
  fst w = [Failed "number_of_horizontally_stacked_traces_yielding_this_trace"; ScaleReset; ScaleReset; Failed "delay_recording_time"]
  /\ match snd w with Ok a => List.length (sensors a) = 2%nat | Err _ => False end.
Proof. vm_compute. auto. Qed.
Example C105_padding_example :
  fst (zero_pad_w (mkSeries [QcZ 1; QcZ 2] (q 1 1000) 1 0%Qc 1) (q 1 1)) = []
  /\ fst (zero_pad_w (mkSeries [QcZ 1; QcZ 2] (q 1 1000) 1 0%Qc 1) (q 3 1)) = [Approximate].
Proof. vm_compute. auto. Qed.
