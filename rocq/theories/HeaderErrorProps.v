(* Properties C12, C13, C19, C73: what reading and writing files refuses, and how. *)
From Verif Require Import NumFacts SeriesModel SeriesSpec ArrayModel ArraySpec ArrayProofs.
From Verif Require Import HeaderModel HeaderSpec HeaderProofs HeaderFileProofs HeaderErrorSpec HeaderErrorProofs.

Local Notation q n d := (Q2Qc (n # d)).
Local Notation id1 := (fun x : Qc => x).

(** ** C12 *)
(** The source of a SEG2 file is on the line; it has to be recorded. *)
Theorem C12_seg2_source : forall tr h mx my, t_header tr = Seg2 h ->
  (forall x, g_source h = Value x -> parse_source F_seg2 mx my tr = Ok (mkSource (mx x) 0%Qc 0%Qc)) /\
  (g_source h = Missing -> parse_source F_seg2 mx my tr = Err AttributeError) /\
  (g_source h = Unparsable -> parse_source F_seg2 mx my tr = Err ValueError).
Proof. intros tr h mx my E. unfold parse_source. rewrite E. split; [intros x ->; reflexivity|]. split; intros ->; reflexivity. Qed.
Print Assumptions C12_seg2_source.

(** SU and SEGY: the scalar and both coordinates have to be recorded, the first one that is not
    decides the error; nothing else stops the source from being read. *)
Theorem C12_source_fields : forall f tr h mx my, (f = F_su /\ t_header tr = Su h) \/ (f = F_segy /\ t_header tr = Segy h) ->
  h_units h = Value 0%Z \/ h_units h = Value 1%Z -> (f = F_segy -> h_scale h <> Value 0%Z) ->
  match first_problem [h_scale h; h_sx h; h_sy h] with
  | Some e => parse_source f mx my tr = Err e
  | None => exists s, parse_source f mx my tr = Ok s
  end.
Proof. exact source_fields. Qed.
Print Assumptions C12_source_fields.
Theorem C12_no_units : forall f tr h mx my, (f = F_su /\ t_header tr = Su h) \/ (f = F_segy /\ t_header tr = Segy h) ->
  h_units h = Missing -> parse_source f mx my tr = Err KeyError.
Proof. exact units_missing. Qed.
Print Assumptions C12_no_units.
Example C12_fields_example :
  first_problem [Value (-100)%Z; Unparsable; Missing] = Some ValueError /\
  parse_source F_su id1 id1 (mkTrace [] 0%Qc (Su (mkSu (Value 1%Z) (Value (-100)%Z) Unparsable Missing Missing Missing Missing Missing))) = Err ValueError.
Proof. split; reflexivity. Qed.

(** ** C13 *)
(** An array can be written exactly if all its numbers fit in the header fields; nothing is
    written otherwise. *)
Theorem C13_writable : forall a, sensors a <> [] ->
  ((exists st, to_file a true = Ok st) <-> source_fits (src a) /\ forall s, In s (sensors a) -> fits s) /\
  (~ (source_fits (src a) /\ forall s, In s (sensors a) -> fits s) -> to_file a true = Err ValueError).
Proof. exact written_fits. Qed.
Print Assumptions C13_writable.
Local Definition s13 (x : Qc) (n : Z) (d : Qc) : sensor := mkSensor (mkSeries [QcZ 1; QcZ 2] d n 0 1) x 0 0.
(** the last coordinate and the last stack count that fit *)
Example C13_writable_example :
  (exists st, to_file (mkArray [s13 (q 2147483647 1000) 32768 (q 1 1000)] (mkSource 0 0 0)) true = Ok st) /\
  to_file (mkArray [s13 (q 2147483648 1000) 1 (q 1 1000)] (mkSource 0 0 0)) true = Err ValueError /\
  to_file (mkArray [s13 0 32769 (q 1 1000)] (mkSource 0 0 0)) true = Err ValueError /\
  to_file (mkArray [s13 0 1 (q 66 1000)] (mkSource 0 0 0)) true = Err ValueError.
Proof. split; [eexists; vm_compute; reflexivity|]. repeat split; vm_compute; reflexivity. Qed.

(** What comes back, for every array that can be written.  Nothing, if a record starts half a
    millisecond or more after time zero or if two receivers share a millimetre; otherwise every
    sensor as [restored] says. *)
Theorem C13_outcome : forall (F K : Type) (read : option K -> F -> result (list trace)) a stream kw f,
  consistent a -> (forall s, In s (sensors a) -> (1 <= nstacks (ser s))%Z) ->
  to_file a true = Ok stream -> read kw f = Ok stream ->
  ((exists s, In s (sensors a) /\ (0 < round_half_even (delay (ser s) * QcZ 1000))%Z) \/
   ~ NoDup (map (fun s => millimetre (sx s)) (sensors a)) ->
     from_files read id1 id1 kw [f] = Err ValueError) /\
  ((forall s, In s (sensors a) -> (round_half_even (delay (ser s) * QcZ 1000) <= 0)%Z) ->
   NoDup (map (fun s => millimetre (sx s)) (sensors a)) ->
     from_files read id1 id1 kw [f] = Ok (mkArray (map restored (sensors a)) (restored_source (src a)))).
Proof. intros F K read. exact (trip_outcome read). Qed.
Print Assumptions C13_outcome.
Example C13_outcome_example :
  let a := mkArray [s13 0 3 (q 1 1000); s13 (q 21 10) 3 (q 1 1000)] (mkSource (q (-5) 1) 0 0) in
  consistent a /\ (exists st, to_file a true = Ok st) /\ NoDup (map (fun s => millimetre (sx s)) (sensors a)) /\
  map (fun s => nstacks (ser (restored s))) (sensors a) = [2; 2]%Z.
Proof.
  split; [apply (new_array_spec [s13 0 3 (q 1 1000); s13 (q 21 10) 3 (q 1 1000)] (mkSource (q (-5) 1) 0 0)); reflexivity|].
  split; [eexists; vm_compute; reflexivity|]. split; [|reflexivity].
  repeat constructor; cbn; intros H; repeat (destruct H as [H|H]; [vm_compute in H; discriminate H|]); exact H.
Qed.

(** ** C19 *)
(** The first file: it has to be there, hold a trace, and every trace has to be read. *)
Theorem C19_first_file : forall (F K : Type) (read : option K -> F -> result (list trace)) mx my kw f0 rest,
  from_files read mx my kw [] = Err IndexError /\
  (forall e, read kw f0 = Err e -> from_files read mx my kw (f0 :: rest) = Err e) /\
  (read kw f0 = Ok [] -> from_files read mx my kw (f0 :: rest) = Err UnboundLocalError) /\
  (forall a t b e, read kw f0 = Ok (a ++ t :: b) -> (forall u, In u a -> exists s, from_trace u mx my = Ok s) ->
     from_trace t mx my = Err e -> from_files read mx my kw (f0 :: rest) = Err e).
Proof. intros. apply first_file_errors. Qed.
Print Assumptions C19_first_file.

(** Every further file: it has to be there and hold a trace. *)
Theorem C19_next_file : forall (F K : Type) (read : option K -> F -> result (list trace)) mx my kw f0 fs f1 more a,
  from_files read mx my kw (f0 :: fs) = Ok a ->
  (forall e, read None f1 = Err e -> from_files read mx my kw (f0 :: fs ++ f1 :: more) = Err e) /\
  (read None f1 = Ok [] -> from_files read mx my kw (f0 :: fs ++ f1 :: more) = Err IndexError).
Proof. intros F K read mx my kw f0 fs f1 more a H. destruct (next_file read _ _ _ _ _ f1 more _ H) as (A & B & _). auto. Qed.
Print Assumptions C19_next_file.

(** A file of another format than the first is refused. *)
Theorem C19_mixed_formats : forall (F K : Type) (read : option K -> F -> result (list trace)) mx my kw f0 fs f1 more a pre u t ts,
  from_files read mx my kw (f0 :: fs) = Ok a -> read kw f0 = Ok (pre ++ [u]) -> read None f1 = Ok (t :: ts) ->
  ~ same_format (t_header u) (t_header t) ->
  from_files read mx my kw (f0 :: fs ++ f1 :: more) = Err AttributeError.
Proof.
  intros F K read mx my kw f0 fs f1 more a pre u t ts H R Q N. destruct (next_file read _ _ _ _ _ f1 more _ H) as (_ & _ & A).
  apply (A t ts _ u Q R); auto. { apply last_last. } apply in_or_app. right. now left.
Qed.
Print Assumptions C19_mixed_formats.

(** Records of different source positions are not stacked, nor those without one. *)
Theorem C19_same_source : forall (F K : Type) (read : option K -> F -> result (list trace)) mx my kw f0 fs f1 more a pre u t ts f,
  from_files read mx my kw (f0 :: fs) = Ok a -> read kw f0 = Ok (pre ++ [u]) -> read None f1 = Ok (t :: ts) ->
  same_format (t_header u) (t_header t) -> fmt_of (t_header t) = Some f ->
  (forall s, parse_source f mx my t = Ok s -> s <> src a -> from_files read mx my kw (f0 :: fs ++ f1 :: more) = Err ValueError) /\
  (forall e, parse_source f mx my t = Err e -> from_files read mx my kw (f0 :: fs ++ f1 :: more) = Err e).
Proof.
  intros F K read mx my kw f0 fs f1 more a pre u t ts f H R Q N Fm. destruct (next_file read _ _ _ _ _ f1 more _ H) as (_ & _ & A).
  destruct (A t ts _ u Q R) as (_ & B); [apply last_last|apply in_or_app; right; now left|]. destruct (B f Fm N). auto.
Qed.
Print Assumptions C19_same_source.

Local Definition su2 (sx x : Z) : su_header :=
  mkSu (Value 1%Z) (Value 1%Z) (Value sx) (Value 0%Z) (Value x) (Value 0%Z) (Value 1%Z) (Value 0%Z).
Local Definition tr2 (sx x : Z) : trace := mkTrace [QcZ 1; QcZ 2] (q 1 1000) (Su (su2 sx x)).
Local Definition disk (files : list (list trace)) (_ : option unit) (f : nat) : result (list trace) :=
  match nth_error files f with Some s => Ok s | None => Err FileNotFoundError end.
(** source at -5, then again, then at -7; a SEGY file; no trace; no file *)
Local Definition d19 := disk [[tr2 (-5) 0; tr2 (-5) 3]; [tr2 (-5) 0; tr2 (-5) 3]; [tr2 (-7) 0; tr2 (-7) 3];
                              [mkTrace [QcZ 1; QcZ 2] (q 1 1000) (Segy (su2 (-5) 0))]; []].
Example C19_refused_example :
  (exists a, from_files d19 id1 id1 None [0; 1] = Ok a) /\
  from_files d19 id1 id1 None [0; 1; 2] = Err ValueError /\ from_files d19 id1 id1 None [0; 1; 3] = Err AttributeError /\
  from_files d19 id1 id1 None [0; 1; 4] = Err IndexError /\ from_files d19 id1 id1 None [0; 1; 5] = Err FileNotFoundError.
Proof. split; [eexists; vm_compute; reflexivity|]. repeat split; vm_compute; reflexivity. Qed.

(** ** C73 *)
(** The source signals of all files are averaged; a record of a single sample counts at every
    sample. *)
Theorem C73_heard : forall (F K : Type) (read : option K -> F -> result (list trace)) ch f0 rest t0 trs,
  Forall2 (channel_of read ch) (f0 :: rest) (t0 :: trs) -> (forall t, In t trs -> joins (length (t_data t0)) t) ->
  exists r, source_signal read ch (f0 :: rest) = Ok (r, t_delta t0) /\ length r = length (t_data t0) /\
    forall k, k < length r ->
      nth k r 0%Qc = ((nth k (t_data t0) 0 + Qcsum (map (fun t => heard k (t_data t)) trs)) / QcN (S (length rest)))%Qc.
Proof. intros F K read. exact (signal_heard read). Qed.
Print Assumptions C73_heard.
(** Nothing else is averaged: the first file that is missing, has no such channel or another
    number of samples decides the error. *)
Theorem C73_refused : forall (F K : Type) (read : option K -> F -> result (list trace)) ch f0 rest t0 trs x more e,
  Forall2 (channel_of read ch) (f0 :: rest) (t0 :: trs) -> (forall t, In t trs -> joins (length (t_data t0)) t) ->
  read None x = Err e \/ (exists st, read None x = Ok st /\ pyget st ch = Err e) \/
    (e = ValueError /\ exists t, channel_of read ch x t /\ ~ joins (length (t_data t0)) t) ->
  source_signal read ch (f0 :: rest ++ x :: more) = Err e.
Proof. intros F K read. exact (signal_refused read). Qed.
Print Assumptions C73_refused.
Theorem C73_first_file : forall (F K : Type) (read : option K -> F -> result (list trace)) ch f0 rest e,
  source_signal read ch [] = Err IndexError /\
  (read None f0 = Err e \/ (exists st, read None f0 = Ok st /\ pyget st ch = Err e) -> source_signal read ch (f0 :: rest) = Err e).
Proof. intros F K read. exact (signal_first read). Qed.
Print Assumptions C73_first_file.
Local Definition tr3 (l : list Z) : trace := mkTrace (map QcZ l) (q 1 1000) NoFormat.
Local Definition d73 := disk [[tr3 [1; 2; 6]]; [tr3 [5]]; [tr3 [1; 1]]; []]%Z.
(** The single sample 5 is added to all three samples; two samples or no channel are refused. *)
Example C73_heard_example :
  match source_signal d73 0 [0; 1] with Ok (r, _) => map this r = [3; 7 # 2; 11 # 2]%Q | Err _ => False end /\
  source_signal d73 0 [0; 2] = Err ValueError /\ source_signal d73 0 [0; 3] = Err IndexError /\ source_signal d73 0 [0; 4] = Err FileNotFoundError.
Proof. repeat split; vm_compute; reflexivity. Qed.
