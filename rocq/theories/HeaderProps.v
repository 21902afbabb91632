(* Properties C12-C14, C19, C20, C73: reading and writing files. *)
From Verif Require Import NumFacts SeriesModel SeriesSpec ArrayModel ArraySpec ArrayProofs.
From Verif Require Import HeaderModel HeaderSpec HeaderProofs HeaderFileProofs.

Local Notation q n d := (Q2Qc (n # d)).
Local Notation id1 := (fun x : Qc => x).
Local Definition su (scale gx gy : Z) : su_header :=
  mkSu (Value 1%Z) (Value scale) (Value 0%Z) (Value 0%Z) (Value gx) (Value gy) (Value 1%Z) (Value 0%Z).
Local Definition tr1 (h : header) : trace := mkTrace [QcZ 1; QcZ 2] (q 1 1000) h.

(** ** C12 *)
(** Receiver x, SU and SEGY, every standard scalar and every map.  Missing: y for
    non-negative scalars, scalars that are no power of ten (refuted below). *)
Theorem C12_receiver_x_partial : forall tr h mx my s,
  su_like (t_header tr) h -> standard_scalar (recorded_scalar h) -> from_trace tr mx my = Ok s ->
  sx s = mx (meant (or_default (h_gx h) 0%Z) (recorded_scalar h)).
Proof. exact receiver_x. Qed.
Print Assumptions C12_receiver_x_partial.

(** Receiver y: right for negative scalars, taken from the x field otherwise. *)
Theorem C12_receiver_y_partial : forall tr h mx my s,
  su_like (t_header tr) h -> standard_scalar (recorded_scalar h) -> from_trace tr mx my = Ok s ->
  sy s = my (meant (or_default (if (recorded_scalar h <? 0)%Z then h_gy h else h_gx h) 0%Z) (recorded_scalar h)).
Proof. exact receiver_y. Qed.
Print Assumptions C12_receiver_y_partial.

Theorem C12_receiver_y_refuted : exists tr h s,
  t_header tr = Su h /\ h_scale h = Value 1%Z /\ from_trace tr id1 id1 = Ok s /\
  sy s <> meant (or_default (h_gy h) 0%Z) 1.
Proof.
  exists (tr1 (Su (su 1 5 7))), (su 1 5 7). eexists. split; [reflexivity|]. split; [reflexivity|].
  split; [vm_compute; reflexivity|]. intros H. apply (f_equal this) in H. vm_compute in H. discriminate H.
Qed.
Print Assumptions C12_receiver_y_refuted.

(** Source coordinates: SU with every standard scalar, SEGY with every non-zero one. *)
Theorem C12_source_partial : forall f tr h mx my sc ix iy,
  (f = F_su /\ t_header tr = Su h) \/ (f = F_segy /\ t_header tr = Segy h /\ sc <> 0%Z) ->
  standard_scalar sc -> h_scale h = Value sc -> h_sx h = Value ix -> h_sy h = Value iy ->
  h_units h = Value 0%Z \/ h_units h = Value 1%Z ->
  parse_source f mx my tr = Ok (mkSource (mx (meant ix sc)) (my (meant iy sc)) 0%Qc).
Proof. exact source_coords. Qed.
Print Assumptions C12_source_partial.

Theorem C12_segy_zero_scalar_refuted : exists h,
  h_scale h = Value 0%Z /\
  (exists s, from_trace (tr1 (Segy h)) id1 id1 = Ok s) /\
  forall d dl, parse_source F_segy id1 id1 (mkTrace d dl (Segy h)) = Err OverflowError.
Proof.
  exists (su 0 5 7). split; [reflexivity|]. split; [eexists; vm_compute; reflexivity|]. intros. reflexivity.
Qed.
Print Assumptions C12_segy_zero_scalar_refuted.

(** Any other scalar: the value is rounded to the decade of the scalar. *)
Theorem C12_other_scalars_partial : forall i j s, s <> 0%Z -> exists x, scaled i j s = Ok x /\
  (Qcabs (x - meant (if (s <? 0)%Z then i else j) s) <=
   half * (if (s <? 0)%Z then 1 / QcZ (10 ^ ilog10 (- s)) else QcZ (10 ^ ilog10 s)))%Qc.
Proof. exact scaled_error. Qed.
Print Assumptions C12_other_scalars_partial.

Theorem C12_other_scalars_refuted : exists h s,
  h_scale h = Value 15%Z /\ from_trace (tr1 (Su h)) id1 id1 = Ok s /\
  sx s = QcZ 20 /\ meant (or_default (h_gx h) 0%Z) 15 = QcZ 15.
Proof.
  exists (su 15 1 1). eexists. split; [reflexivity|]. split; [vm_compute; reflexivity|].
  split; apply Qc_is_canon; vm_compute; reflexivity.
Qed.
Print Assumptions C12_other_scalars_refuted.

(** Coordinates in degrees are refused. *)
Theorem C12_degrees_refused : forall f tr h mx my,
  (f = F_su /\ t_header tr = Su h) \/ (f = F_segy /\ t_header tr = Segy h) ->
  (forall u, h_units h = Value u -> u <> 0%Z /\ u <> 1%Z) -> h_units h <> Missing ->
  parse_source f mx my tr = Err ValueError.
Proof. exact source_units. Qed.
Print Assumptions C12_degrees_refused.

Example C12_example :
  match from_trace (tr1 (Su (su (-100) 1234 (-50)))) id1 id1 with
  | Ok s => this (sx s) = (617 # 50)%Q /\ this (sy s) = ((-1) # 2)%Q
  | Err _ => False end /\ standard_scalar (-100).
Proof. split; [vm_compute; auto|]. right. exists 2%Z. split; [lia|now right]. Qed.

(** ** C13 *)
(** Whole millimetres, milliseconds and microseconds, one stack: everything but
    z comes back.  Missing: other stack counts, z, positive delays (refuted). *)
Theorem C13_round_trip_partial : forall (F K : Type) (read : option K -> F -> result (list trace)) a stream kw f,
  consistent a ->
  (forall s, In s (sensors a) -> whole 1000 (sx s) /\ whole 1000 (sy s) /\ whole 1000 (delay (ser s)) /\
     whole 1000000 (dt (ser s)) /\ nstacks (ser s) = 1%Z /\ (delay (ser s) <= 0)%Qc) ->
  whole 1000 (src_x (src a)) -> whole 1000 (src_y (src a)) ->
  to_file a true = Ok stream -> read kw f = Ok stream ->
  exists a', from_files read id1 id1 kw [f] = Ok a' /\
    Forall2 read_back (sensors a) (sensors a') /\
    src_x (src a') = src_x (src a) /\ src_y (src a') = src_y (src a) /\ src_z (src a') = 0%Qc.
Proof. exact @round_trip_exact. Qed.
Print Assumptions C13_round_trip_partial.

(** Arbitrary coordinates: at most half a millimetre, half a millisecond, half a
    microsecond, in the same order. *)
Theorem C13_round_trip_error_partial : forall (F K : Type) (read : option K -> F -> result (list trace)) a stream kw f a',
  consistent a -> (forall s, In s (sensors a) -> (1 <= nstacks (ser s))%Z /\ (delay (ser s) <= 0)%Qc) ->
  to_file a true = Ok stream -> read kw f = Ok stream ->
  from_files read id1 id1 kw [f] = Ok a' ->
  Forall2 near_copy (sensors a) (sensors a') /\
  (Qcabs (src_x (src a') - src_x (src a)) <= half_unit)%Qc /\ (Qcabs (src_y (src a') - src_y (src a)) <= half_unit)%Qc.
Proof. exact @round_trip_near. Qed.
Print Assumptions C13_round_trip_error_partial.

(** Reading back fails exactly when two receivers share a millimetre. *)
Theorem C13_readable_partial : forall (F K : Type) (read : option K -> F -> result (list trace)) a stream kw f,
  consistent a -> (forall s, In s (sensors a) -> (1 <= nstacks (ser s))%Z /\ (delay (ser s) <= 0)%Qc) ->
  to_file a true = Ok stream -> read kw f = Ok stream ->
  (NoDup (map (fun s => millimetre (sx s)) (sensors a)) ->
     exists a', from_files read id1 id1 kw [f] = Ok a' /\ length (sensors a') = length (sensors a)) /\
  (~ NoDup (map (fun s => millimetre (sx s)) (sensors a)) ->
     from_files read id1 id1 kw [f] = Err ValueError).
Proof.
  intros F K read a stream kw f C H W R. destruct (read_back_near read a stream kw f C H W R) as [P Q].
  split; [|exact Q]. intros N. eexists. split; [exact (P N)|]. apply map_length.
Qed.
Print Assumptions C13_readable_partial.

Local Definition s13 (x y z : Qc) (n : Z) (de : Qc) : sensor := mkSensor (mkSeries [QcZ 1; QcZ 2] (q 1 1000) n de 1) x y z.
Local Definition rt (a : array) : result array :=
  match to_file a true with
  | Ok st => from_files (fun (_ : option unit) (_ : unit) => Ok st) id1 id1 None [tt]
  | Err e => Err e
  end.
Local Definition a13 : array := mkArray [s13 0 0 0 1 (q (-1) 10); s13 (q 2345 1000) 0 0 1 (q (-1) 10)] (mkSource (q (-5) 1) 0 0).
Example C13_example :
  match rt a13 with Ok b => array_eq b a13 = true /\ map (fun s => this (sx s)) (sensors b) = [0; 469 # 200]%Q | Err _ => False end /\
  consistent a13.
Proof.
  split; [vm_compute; auto|].
  apply (new_array_spec [s13 0 0 0 1 (q (-1) 10); s13 (q 2345 1000) 0 0 1 (q (-1) 10)] (mkSource (q (-5) 1) 0 0)). reflexivity.
Qed.

(** A record of two stacks is written as one. *)
Theorem C13_stack_count_refuted : exists a a' s s',
  consistent a /\ rt a = Ok a' /\ sensors a = [s] /\ sensors a' = [s'] /\
  nstacks (ser s) = 3%Z /\ nstacks (ser s') = 2%Z.
Proof.
  exists (mkArray [s13 0 0 0 3 0] (mkSource (q (-5) 1) 0 0)). eexists. eexists. eexists.
  split; [apply (new_array_spec [s13 0 0 0 3 0] (mkSource (q (-5) 1) 0 0)); reflexivity|].
  split; [vm_compute; reflexivity|]. repeat split; reflexivity.
Qed.
Print Assumptions C13_stack_count_refuted.

Theorem C13_elevation_refuted : exists a a' s s',
  consistent a /\ rt a = Ok a' /\ sensors a = [s] /\ sensors a' = [s'] /\ sz s = QcZ 4 /\ sz s' = QcZ 0.
Proof.
  exists (mkArray [s13 0 0 (QcZ 4) 1 0] (mkSource (q (-5) 1) 0 0)). eexists. eexists. eexists.
  split; [apply (new_array_spec [s13 0 0 (QcZ 4) 1 0] (mkSource (q (-5) 1) 0 0)); reflexivity|].
  split; [vm_compute; reflexivity|]. repeat split; apply Qc_is_canon; reflexivity.
Qed.
Print Assumptions C13_elevation_refuted.

(** An array trimmed to a positive start is written but cannot be read. *)
Theorem C13_trimmed_refuted : exists a, array_reachable a /\
  (exists st, to_file a true = Ok st) /\ rt a = Err ValueError.
Proof.
  exists (fst (array_trim (mkArray [s13 0 0 0 1 0] (mkSource (q (-5) 1) 0 0)) (q 1 1000) (q 1 1000))).
  split; [|split; [eexists; vm_compute; reflexivity|vm_compute; reflexivity]].
  exists [s13 0 0 0 1 0], (mkSource (q (-5) 1) 0 0), (mkArray [s13 0 0 0 1 0] (mkSource (q (-5) 1) 0 0)), [ArrTrim (q 1 1000) (q 1 1000)].
  split; [|split; reflexivity].
  repeat constructor; try (vm_compute; reflexivity); try (vm_compute; discriminate).
Qed.
Print Assumptions C13_trimmed_refuted.

Theorem C13_only_su : forall a, to_file a false = Err ValueError.
Proof. reflexivity. Qed.
Print Assumptions C13_only_su.

(** ** C14 *)
Theorem C14_records_are_valid : forall tr mx my,
  match from_trace tr mx my with
  | Ok s => (1 <= nstacks (ser s))%Z /\ (delay (ser s) <= 0)%Qc /\ amp (ser s) = t_data tr /\
            dt (ser s) = t_delta tr /\ multiple (ser s) = 1%Z /\ sz s = 0%Qc
  | Err e => e = ValueError \/ t_header tr = OtherFormat /\ e = NotImplementedError
  end.
Proof. exact from_trace_valid. Qed.
Print Assumptions C14_records_are_valid.

Theorem C14_seg2_defaults : forall tr h mx my, t_header tr = Seg2 h ->
  from_trace tr mx my =
  let ns := or_default (g_stack h) 1%Z in let de := or_default (g_delay h) 0%Qc in
  if (1 <=? ns)%Z && Qcleb de 0%Qc
  then Ok (mkSensor (mkSeries (t_data tr) (t_delta tr) ns de 1) (mx (or_default (g_receiver h) 0%Qc)) (my 0%Qc) 0%Qc)
  else Err ValueError.
Proof. exact read_seg2. Qed.
Print Assumptions C14_seg2_defaults.

Theorem C14_su_defaults : forall tr h, su_like (t_header tr) h -> exists x y, forall mx my,
  from_trace tr mx my =
  if (1 <=? recorded_stacks h)%Z && Qcleb (recorded_delay h) 0%Qc
  then Ok (mkSensor (mkSeries (t_data tr) (t_delta tr) (recorded_stacks h) (recorded_delay h) 1) (mx x) (my y) 0%Qc)
  else Err ValueError.
Proof. intros tr h L. destruct (read_su tr h L) as (x & y & _ & _ & R). exists x, y. exact R. Qed.
Print Assumptions C14_su_defaults.

Example C14_example :
  (exists s, from_trace (tr1 (Su (mkSu Missing Missing Missing Missing Missing Unparsable Missing Missing))) id1 id1 = Ok s /\ sx s = QcZ 0) /\
  from_trace (tr1 (Seg2 (mkSeg2 (Value 0%Z) Missing Missing Missing))) id1 id1 = Err ValueError /\
  from_trace (tr1 (Seg2 (mkSeg2 Missing (Value (q 1 2)) Missing Missing))) id1 id1 = Err ValueError.
Proof.
  split; [|split; reflexivity]. eexists. split; [vm_compute; reflexivity|]. apply Qc_is_canon; vm_compute; reflexivity.
Qed.

(** ** C19 *)
(** For files with as many traces as receivers.  Missing: shorter files and
    traces of different stack counts within a file (refuted below). *)
Theorem C19_multi_file_mean_partial : forall (F K : Type) (read : option K -> F -> result (list trace)) mx my kw f0 rest a,
  from_files read mx my kw (f0 :: rest) = Ok a ->
  (forall x st, In x rest -> read None x = Ok st -> length st = length (sensors a)) ->
  exists a0 S, from_files read mx my kw [f0] = Ok a0 /\ src a = src a0 /\ length (sensors a) = length (sensors a0) /\
    Forall2 (fun x ns => exists st, read None x = Ok st /\ Forall2 decodes st ns /\ length st = length (sensors a0)) rest S /\
    forall i d, i < length (sensors a0) ->
      let r0 := nth i (sensors a0) d in let rs := map (fun ns => nth i ns d) S in let r := nth i (sensors a) d in
      Forall (fun n => same_place n r0) rs /\ same_place r r0 /\
      nstacks (ser r) = total_stacks (map ser (r0 :: rs)) /\
      dt (ser r) = dt (ser r0) /\ delay (ser r) = delay (ser r0) /\ length (amp (ser r)) = length (amp (ser r0)) /\
      forall k, k < length (amp (ser r)) ->
        nth k (amp (ser r)) 0%Qc = weighted_mean (map (fun s => (nstacks (ser s), nth k (amp (ser s)) 0%Qc)) (r0 :: rs)).
Proof. exact @multi_mean. Qed.
Print Assumptions C19_multi_file_mean_partial.

Theorem C19_consistent_partial : forall (F K : Type) (read : option K -> F -> result (list trace)) mx my kw f0 rest a,
  from_files read mx my kw (f0 :: rest) = Ok a ->
  (forall x st, In x rest -> read None x = Ok st -> length st = length (sensors a)) ->
  (forall x st t u s r, In x rest -> read None x = Ok st -> In t st -> In u st -> decodes t s -> decodes u r ->
     nstacks (ser s) = nstacks (ser r)) ->
  consistent a.
Proof. exact @multi_consistent. Qed.
Print Assumptions C19_consistent_partial.

Local Definition su2 (x n : Z) : su_header :=
  mkSu (Value 1%Z) (Value 1%Z) (Value (-5)%Z) (Value 0%Z) (Value x) (Value 0%Z) (Value n) (Value 0%Z).
Local Definition tr2 (x n : Z) (l : list Z) : trace := mkTrace (map QcZ l) (q 1 1000) (Su (su2 x n)).
Local Definition disk (files : list (list trace)) (_ : option unit) (f : nat) : result (list trace) :=
  match nth_error files f with Some s => Ok s | None => Err FileNotFoundError end.
Example C19_example :
  match from_files (disk [[tr2 0 1 [1; 2]%Z; tr2 3 1 [3; 4]%Z]; [tr2 0 3 [5; 6]%Z; tr2 3 3 [7; 8]%Z]]) id1 id1 None [0; 1] with
  | Ok a => map (fun s => map this (amp (ser s))) (sensors a) = [[4; 5]; [6; 7]]%Q /\
            map (fun s => nstacks (ser s)) (sensors a) = [4; 4]%Z
  | Err _ => False
  end.
Proof. vm_compute. auto. Qed.

(** The second file has one trace less: accepted, the last receiver is not stacked. *)
Theorem C19_missing_trace_refuted : exists (read : option unit -> nat -> result (list trace)) a,
  from_files read id1 id1 None [0; 1] = Ok a /\ ~ consistent a.
Proof.
  exists (disk [[tr2 0 1 [1; 2]%Z; tr2 3 1 [3; 4]%Z]; [tr2 0 3 [5; 6]%Z]]). eexists.
  split; [vm_compute; reflexivity|]. intros (_ & _ & A).
  specialize (A _ _ (or_introl eq_refl) (or_intror (or_introl eq_refl))) as (_ & N & _). discriminate N.
Qed.
Print Assumptions C19_missing_trace_refuted.

(** Traces of the second file with different stack counts: accepted. *)
Theorem C19_unequal_counts_refuted : exists (read : option unit -> nat -> result (list trace)) a,
  from_files read id1 id1 None [0; 1] = Ok a /\ length (sensors a) = 2 /\ ~ consistent a.
Proof.
  exists (disk [[tr2 0 1 [1; 2]%Z; tr2 3 1 [3; 4]%Z]; [tr2 0 3 [5; 6]%Z; tr2 3 4 [7; 8]%Z]]). eexists.
  split; [vm_compute; reflexivity|]. split; [reflexivity|]. intros (_ & _ & A).
  specialize (A _ _ (or_introl eq_refl) (or_intror (or_introl eq_refl))) as (_ & N & _). discriminate N.
Qed.
Print Assumptions C19_unequal_counts_refuted.

(** The same two files, the traces of the second in another order: refused
    although every receiver has its counterpart. *)
Theorem C19_trace_order_refuted : exists (read : option unit -> nat -> result (list trace)),
  (exists a, from_files read id1 id1 None [0] = Ok a) /\
  (exists a b, from_files read id1 id1 None [0] = Ok a /\ from_files read id1 id1 None [1] = Ok b /\
     map sx (sensors a) = map sx (sensors b) /\ src a = src b) /\
  from_files read id1 id1 None [0; 1] = Err ValueError.
Proof.
  exists (disk [[tr2 0 1 [1; 2]%Z; tr2 3 1 [3; 4]%Z]; [tr2 3 1 [5; 6]%Z; tr2 0 1 [7; 8]%Z]]).
  split; [eexists; vm_compute; reflexivity|]. split; [|vm_compute; reflexivity].
  eexists. eexists. split; [vm_compute; reflexivity|]. split; [vm_compute; reflexivity|]. split; reflexivity.
Qed.
Print Assumptions C19_trace_order_refuted.

(** ** C20 *)
(** One SU or SEGY file.  Missing: further files and the SEG2 source (refuted). *)
Theorem C20_single_file_partial : forall (F K : Type) (read : option K -> F -> result (list trace)) mx my kw f a',
  (forall st t h, read kw f = Ok st -> In t st -> t_header t <> Seg2 h) ->
  (from_files read mx my kw [f] = Ok a' <->
   exists a, from_files read id1 id1 kw [f] = Ok a /\
     new_array (map (map_sensor mx my) (sensors a)) (map_source mx my (src a)) = Ok a').
Proof. exact @single_file_maps. Qed.
Print Assumptions C20_single_file_partial.

Example C20_example :
  match from_files (disk [[tr2 0 1 [1; 2]%Z; tr2 3 1 [3; 4]%Z]]) (fun x => - x)%Qc id1 None [0] with
  | Ok a => map (fun s => this (sx s)) (sensors a) = [-3; 0]%Q /\ this (src_x (src a)) = 5%Q
  | Err _ => False
  end.
Proof. vm_compute. auto. Qed.

(** With two files the receivers of the second are not mapped: refused. *)
Theorem C20_second_file_refuted : exists (read : option unit -> nat -> result (list trace)) mx,
  (exists a, from_files read id1 id1 None [0; 1] = Ok a) /\
  from_files read mx id1 None [0; 1] = Err ValueError /\
  (forall x y, mx x = mx y -> x = y).
Proof.
  exists (disk [[tr2 0 1 [1; 2]%Z; tr2 3 1 [3; 4]%Z]; [tr2 0 3 [5; 6]%Z; tr2 3 3 [7; 8]%Z]]), (fun x => x + 1)%Qc.
  split; [eexists; vm_compute; reflexivity|]. split; [vm_compute; reflexivity|].
  intros x y H. apply (f_equal (fun v => v - 1)%Qc) in H. ring_simplify in H. exact H.
Qed.
Print Assumptions C20_second_file_refuted.

(** The read options reach only the first file. *)
Theorem C20_read_options_refuted : exists (read : option bool -> nat -> result (list trace)),
  (exists a, from_files read id1 id1 (Some true) [0] = Ok a) /\
  (exists a, from_files read id1 id1 (Some true) [1] = Ok a) /\
  from_files read id1 id1 (Some true) [0; 1] = Err TypeError.
Proof.
  exists (fun k f => match k with None => Err TypeError | Some _ => disk [[tr2 0 1 [1]%Z]; [tr2 0 1 [3]%Z]] None f end).
  split; [eexists; vm_compute; reflexivity|]. split; [eexists; vm_compute; reflexivity|vm_compute; reflexivity].
Qed.
Print Assumptions C20_read_options_refuted.

(** SEG2: the y map moves the receivers but not the source. *)
Theorem C20_seg2_source_refuted : exists (read : option unit -> nat -> result (list trace)) my a s,
  from_files read id1 my None [0] = Ok a /\ sensors a = [s] /\ sy s <> src_y (src a) /\
  exists b r, from_files read id1 id1 None [0] = Ok b /\ sensors b = [r] /\ sy r = src_y (src b).
Proof.
  exists (disk [[mkTrace [QcZ 1] (q 1 10) (Seg2 (mkSeg2 Missing Missing (Value (QcZ 2)) (Value (QcZ 0))))]]), (fun y => y + QcZ 7)%Qc.
  eexists. eexists. split; [vm_compute; reflexivity|]. split; [reflexivity|].
  split; [intros H; apply (f_equal this) in H; vm_compute in H; discriminate H|].
  eexists. eexists. split; [vm_compute; reflexivity|]. split; [reflexivity|]. apply Qc_is_canon. reflexivity.
Qed.
Print Assumptions C20_seg2_source_refuted.

(** ** C73 *)
Theorem C73_source_signal_mean_partial : forall (F K : Type) (read : option K -> F -> result (list trace)) ch fs r d,
  source_signal read ch fs = Ok (r, d) ->
  (forall x y st su tr tu, In x fs -> In y fs -> read None x = Ok st -> read None y = Ok su ->
     pyget st ch = Ok tr -> pyget su ch = Ok tu -> length (t_data tr) = length (t_data tu)) ->
  exists trs, Forall2 (fun x tr => exists st, read None x = Ok st /\ pyget st ch = Ok tr) fs trs /\
    (exists t0, hd_error trs = Some t0 /\ d = t_delta t0 /\ length r = length (t_data t0)) /\
    forall k, k < length r ->
      nth k r 0%Qc = (Qcsum (map (fun tr => nth k (t_data tr) 0%Qc) trs) / QcN (length fs))%Qc.
Proof. exact @source_signal_mean. Qed.
Print Assumptions C73_source_signal_mean_partial.

Example C73_example :
  match source_signal (disk [[tr2 0 1 [1; 2]%Z]; [tr2 0 1 [3; 4]%Z]; [tr2 0 1 [5; 9]%Z]]) 0 [0; 1; 2] with
  | Ok (r, _) => map this r = [3; 5]%Q
  | Err _ => False
  end.
Proof. vm_compute. reflexivity. Qed.

(** Source signals recorded with different time steps are averaged all the same. *)
Theorem C73_time_step_refuted : exists (read : option unit -> nat -> result (list trace)) r d st tr,
  source_signal read 0 [0; 1] = Ok (r, d) /\ read None 1 = Ok st /\ pyget st 0 = Ok tr /\ t_delta tr <> d.
Proof.
  exists (disk [[mkTrace [QcZ 1] (q 1 10) NoFormat]; [mkTrace [QcZ 3] (q 1 20) NoFormat]]).
  eexists. eexists. eexists. eexists. split; [vm_compute; reflexivity|]. split; [reflexivity|].
  split; [reflexivity|]. intros H. apply (f_equal this) in H. vm_compute in H. discriminate H.
Qed.
Print Assumptions C73_time_step_refuted.
