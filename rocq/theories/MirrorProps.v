(* C129: it does not matter from which side of the line a survey is seen. *)
From Verif Require Import NumFacts PyFacts HeaderModel ArrayModel ArraySpec ArrayProofs TransformModel SpectrumModel MirrorSpec MirrorProofs MirrorSlantProofs MirrorImageProofs.
Local Open Scope nat_scope.
Local Open Scope list_scope.

(** Counting the line in the other direction reverses the receivers; offsets go with their receivers, spacing and source location do not change. *)
Theorem C129_geometry : forall a, mirrored (mirrored a) = a /\ offsets (mirrored a) = rev (offsets a) /\ spacing (mirrored a) = spacing a /\ source_inside (mirrored a) = source_inside a.
Proof. intros a. repeat split; [apply mirror_twice|apply offsets_mirror|apply spacing_mirror|apply inside_mirror]. Qed.
Print Assumptions C129_geometry.

(** A source off either end: the transforms are given the same records and offsets, from near to far. *)
Theorem C129_flipped : forall a, sensors a <> [] -> off_end a -> flipped (mirrored a) = flipped a.
Proof. exact flipped_mirror. Qed.
Print Assumptions C129_flipped.

(** The slant stack is the same, or the same with the opposite sign, wherever the source stands. *)
Theorem C129_slant_stack : forall a v rows, consistent a -> slant_stack a v = Ok rows ->
  slant_stack (mirrored a) v = Ok rows \/ slant_stack (mirrored a) v = Ok (map (map Qcopp) rows).
Proof. exact slant_any. Qed.
Print Assumptions C129_slant_stack.

(** The image has the same frequencies and magnitudes. *)
Theorem C129_image : forall a vels fl fh fs p, consistent a -> (forall s t, In s (sensors a) -> In t (sensors a) -> multiple (ser s) = multiple (ser t)) ->
  slant_transform a vels fl fh = Ok (fs, p) -> exists p', slant_transform (mirrored a) vels fl fh = Ok (fs, p') /\ map (map Cmod) p' = map (map Cmod) p.
Proof. exact image_mirror. Qed.
Print Assumptions C129_image.

(** With a source off either end the phase-shift and beamforming images are identical. *)
Theorem C129_other_images : forall a vels fl fh, consistent a -> (forall s t, In s (sensors a) -> In t (sensors a) -> multiple (ser s) = multiple (ser t)) -> off_end a ->
  BeamModel.phase_shift (mirrored a) vels fl fh = BeamModel.phase_shift a vels fl fh /\
  forall angle weighting steering, BeamModel.fdbf angle weighting steering (mirrored a) vels fl fh = BeamModel.fdbf angle weighting steering a vels fl fh.
Proof. intros a vels fl fh C MU O. split; [now apply phase_mirror|intros; now apply beam_mirror]. Qed.
Print Assumptions C129_other_images.

(** The array is built from either side, or refused alike. *)
Theorem C129_constructor : forall l s, new_array (map mirrored_sensor l) (mirrored_source s) = match new_array l s with Ok a => Ok (mirrored a) | Err e => Err e end.
Proof. intros l s. destruct (new_array l s) eqn:H; [now apply new_array_mirror_ok|now apply new_array_mirror_err]. Qed.
Print Assumptions C129_constructor.

(** Reading a file with the sign of map_x changed gives the survey seen from the other side, for every format. *)
Theorem C129_map_x : forall (F K : Type) (read : option K -> F -> result (list trace)) mx my kw f,
  from_files read (fun x => (- mx x)%Qc) my kw [f] = match from_files read mx my kw [f] with Ok a => Ok (mirrored a) | Err e => Err e end.
Proof. exact @from_files_mirror. Qed.
Print Assumptions C129_map_x.

(** Detrending, and successful trimming, padding and muting along mirrored lines, do the same. *)
Theorem C129_operations : forall a, array_detrend (mirrored a) = mirrored (array_detrend a) /\
  (forall b e a', array_trim a b e = (a', Ok tt) -> array_trim (mirrored a) b e = (mirrored a', Ok tt)) /\
  (forall f a', array_zero_pad a f = (a', Ok tt) -> array_zero_pad (mirrored a) f = (mirrored a', Ok tt)) /\
  (forall taper ss se a', consistent a -> mute a taper ss se = (a', Ok tt) ->
     mute (mirrored a) taper (option_map mirrored_line ss) (option_map mirrored_line se) = (mirrored a', Ok tt)).
Proof. intros a. repeat split; intros; [apply detrend_mirror|now apply trim_mirror|now apply pad_mirror|now apply mute_mirror]. Qed.
Print Assumptions C129_operations.

(** * Concrete cases *)
Local Definition rec (l : list Z) (x : Z) : sensor := mkSensor (mkSeries (map QcZ l) 1%Qc 1%Z 0%Qc 1%Z) (QcZ x) 0%Qc 0%Qc.
Local Definition spread : list sensor := [rec [0; 1; 4; 2; 5; 3]%Z 0; rec [2; 0; 1; 7; 1; 8]%Z 2; rec [3; 1; 0; 4; 1; 5]%Z 5].
Local Definition shot (x : Z) : array := mkArray spread (mkSource (QcZ x) 0%Qc 0%Qc).
Local Definition agrees (l m : list (list Qc)) : bool :=
  Nat.eqb (List.length l) (List.length m) && forallb (fun p => Nat.eqb (List.length (fst p)) (List.length (snd p)) && forallb (fun q => Qceqb (fst q) (snd q)) (combine (fst p) (snd p))) (combine l m).
Local Definition images (x : Z) (sign : Qc) : bool :=
  match slant_stack (shot x) [QcZ 5; QcZ 3], slant_stack (mirrored (shot x)) [QcZ 5; QcZ 3] with
  | Ok l, Ok m => negb (agrees l (map (map (fun _ => 0%Qc)) l)) && agrees (map (map (Qcmult sign)) l) m | _, _ => false end.
Local Definition count (r : array * result unit) : nat := match r with (a, Ok _) => List.length (sensors a) | (_, Err _) => 0 end.

(** Selecting receivers by offset is not the same from the other side: with the far receivers first nothing is found. *)
Theorem C129_trim_offsets_refuted : exists a mn mx, consistent a /\ off_end a /\
  count (trim_offsets a mn mx) = 2 /\ trim_offsets (mirrored a) mn mx = (mirrored a, Err ValueError).
Proof.
  exists (shot (-1)), 0%Qc, (QcZ 4). split; [|split; [|split]].
  - split; [discriminate|]. split.
    + repeat (constructor; [|repeat (apply Forall_cons || apply Forall_nil); apply Qcltb_lt; vm_compute; reflexivity]). constructor.
    + intros s t [<-|[<-|[<-|[]]]] [<-|[<-|[<-|[]]]]; repeat split.
  - left. intros s [<-|[<-|[<-|[]]]]; apply Qcltb_lt; vm_compute; reflexivity.
  - vm_compute. reflexivity.
  - unfold trim_offsets. replace (trim_offsets_loop 0 (QcZ 4) _) with (@nil sensor); [reflexivity|]. cbv [trim_offsets_loop combine offsets mirrored sensors shot spread map rev app].
    match goal with |- context [Qcltb ?m ?o] => replace (Qcltb m o) with true by (vm_compute; reflexivity) end. reflexivity.
Qed.
Print Assumptions C129_trim_offsets_refuted.
(** Shots before, at the end of, and within the spread: the same slant stack for the first, the opposite sign for the others. *)
Example C129_example : images (-1) 1%Qc = true /\ images 6 1%Qc = true /\ images 5 (- (1))%Qc = true /\ images 0 (- (1))%Qc = true /\ images 3 (- (1))%Qc = true /\
  spacing (shot 0) = Err ValueError /\ source_inside (shot 3) = true /\ consistent (shot 3) /\
  match mute (shot 3) (fun n => repeat 1%Qc n) (Some ((0%Qc, 1%Qc), (QcZ 5, QcZ 2))) None with (_, Ok _) => true | _ => false end = true.
Proof.
  do 5 (split; [vm_compute; reflexivity|]). split; [reflexivity|]. split; [vm_compute; reflexivity|]. split; [|vm_compute; reflexivity].
  split; [discriminate|]. split.
  - repeat (constructor; [|repeat (apply Forall_cons || apply Forall_nil); apply Qcltb_lt; vm_compute; reflexivity]). constructor.
  - intros s t [<-|[<-|[<-|[]]]] [<-|[<-|[<-|[]]]]; repeat split.
Qed.
