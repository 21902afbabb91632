(* Property C21: when muting succeeds, and what it does when it should not. *)
From Verif Require Import PyFacts NumFacts SeriesModel SeriesSpec SeriesProofs.
From Verif Require Import ArrayModel ArraySpec ArrayProofs ArrayMuteProofs MuteProofs.

Local Definition q (a : Z) (b : positive) : Qc := Q2Qc (a # b).
Local Definition z (a : Z) : Qc := QcZ a.
Local Definition rec (l : list Z) : series := mkSeries (map QcZ l) (q 1 10) 1 0%Qc 1.
Local Definition at_x (x : Z) (l : list Z) : sensor := mkSensor (rec l) (z x) 0%Qc 0%Qc.
Local Definition a21 : array :=
  mkArray [at_x 0 [1; 2; 3; 4; 5; 6]%Z; at_x 2 [5; 6; 7; 8; 9; 10]%Z] (mkSource (z (-5)) 0%Qc 0%Qc).
Local Definition box (M : nat) : list Qc := repeat 1%Qc M.
Local Definition flat (t : Qc) : line := ((0%Qc, t), (z 2, t)).
Local Lemma a21_consistent : consistent a21.
Proof. apply (new_array_spec (sensors a21) (src a21)). reflexivity. Qed.
Local Lemma flat_slanted t : slanted (flat t).
Proof. intros H; apply (f_equal this) in H; discriminate H. Qed.

(** Whatever the two lines, muting either succeeds for every sensor, or is
    refused with a ValueError, and which of the two happens is decided by the
    two sample numbers of each sensor. *)
Theorem C21_outcome : forall a taper ss se,
  consistent a -> (forall M, length (taper M) = M) -> lines_slanted ss se ->
  (forall s, In s (sensors a) -> (0 < dt (ser s))%Qc) ->
  ((forall s i j, In s (sensors a) -> first_number ss s i -> end_number se s j ->
      placeable (Z.of_nat (length (amp (ser s)))) i j) -> snd (mute a taper ss se) = Ok tt) /\
  ((exists s i j, In s (sensors a) /\ first_number ss s i /\ end_number se s j /\
      ~ placeable (Z.of_nat (length (amp (ser s)))) i j) -> snd (mute a taper ss se) = Err ValueError).
Proof. exact mute_outcome. Qed.
Print Assumptions C21_outcome.

(** A start line 0.2 s before the record: refused.  Start and end lines
    inside it: accepted. *)
Example C21_outcome_example :
  consistent a21 /\ (forall M, length (box M) = M) /\ lines_slanted (Some (flat (q (-2) 10))) None /\
  (forall s, In s (sensors a21) -> (0 < dt (ser s))%Qc) /\
  (exists s i j, In s (sensors a21) /\ first_number (Some (flat (q (-2) 10))) s i /\ end_number None s j /\
     ~ placeable (Z.of_nat (length (amp (ser s)))) i j) /\
  snd (mute a21 box (Some (flat (q (-2) 10))) None) = Err ValueError /\
  snd (mute a21 box (Some (flat (q 1 10))) (Some (flat (q 4 10)))) = Ok tt.
Proof.
  split; [exact a21_consistent|]. split; [intros M; apply repeat_length|].
  split; [split; [apply flat_slanted|exact I]|].
  split; [intros s [<-|[<-|[]]]; reflexivity|].
  split; [|split; reflexivity].
  exists (at_x 0 [1; 2; 3; 4; 5; 6]%Z), (-2)%Z, 5%Z. split; [now left|]. split; [|split; [reflexivity|]].
  - exists (q (-2) 10). split; [apply Qc_is_canon; reflexivity|]. split.
    + intros H. exfalso. apply H. reflexivity.
    + intros _. split; vm_compute; [reflexivity|discriminate].
  - cbn. unfold placeable. lia.
Qed.

(** Both lines before the first sample: every sample is after the end of the
    window, yet the samples at 0.2 s and 0.3 s survive, because negative sample
    numbers count from the end of the record. *)
Theorem C21_before_record_refuted : exists a taper ts te s s',
  array_reachable a /\ (forall M, length (taper M) = M) /\ (forall M v, In v (taper M) -> v = 1%Qc) /\
  (ts < te)%Qc /\
  snd (mute a taper (Some (flat ts)) (Some (flat te))) = Ok tt /\
  nth_error (sensors a) 0 = Some s /\
  nth_error (sensors (fst (mute a taper (Some (flat ts)) (Some (flat te))))) 0 = Some s' /\
  (te < delay (ser s))%Qc /\
  exists k, k < length (amp (ser s)) /\ (te < time_at (ser s) k)%Qc /\
    nth k (amp (ser s')) 0%Qc = nth k (amp (ser s)) 0%Qc /\ nth k (amp (ser s)) 0%Qc <> 0%Qc.
Proof.
  exists a21, box, (q (-4) 10), (q (-2) 10). eexists. eexists.
  split; [|split; [|split; [|split; [reflexivity|split; [reflexivity|split; [reflexivity|split; [reflexivity|split; [reflexivity|]]]]]]]].
  - exists (sensors a21), (src a21), a21, []. split; [|split; reflexivity].
    repeat constructor; try (vm_compute; reflexivity); try (vm_compute; discriminate).
  - intros M. apply repeat_length.
  - intros M v H. now apply repeat_spec in H.
  - exists 2%nat. split; [vm_compute; lia|]. split; [reflexivity|]. split.
    + apply Qc_is_canon; vm_compute; reflexivity.
    + intros H; apply (f_equal this) in H; vm_compute in H; discriminate H.
Qed.
Print Assumptions C21_before_record_refuted.
