(* Properties C21 and C70: the effect of muting for every pair of lines, and what a refused call leaves behind. *)
From Verif Require Import PyFacts NumFacts SeriesModel SeriesSpec SeriesProofs.
From Verif Require Import ArrayModel ArraySpec ArrayProofs ArrayMuteProofs MuteProofs MuteStopSpec MuteStopProofs.

(** ** C70 *)
(** The sensors are muted one after the other up to the first whose window cannot be placed: those before it
    are muted for good, it and those behind it are as they were, and ValueError is raised; if there is none,
    all are muted.  The source and everything but the samples is kept. *)
Theorem C70_stops : forall a taper ss se,
  consistent a -> (forall M, length (taper M) = M) -> lines_slanted ss se ->
  (forall s, In s (sensors a) -> (0 < dt (ser s))%Qc) ->
  exists done done' rest, sensors a = done ++ rest /\ sensors (fst (mute a taper ss se)) = done' ++ rest
    /\ src (fst (mute a taper ss se)) = src a
    /\ Forall2 (fun s s' => exists i j, first_number ss s i /\ end_number se s j /\ placeable (Z.of_nat (length (amp (ser s)))) i j
                  /\ windowed taper i j s s') done done'
    /\ (rest = [] -> snd (mute a taper ss se) = Ok tt)
    /\ (forall s r, rest = s :: r -> snd (mute a taper ss se) = Err ValueError
          /\ exists i j, first_number ss s i /\ end_number se s j /\ ~ placeable (Z.of_nat (length (amp (ser s)))) i j).
Proof. exact mute_stops. Qed.
Print Assumptions C70_stops.

(** ** C21 *)
(** Muting that succeeds multiplies the samples of every sensor by the factors of its window,
    wherever the two lines are. *)
Theorem C21_effect : forall a taper ss se a',
  consistent a -> (forall M, length (taper M) = M) -> lines_slanted ss se ->
  (forall s, In s (sensors a) -> (0 < dt (ser s))%Qc) -> mute a taper ss se = (a', Ok tt) ->
  src a' = src a /\
  Forall2 (fun s s' => exists i j, first_number ss s i /\ end_number se s j /\ windowed taper i j s s') (sensors a) (sensors a').
Proof.
  intros a taper ss se a' C T SL D H. destruct (mute_stops a taper ss se C T SL D) as (done & done' & rest & A & B & S & F & G & K).
  rewrite H in B, S, G, K. cbn [fst snd] in *. split; [exact S|].
  destruct rest as [|s r]; [|destruct (K s r eq_refl) as [X _]; discriminate X].
  rewrite app_nil_r in A, B. rewrite A, B. clear -F. induction F as [|s s' l l' (i & j & X1 & X2 & _ & X3) F IH]; constructor; [|exact IH].
  exists i, j. auto.
Qed.
Print Assumptions C21_effect.

Local Definition q (a : Z) (b : positive) : Qc := Q2Qc (a # b).
Local Definition at_x (x : Z) (l : list Z) : sensor := mkSensor (mkSeries (map QcZ l) (q 1 10) 1 0%Qc 1) (QcZ x) 0%Qc 0%Qc.
Local Definition a21 : array :=
  mkArray [at_x 0 [1; 2; 3; 4; 5; 6]%Z; at_x 2 [5; 6; 7; 8; 9; 10]%Z] (mkSource (QcZ (-5)) 0%Qc 0%Qc).
Local Definition box (M : nat) : list Qc := repeat 1%Qc M.
Local Definition tilted : line := ((0%Qc, q 4 10), (QcZ 2, 0%Qc)).
Local Definition flat (t : Qc) : line := ((0%Qc, t), (QcZ 2, t)).
Local Definition samples (a : array) : list (list Q) := map (fun s => map this (amp (ser s))) (sensors a).
(** The end line comes before the start line at the second sensor: the first is muted, the second is not. *)
Example C70_stops_example :
  consistent a21 /\ (forall M, length (box M) = M) /\ lines_slanted (Some (flat (q 1 10))) (Some tilted) /\
  (forall s, In s (sensors a21) -> (0 < dt (ser s))%Qc) /\
  samples (fst (mute a21 box (Some (flat (q 1 10))) (Some tilted))) = [[0; 2; 3; 4; 0; 0]; [5; 6; 7; 8; 9; 10]]%Q /\
  snd (mute a21 box (Some (flat (q 1 10))) (Some tilted)) = Err ValueError.
Proof.
  split; [apply (new_array_spec (sensors a21) (src a21)); reflexivity|]. split; [intros M; apply repeat_length|].
  split; [split; intros H; apply (f_equal this) in H; discriminate H|].
  split; [intros s [<-|[<-|[]]]; reflexivity|]. split; vm_compute; reflexivity.
Qed.
Example C21_effect_example : exists a', mute a21 box (Some (flat (q (-4) 10))) (Some (flat (q (-2) 10))) = (a', Ok tt) /\
  samples a' = [[0; 0; 3; 4; 0; 0]; [0; 0; 7; 8; 0; 0]]%Q.
Proof. eexists. split; [vm_compute; reflexivity|vm_compute; reflexivity]. Qed.
