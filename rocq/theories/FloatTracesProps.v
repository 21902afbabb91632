(* C109: the matrix of traces and its normalisation with every operation in double precision
   (/repo/swprocess/array1d.py:86-117).  [detrend] is any function, such as signal.detrend, or the identity. *)
From Coq Require Import Lra Lia.
From Verif Require Import FloatModel FloatSpec FloatProofs FloatSlantProofs FloatNormProofs FloatTracesModel FloatTracesSpec FloatTracesProofs.

(** "each": every trace is normalised by its own greatest absolute value. *)
Theorem C109_each : forall n k detrend traces, recorded n k (map detrend traces) ->
  forall i p, (i < n)%nat -> peak_of_trace k (map detrend traces) i p -> 0 < p ->
  forall j, (j < k)%nat -> normalised p (at_ (map detrend traces) i j) (at_ (timeseriesmatrix detrend "each" traces) i j).
Proof. exact each_normalised. Qed.
Print Assumptions C109_each.
(** "all": every trace is normalised by the greatest absolute value of all. *)
Theorem C109_all : forall n k detrend traces, recorded n k (map detrend traces) ->
  forall p, peak_of_all n k (map detrend traces) p -> 0 < p ->
  forall i j, (i < n)%nat -> (j < k)%nat -> normalised p (at_ (map detrend traces) i j) (at_ (timeseriesmatrix detrend "all" traces) i j).
Proof. exact all_normalised. Qed.
Print Assumptions C109_all.
(** Any other text normalises nothing. *)
Theorem C109_plain : forall detrend traces s, s <> "each"%string -> s <> "all"%string -> timeseriesmatrix detrend s traces = map detrend traces.
Proof. exact plain. Qed.
Print Assumptions C109_plain.
(** Whatever the normalisation, there is one row for each trace and one column for each sample. *)
Theorem C109_shape : forall n k detrend traces, recorded n k (map detrend traces) -> forall s,
  length (timeseriesmatrix detrend s traces) = n /\ forall t, In t (timeseriesmatrix detrend s traces) -> length t = k.
Proof. exact shape. Qed.
Print Assumptions C109_shape.
(** The full property, that the normalisation keeps the order of the samples of a trace (of all traces with "all") and
    keeps different samples different, is refuted below; the order is never reversed. *)
Theorem C109_order_partial : forall n k detrend traces, recorded n k (map detrend traces) ->
  (forall i p, (i < n)%nat -> peak_of_trace k (map detrend traces) i p -> 0 < p -> forall j j', (j < k)%nat -> (j' < k)%nat ->
   at_ (map detrend traces) i j <= at_ (map detrend traces) i j' ->
   at_ (timeseriesmatrix detrend "each" traces) i j <= at_ (timeseriesmatrix detrend "each" traces) i j') /\
  (forall p, peak_of_all n k (map detrend traces) p -> 0 < p -> forall i j i' j', (i < n)%nat -> (j < k)%nat -> (i' < n)%nat -> (j' < k)%nat ->
   at_ (map detrend traces) i j <= at_ (map detrend traces) i' j' ->
   at_ (timeseriesmatrix detrend "all" traces) i j <= at_ (timeseriesmatrix detrend "all" traces) i' j').
Proof. intros n k detrend traces Rc. split; [exact (each_order n k detrend traces Rc)|exact (all_order n k detrend traces Rc)]. Qed.
Print Assumptions C109_order_partial.
(** Normalising a second time changes nothing, to the last digit. *)
Theorem C109_twice : forall n k detrend traces s, recorded n k (map detrend traces) -> s = "each"%string \/ s = "all"%string ->
  (forall i, (i < n)%nat -> s = "each"%string -> exists p, 0 < p /\ peak_of_trace k (map detrend traces) i p) ->
  (s = "all"%string -> exists p, 0 < p /\ peak_of_all n k (map detrend traces) p) ->
  timeseriesmatrix (fun l => l) s (timeseriesmatrix detrend s traces) = timeseriesmatrix detrend s traces.
Proof. exact quotient_by_one. Qed.
Print Assumptions C109_twice.
(** A change of units that rounds no amplitude (such as a power of two) does not change the normalised matrix. *)
Theorem C109_units : forall c s traces, 0 < c -> s = "each"%string \/ s = "all"%string -> (forall t, In t traces -> t <> []) ->
  timeseriesmatrix (fun l => l) s (map (map (Rmult c)) traces) = timeseriesmatrix (fun l => l) s traces.
Proof. exact units. Qed.
Print Assumptions C109_units.

Local Ltac numbers := cbn [bpow radix_val radix2 Z.pow_pos Pos.iter Z.mul Pos.mul]; unfold Rdiv; lra.
(* two traces of three samples *)
Definition shots : list (list R) := [[6755399441055745; 6755399441055746; -13510798882111488]; [1; -2; 0]].
Lemma shots_recorded : recorded 2 3 (map (fun l => l) shots) /\ peak_of_trace 3 (map (fun l => l) shots) 0 13510798882111488 /\
  peak_of_trace 3 (map (fun l => l) shots) 1 2 /\ peak_of_all 2 3 (map (fun l => l) shots) 13510798882111488.
Proof.
  assert (K : forall z, (Z.abs z <= 2 ^ 53)%Z -> double (IZR z)) by (intros z Hz; rewrite <- (RN_int z Hz); apply RN_double).
  assert (D : double (-13510798882111488)).
  { replace (-13510798882111488) with (- (6755399441055744 * bpow radix2 1)) by (cbn; lra). apply double_opp.
    apply generic_format_FLT. exists (Float radix2 6755399441055744 1); cbn; [reflexivity|lia|lia]. }
  rewrite map_id. assert (A : forall i j, (i < 2)%nat -> (j < 3)%nat -> Rabs (at_ shots i j) <= (if Nat.eqb i 0 then 13510798882111488 else 2)).
  { intros i j Hi Hj. unfold at_. destruct i as [|[|i]]; [| |lia]; (destruct j as [|[|[|j]]]; [| | |lia]); cbn [nth shots Nat.eqb]; apply Rabs_le; lra. }
  split; [|split; [|split]].
  - split; [reflexivity|]. repeat apply Forall_cons; try apply Forall_nil; (split; [reflexivity|]); repeat apply Forall_cons; try apply Forall_nil; try exact D; apply K; lia.
  - split; [exists 2%nat; split; [lia|]; unfold at_; cbn [nth shots]; rewrite Rabs_left; lra|]. intros j Hj. apply (A 0%nat); lia.
  - split; [exists 1%nat; split; [lia|]; unfold at_; cbn [nth shots]; rewrite Rabs_left; lra|]. intros j Hj. apply (A 1%nat); lia.
  - split; [exists 0%nat, 2%nat; split; [lia|]; split; [lia|]; unfold at_; cbn [nth shots]; rewrite Rabs_left; lra|].
    intros i j Hi Hj. eapply Rle_trans; [now apply A|]. destruct (Nat.eqb i 0); lra.
Qed.
(* the hypotheses are met by traces that are rounded, and the greatest samples become one unit *)
Example C109_example :
  at_ (timeseriesmatrix (fun l => l) "each" shots) 0 2 = -1 /\ at_ (timeseriesmatrix (fun l => l) "each" shots) 1 1 = -1 /\
  at_ (timeseriesmatrix (fun l => l) "all" shots) 0 2 = -1 /\ -1 < at_ (timeseriesmatrix (fun l => l) "all" shots) 1 1 <= 0 /\
  timeseriesmatrix (fun l => l) "each" (timeseriesmatrix (fun l => l) "each" shots) = timeseriesmatrix (fun l => l) "each" shots.
Proof.
  destruct shots_recorded as (Rc & P0 & P1 & Pa).
  destruct (C109_each 2 3 _ _ Rc 0%nat _ ltac:(lia) P0 ltac:(lra) 2%nat ltac:(lia)) as (_ & _ & _ & E1 & _).
  destruct (C109_each 2 3 _ _ Rc 1%nat _ ltac:(lia) P1 ltac:(lra) 1%nat ltac:(lia)) as (_ & _ & _ & E2 & _).
  destruct (C109_all 2 3 _ _ Rc _ Pa ltac:(lra) 0%nat 2%nat ltac:(lia) ltac:(lia)) as (_ & _ & _ & E3 & _).
  destruct (C109_all 2 3 _ _ Rc _ Pa ltac:(lra) 1%nat 1%nat ltac:(lia) ltac:(lia)) as (_ & B4 & _ & E4 & _ & N4 & _).
  rewrite map_id in E1, E2, E3, E4, N4. unfold at_ at 2 in E1. unfold at_ at 2 in E2. unfold at_ at 2 in E3. unfold at_ at 2 in E4. unfold at_ at 1 in N4.
  cbn [nth shots] in E1, E2, E3, E4, N4.
  split; [apply E1; lra|]. split; [apply E2; lra|]. split; [apply E3; lra|]. split.
  - split; [|apply N4; lra]. destruct (Req_dec (at_ (timeseriesmatrix (fun l => l) "all" shots) 1 1) (-1)) as [Q|Q]; [apply E4 in Q; lra|lra].
  - apply (C109_twice 2 3 (fun l => l) shots "each"); auto; [|discriminate].
    intros i Hi _. destruct i as [|[|i]]; [exists 13510798882111488|exists 2|lia]; split; auto; lra.
Qed.

(** Two different samples of one trace become equal. *)
Theorem C109_order_refuted : exists n k traces p i j j', recorded n k traces /\ peak_of_trace k traces i p /\ 0 < p /\
  (i < n)%nat /\ (j < k)%nat /\ (j' < k)%nat /\ at_ traces i j < at_ traces i j' /\
  at_ (timeseriesmatrix (fun l => l) "each" traces) i j = at_ (timeseriesmatrix (fun l => l) "each" traces) i j'.
Proof.
  destruct shots_recorded as (Rc & P0 & _).
  exists 2%nat, 3%nat, shots, 13510798882111488, 0%nat, 0%nat, 1%nat. 
  assert (Q1 : RN (6755399441055745 / 13510798882111488) = 4503599627370497 * bpow radix2 (-53)) by (apply RN_concrete; [lia|split; numbers|apply Rabs_def1; numbers]).
  assert (Q2 : RN (6755399441055746 / 13510798882111488) = 4503599627370497 * bpow radix2 (-53)) by (apply RN_concrete; [lia|split; numbers|apply Rabs_def1; numbers]).
  rewrite !(each_at 2 3 _ _ Rc), !(trace_peak 2 3 _ 0%nat _ Rc ltac:(lia) P0) by lia. rewrite map_id in *. split; [exact Rc|]. split; [exact P0|].
  unfold at_. cbn [nth shots]. rewrite Q1, Q2. repeat split; try lia; lra.
Qed.
Print Assumptions C109_order_refuted.
