(* C97, C98: zero padding and trimming with every operation in double precision
   (/repo/swprocess/activetimeseries.py:102-119, 213-287; trim is sigpropy's). *)
From Coq Require Import Lra Lia.
From Verif Require Import FloatModel FloatSpec FloatPadModel FloatPadProofs.

(** C97: if 1/(df dt) is within a quarter of the whole number N, then the padded record has the
    smallest positive multiple of N samples that is not shorter than the record, and the multiple is
    recorded; the floating-point evaluation of 1/(df*dt) never picks a neighbour of N. *)
Theorem C97_count : forall n df dt N, 0 < df -> 0 < dt -> (1 <= N <= 2 ^ 40)%Z -> Rabs (1 / (df * dt) - IZR N) <= 1 / 4 -> (1 <= n <= 2 ^ 52)%Z ->
  exists m, (1 <= m)%Z /\ zero_pad_count n df dt = Some ((m * N)%Z, m) /\ (n <= m * N < n + N)%Z.
Proof. intros n df dt N Hf Ht HN H Hn. unfold zero_pad_count. rewrite (new_count_nearest df dt N) by assumption. apply pad_count_spec; lia. Qed.
Print Assumptions C97_count.
(* df = 1/10 and dt = 1/1000: 10000 samples, or a multiple *)
Example C97_count_case : exists m, (1 <= m)%Z /\ zero_pad_count 25000 (1 / 10) (1 / 1000) = Some ((m * 10000)%Z, m) /\ (25000 <= m * 10000 < 25000 + 10000)%Z.
Proof. apply C97_count; [lra|lra|lia| |lia]. replace (1 / (1 / 10 * (1 / 1000)) - 10000) with 0 by field. rewrite Rabs_R0. lra. Qed.

(** The only failure is a step so large that 1/(df dt) rounds to zero samples. *)
Theorem C97_refused : forall n df dt, (1 <= n)%Z -> zero_pad_count n df dt = None <-> new_count df dt = 0%Z.
Proof.
  intros n df dt Hn. unfold zero_pad_count, pad_count. destruct (Z.ltb_spec n (new_count df dt)); [split; [discriminate|lia]|].
  destruct (Z.ltb_spec (new_count df dt) n); [|split; [discriminate|lia]].
  destruct (Z.eqb_spec (new_count df dt) 0); [tauto|]. destruct (_ =? 0)%Z; split; (discriminate || contradiction).
Qed.
Print Assumptions C97_refused.

(** The frequency step reported afterwards is 1/(N dt) up to eight rounding errors, however many
    multiples of N samples the record has. *)
Theorem C97_step : forall N m dt, (1 <= N)%Z -> (1 <= m)%Z -> (m * N <= 2 ^ 40)%Z -> / 1000000000 <= dt <= 100 ->
  Rabs (reported_step (m * N) m dt - 1 / (IZR N * dt)) <= 8 * u * (1 / (IZR N * dt)).
Proof. exact reported_step_near. Qed.
Print Assumptions C97_step.

(** So a step df with 1/(df dt) whole is the step reported, to eight rounding errors. *)
Theorem C97_requested : forall n df dt N, 0 < df -> / 1000000000 <= dt <= 100 -> 1 / (df * dt) = IZR N -> (1 <= N)%Z -> (1 <= n)%Z -> (n + N <= 2 ^ 40)%Z ->
  exists n' m, zero_pad_count n df dt = Some (n', m) /\ (n <= n')%Z /\ Rabs (reported_step n' m dt - df) <= 8 * u * df.
Proof.
  intros n df dt N Hf Hd E HN Hn HB. assert (Ht : 0 < dt) by lra.
  destruct (C97_count n df dt N Hf Ht ltac:(lia) ltac:(rewrite E; replace (IZR N - IZR N) with 0 by ring; rewrite Rabs_R0; lra) ltac:(lia)) as (m & Hm & Q & R).
  exists (m * N)%Z, m. split; [exact Q|]. split; [lia|]. assert (S := C97_step N m dt HN Hm ltac:(lia) Hd).
  replace (1 / (IZR N * dt)) with df in S; [exact S|]. rewrite <- E. field. split; lra.
Qed.
Print Assumptions C97_requested.
Example C97_requested_case : exists n' m, zero_pad_count 25000 (1 / 10) (1 / 1000) = Some (n', m) /\ (25000 <= n')%Z /\ Rabs (reported_step n' m (1 / 1000) - 1 / 10) <= 8 * u * (1 / 10).
Proof. apply (C97_requested _ _ _ 10000); [lra|lra|field|lia|lia|lia]. Qed.

(** C98: a time within 49 hundredths of a sampling interval of sample k picks sample k, for any
    delay before or after the trigger. *)
Theorem C98_nearest : forall dt delay t n k, / 1000000000 <= dt -> (Z.of_nat n <= 2 ^ 38)%Z -> Rabs delay <= 274877906944 * dt ->
  (0 <= k < Z.of_nat n)%Z -> Rabs (t - (IZR k * dt + delay)) <= 49 / 100 * dt -> nearest_sample dt delay t n = k.
Proof. exact trim_index. Qed.
Print Assumptions C98_nearest.
(* 0.3 s of a record of 1 ms with a pre-trigger of 0.1 s is sample 400 *)
Example C98_nearest_case : nearest_sample (1 / 1000) (- (1 / 10)) (3 / 10) 1000 = 400%Z.
Proof.
  apply C98_nearest; [lra|lia|apply Rabs_le; lra|lia|]. replace (3 / 10 - (400 * (1 / 1000) + - (1 / 10))) with 0 by field. rewrite Rabs_R0. lra.
Qed.

(** A time the record itself reports picks its own sample. *)
Theorem C98_reported : forall dt delay n k, / 1000000000 <= dt -> (Z.of_nat n <= 2 ^ 38)%Z -> Rabs delay <= 274877906944 * dt ->
  (0 <= k < Z.of_nat n)%Z -> nearest_sample dt delay (sample_time dt delay k) n = k.
Proof.
  intros dt delay n k Hd Hn HD Hk. apply C98_nearest; try assumption.
  assert (S := sample_time_near dt delay k Hd ltac:(lia) HD). lra.
Qed.
Print Assumptions C98_reported.

(** The times reported after trimming at a reported time are those reported before, to a thousandth of
    the sampling interval. *)
Theorem C98_times : forall dt delay k j, / 1000000000 <= dt -> (0 <= k)%Z -> (0 <= j)%Z -> (k + j < 2 ^ 37)%Z -> Rabs delay <= 137438953472 * dt ->
  Rabs (sample_time dt (sample_time dt delay k) j - sample_time dt delay (k + j)) <= dt / 1000.
Proof. exact trimmed_times. Qed.
Print Assumptions C98_times.

(** Midway between two samples nothing of the kind holds for doubles in general: 49 hundredths
    cannot be replaced by one half, since of two samples equally far the first is taken. *)
Theorem C98_midway : exists dt delay t n k, / 1000000000 <= dt /\ (Z.of_nat n <= 2 ^ 38)%Z /\ Rabs delay <= 274877906944 * dt /\
  (0 <= k < Z.of_nat n)%Z /\ Rabs (t - (IZR k * dt + delay)) <= 1 / 2 * dt /\ nearest_sample dt delay t n <> k.
Proof.
  exists 2, 0, 1, 2%nat, 1%Z. split; [lra|]. split; [lia|]. split; [rewrite Rabs_R0; lra|]. split; [cbn; lia|]. split; [apply Rabs_le; lra|].
  cbn [nearest_sample]. assert (D : forall i, (0 <= i <= 1)%Z -> distance 2 0 1 i = 1).
  { intros i Hi. unfold distance, sample_time. rewrite <- mult_IZR, FloatProofs.RN_int, Rplus_0_r, FloatProofs.RN_int by lia.
    rewrite <- minus_IZR, FloatProofs.RN_int, <- abs_IZR by lia. apply f_equal. lia. }
  match goal with |- context [if Rlt_dec ?a ?b then Z.of_nat 0 else 0%Z] => replace (if Rlt_dec a b then Z.of_nat 0 else 0%Z) with 0%Z by (destruct (Rlt_dec a b); reflexivity) end.
  destruct (Rlt_dec _ _) as [L|_]; [|discriminate]. change (Z.of_nat 1) with 1%Z in L. rewrite !D in L by lia. lra.
Qed.
Print Assumptions C98_midway.
