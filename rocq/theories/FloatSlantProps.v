(* C99: the slant stack with every operation in double precision
   (/repo/swprocess/wavefieldtransforms.py:441-490). *)
From Coq Require Import Lra Lia.
From Verif Require Import FloatModel FloatSpec FloatProofs FloatSlantModel FloatSlantSpec FloatSlantProofs.

(** The full property, that no sample outside the records is read, is refuted below.  It holds when the
    largest moveout, in samples, is not within nine rounding errors of a whole number. *)
Theorem C99_inside_partial : forall npts dt ps vs p v L w k, farthest ps L -> slowest_velocity vs w -> sizes_ok dt L w ->
  In p ps -> 0 <= p -> In v vs -> (0 <= k)%Z ->
  IZR k + 9 * u * (L / (w * dt)) <= L / (w * dt) -> L / (w * dt) + 9 * u * (L / (w * dt)) < IZR k + 1 ->
  (highest_read npts dt ps vs p v <= npts - 1)%Z.
Proof. exact slant_inside. Qed.
Print Assumptions C99_inside_partial.

(** At most one sample too many is asked for. *)
Theorem C99_one_beyond : forall npts dt ps vs p v L w, farthest ps L -> slowest_velocity vs w -> sizes_ok dt L w ->
  In p ps -> 0 <= p -> In v vs -> L / (w * dt) <= 1099511627776 -> (highest_read npts dt ps vs p v <= npts)%Z.
Proof. exact slant_one_beyond. Qed.
Print Assumptions C99_one_beyond.

Local Ltac numbers := cbn [bpow radix_val radix2 Z.pow_pos Pos.iter Z.mul Pos.mul]; unfold Rdiv; lra.
Example C99_inside_example : exists ps vs, farthest ps 46 /\ slowest_velocity vs 150 /\ sizes_ok (1 / 1000) 46 150 /\
  (highest_read 2000 (1 / 1000) ps vs 22 300 <= 1999)%Z.
Proof.
  exists [0; 22; 46], [150; 300].
  assert (A : farthest [0; 22; 46] 46). { split; [right; right; now left|]. intros p [<-|[<-|[<-|[]]]]; lra. }
  assert (B : slowest_velocity [150; 300] 150). { split; [now left|]. split; [lra|]. intros p [<-|[<-|[]]]; lra. }
  assert (C : sizes_ok (1 / 1000) 46 150) by (unfold sizes_ok; lra).
  split; [exact A|]. split; [exact B|]. split; [exact C|].
  apply (C99_inside_partial 2000 (1 / 1000) [0; 22; 46] [150; 300] 22 300 46 150 306 A B C).
  - right; now left.
  - lra.
  - right; now left.
  - lia.
  - rewrite u_value. lra.
  - rewrite u_value. lra.
Qed.

(** Receivers 14 m apart, a sampling interval of 1 ms and 140 m/s as smallest velocity: the wave needs
    exactly 100 samples.  Line 469 computes 99.99999999999999 and truncates it, line 477 computes 100,
    so that, for every record length, the sample after the last one is asked for at the last intercept time:
    an IndexError. *)
Theorem C99_refuted : exists dt ps vs p v, double dt /\ Forall double ps /\ Forall double vs /\
  In p ps /\ In v vs /\ farthest ps p /\ slowest_velocity vs v /\ sizes_ok dt p v /\
  forall npts, highest_read npts dt ps vs p v = npts.
Proof.
  exists (RN (1 / 1000)), [0; 14], [140], 14, 140.
  assert (D : RN (1 / 1000) = 4611686018427388 * bpow radix2 (-62)) by (apply RN_concrete; [lia|split; numbers|apply Rabs_def1; numbers]).
  assert (A : farthest [0; 14] 14). { split; [right; now left|]. intros p [<-|[<-|[]]]; lra. }
  assert (B : slowest_velocity [140] 140). { split; [now left|]. split; [lra|]. intros p [<-|[]]; lra. }
  split; [apply RN_double|].
  split. { repeat apply Forall_cons; [rewrite <- (RN_int 0) by (cbn; lia)|rewrite <- (RN_int 14) by (cbn; lia)|apply Forall_nil]; apply RN_double. }
  split. { apply Forall_cons; [rewrite <- (RN_int 140) by (cbn; lia); apply RN_double|apply Forall_nil]. }
  split; [right; now left|]. split; [now left|]. split; [exact A|]. split; [exact B|].
  split. { rewrite D. unfold sizes_ok. split; [split; numbers|lra]. }
  intros npts. rewrite (highest_formula npts _ _ _ _ _ 14 140 A B).
  assert (S : RN (1 / 140) = 8235153604334621 * bpow radix2 (-60)) by (apply RN_concrete; [lia|split; numbers|apply Rabs_def1; numbers]).
  assert (Y1 : RN (14 * RN (1 / 140)) = 7205759403792793 * bpow radix2 (-56)) by (rewrite S; apply RN_concrete; [lia|split; numbers|apply Rabs_def1; numbers]).
  assert (Y2 : RN (RN (14 * RN (1 / 140)) / RN (1 / 1000)) = 7036874417766399 * bpow radix2 (-46)).
  { rewrite Y1, D. replace (7205759403792793 * bpow radix2 (-56) / (4611686018427388 * bpow radix2 (-62))) with (7205759403792793 * 64 / 4611686018427388) by (cbn; field).
    apply RN_concrete; [lia|split; numbers|apply Rabs_def1; numbers]. }
  assert (X1 : RN (14 / RN (1 / 1000)) = 14000).
  { rewrite D. replace 14000 with (7696581394432000 * bpow radix2 (-39)) by (cbn; field).
    replace (14 / (4611686018427388 * bpow radix2 (-62))) with (14 * 4611686018427387904 / 4611686018427388) by (cbn; field).
    apply RN_concrete; [lia|split; numbers|apply Rabs_def1; numbers]. }
  assert (X2 : float_index (RN (1 / 1000)) 14 140 = 100).
  { unfold float_index. rewrite X1. replace (14000 / 140) with 100 by lra. apply (RN_int 100). cbn. lia. }
  unfold lower_index. rewrite X2, Y2, (Ztrunc_IZR 100).
  replace (Ztrunc (7036874417766399 * bpow radix2 (-46))) with 99%Z; [lia|].
  symmetry. rewrite Ztrunc_floor by numbers. apply Zfloor_imp. rewrite plus_IZR. split; numbers.
Qed.
Print Assumptions C99_refuted.

(** The weights of the two neighbouring samples are between zero and one, whatever the rounding. *)
Theorem C99_weights : forall dt p v, 0 < dt -> 0 <= p -> 0 < v -> 0 <= weight dt p v <= 1.
Proof. exact weight_range. Qed.
Print Assumptions C99_weights.

(** The amplitude used is that of the record, interpolated at the exact arrival p/v after the
    intercept time, up to rounding; an arrival rounded across a sample makes no difference. *)
Theorem C99_amplitude : forall trace A dt p v tau, (forall i, Rabs (trace i) <= A) -> p = 0 /\ 0 < dt /\ 0 < v \/ sizes_ok dt p v ->
  p / (v * dt) <= 1099511627776 ->
  Rabs (amplitude trace dt p v tau - interp trace (IZR tau + p / (v * dt))) <= A * (12 * u * (p / (v * dt)) + 8 * u) + 8 * tiny * (A + 1).
Proof. exact amplitude_near. Qed.
Print Assumptions C99_amplitude.
(* samples up to 1, 300 samples of moveout: the error is below 10^-12 *)
Example C99_amplitude_example : forall trace tau, (forall i, Rabs (trace i) <= 1) ->
  Rabs (amplitude trace (1 / 1000) 45 150 tau - interp trace (IZR tau + 300)) <= / 1000000000000.
Proof.
  intros trace tau T. assert (S : sizes_ok (1 / 1000) 45 150) by (unfold sizes_ok; lra).
  assert (H := C99_amplitude trace 1 (1 / 1000) 45 150 tau T (or_intror S) ltac:(lra)).
  replace (45 / (150 * (1 / 1000))) with 300 in H by lra.
  apply Rle_trans with (1 := H). assert (X := tiny_small). rewrite u_value. lra.
Qed.
