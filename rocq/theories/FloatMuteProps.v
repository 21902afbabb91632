(* C111: muting with every operation in double precision (/repo/swprocess/array1d.py:541-598). *)
From Coq Require Import Lra Lia.
From Verif Require Import FloatModel FloatSpec FloatProofs FloatSlantProofs FloatNormProofs FloatMuteModel FloatMuteSpec FloatMuteProofs.

(** The full property, that the index of a line at a receiver is the number of the sample at or before the time of the
    line, is refuted below.  It is the exact one unless the line is within a thousandth of a sample of a sample, and
    then it is at most one sample away. *)
Theorem C111_index_partial : forall dt delay l p, usual dt delay l p ->
  (Z.abs (line_index dt delay l p - Ztrunc (sample_of dt delay l p)) <= 1)%Z /\
  ((forall k, / 1000 < Rabs (sample_of dt delay l p - IZR k)) -> line_index dt delay l p = Ztrunc (sample_of dt delay l p)).
Proof. exact index_within. Qed.
Print Assumptions C111_index_partial.
(** The mute is performed when the two lines follow each other inside the record. *)
Theorem C111_runs : forall dt delay n ss se p, usual_lines dt delay ss se p ->
  0 <= first_at dt delay ss p -> first_at dt delay ss p + / 100 <= last_at dt delay n se p -> last_at dt delay n se p <= INR n ->
  (0 <= start_index dt delay ss p <= stop_index dt delay n se p)%Z /\ (stop_index dt delay n se p <= Z.of_nat n)%Z.
Proof. exact runs. Qed.
Print Assumptions C111_runs.
(** A sample that is more than a thousandth of a sample outside the two lines is exactly zero afterwards. *)
Theorem C111_silent : forall dt delay n ss se p, usual_lines dt delay ss se p -> forall taper amp, length amp = n ->
  forall j, (j < n)%nat -> INR j + 1 + / 1000 <= first_at dt delay ss p \/ last_at dt delay n se p < INR j + 1 - / 1000 ->
  nth j (mute_trace taper dt delay ss se p amp) 0 = 0.
Proof. exact silent. Qed.
Print Assumptions C111_silent.
(** No sample grows and none changes its sign. *)
Theorem C111_smaller : forall dt delay n ss se p taper amp, good_taper taper -> Forall double amp -> length amp = n ->
  length (mute_trace taper dt delay ss se p amp) = n /\
  forall j, (j < n)%nat -> let x := nth j amp 0 in let y := nth j (mute_trace taper dt delay ss se p amp) 0 in
  Rabs y <= Rabs x /\ (0 <= x -> 0 <= y) /\ (x <= 0 -> y <= 0).
Proof.
  intros dt delay n ss se p taper amp G D L. split; [unfold mute_trace; rewrite muted_length; exact L|]. intros j Hj. now apply (smaller dt delay n ss se p taper amp).
Qed.
Print Assumptions C111_smaller.
(** A sample between the two lines is multiplied by its window value with one rounding, and unchanged where that is 1. *)
Theorem C111_kept : forall dt delay n ss se p, usual_lines dt delay ss se p -> forall taper amp, Forall double amp -> length amp = n ->
  forall j, (j < n)%nat -> (0 <= start_index dt delay ss p)%Z -> first_at dt delay ss p < INR j + 1 - / 1000 ->
  INR j + 1 + / 1000 <= last_at dt delay n se p \/ se = None /\ (j < n - 1)%nat ->
  exists a b, (a <= j < b)%nat /\ Z.of_nat a = start_index dt delay ss p /\ Z.of_nat b = stop_index dt delay n se p /\
  nth j (mute_trace taper dt delay ss se p amp) 0 = RN (nth j amp 0 * nth (j - a)%nat (taper (b - a)%nat) 0) /\
  (nth (j - a)%nat (taper (b - a)%nat) 0 = 1 -> nth j (mute_trace taper dt delay ss se p amp) 0 = nth j amp 0).
Proof. exact kept. Qed.
Print Assumptions C111_kept.

(* a line from (0 m, 1.5 s) to (2 m, 2.5 s), a receiver at 1 m, a sampling interval of 1 s, a delay of -1 s: sample 3 exactly;
   a window of ones *)
Definition ones (k : nat) : list R := repeat 1 k.
Definition a_line : line := ((0, 3 / 2), (2, 5 / 2)).
Lemma a_line_usual : usual 1 (-1) a_line 1.
Proof.
  assert (K : forall z, (Z.abs z <= 2 ^ 53)%Z -> double (IZR z)) by (intros z Hz; rewrite <- (RN_int z Hz); apply RN_double).
  assert (H : forall m, (Z.abs m < 2 ^ 53)%Z -> double (IZR m / 2)).
  { intros m Hm. apply generic_format_FLT. exists (Float radix2 m (-1)); [|exact Hm|cbn; lia]. unfold F2R. cbn. unfold Rdiv. f_equal. }
  split; [repeat split; try (apply K; lia); apply H; lia|]. repeat split; try lra; apply Rabs_le; try lra.
  replace (2 - 0) with 2 by lra. rewrite Rabs_right; lra.
Qed.
Example C111_example : nth 1 (mute_trace ones 1 (-1) (Some a_line) None 1 [7; 7; 7; 7; 7]) 0 = 0 /\
  (Z.abs (line_index 1 (-1) a_line 1 - 3) <= 1)%Z /\ nth 3 (mute_trace ones 1 (-1) (Some a_line) None 1 [7; 7; 7; 7; 7]) 0 = 7.
Proof.
  pose proof a_line_usual as Us. assert (Ul : usual_lines 1 (-1) (Some a_line) None 1) by (split; intros l E; [injection E as <-; exact Us|discriminate E]).
  assert (S : sample_of 1 (-1) a_line 1 = 3) by (unfold sample_of, line_time, a_line; rewrite Rabs_left; lra).
  assert (D7 : double 7) by (rewrite <- (RN_int 7) by lia; apply RN_double).
  assert (D : Forall double [7; 7; 7; 7; 7]) by (repeat apply Forall_cons; auto).
  split; [|split].
  - apply (C111_silent 1 (-1) 5 (Some a_line) None 1 Ul ones [7; 7; 7; 7; 7] eq_refl 1 ltac:(lia)). left. unfold first_at. rewrite S. cbn [INR]. lra.
  - destruct (C111_index_partial 1 (-1) a_line 1 Us) as [B _]. rewrite S, Ztrunc_IZR in B. exact B.
  - destruct (C111_runs 1 (-1) 5 (Some a_line) None 1 Ul) as [[Z0 _] _]; unfold first_at, last_at; rewrite ?S; cbn [INR]; try lra.
    destruct (C111_kept 1 (-1) 5 (Some a_line) None 1 Ul ones [7; 7; 7; 7; 7] D eq_refl 3 ltac:(lia) Z0) as (a & b & Hab & _ & _ & _ & K).
    + unfold first_at. rewrite S. cbn [INR]. lra.
    + right. split; [reflexivity|lia].
    + apply K. unfold ones. apply (repeat_spec (b - a) 1). apply nth_In. rewrite repeat_length. lia.
Qed.

Local Ltac numbers := cbn [bpow radix_val radix2 Z.pow_pos Pos.iter Z.mul Pos.mul]; unfold Rdiv; lra.
(** A mute that starts at 0.3 s, with a sampling interval of 0.1 s and no delay, starts at sample 2 instead of sample 3
    (both numbers are rounded by Python when they are read). *)
Theorem C111_index_refuted : exists p, usual (RN (1 / 10)) 0 ((0, RN (3 / 10)), (1, RN (3 / 10))) p /\
  line_index (RN (1 / 10)) 0 ((0, RN (3 / 10)), (1, RN (3 / 10))) p = 2%Z /\ (3 / 10) / (1 / 10) = 3.
Proof.
  assert (Dt : RN (1 / 10) = 7205759403792794 * bpow radix2 (-56)) by (apply RN_concrete; [lia|split; numbers|apply Rabs_def1; numbers]).
  assert (T : RN (3 / 10) = 5404319552844595 * bpow radix2 (-54)) by (apply RN_concrete; [lia|split; numbers|apply Rabs_def1; numbers]).
  assert (D0 := double_0). assert (D1 := double_1). exists 0. split; [|split; [|field]].
  - split; [repeat split; auto; apply RN_double|]. rewrite !Rminus_eq_0, !Rabs_R0, Rabs_right by lra.
    assert (/ 1000000 <= RN (1 / 10)) by (rewrite Dt; numbers). assert (Rabs (RN (3 / 10)) <= 1000) by (rewrite T; apply Rabs_le; numbers).
    repeat split; lra.
  - unfold line_index, ndelay. rewrite !Rminus_eq_0, !Rminus_0_r, RN_0, RN_1. replace (0 / 1) with 0 by lra. rewrite RN_0, Rmult_0_l, RN_0, Rplus_0_r, (RN_id _ (RN_double _)).
    replace (0 / RN (1 / 10)) with 0 by (unfold Rdiv; ring). rewrite RN_0, Rabs_R0, Rplus_0_r, (RN_id _ (RN_double _)).
    assert (Q : RN (RN (3 / 10) / RN (1 / 10)) = 6755399441055743 * bpow radix2 (-51)).
    { assert (E : RN (3 / 10) / RN (1 / 10) = 21617278211378380 / 7205759403792794) by (rewrite Dt, T; cbn [bpow radix_val radix2 Z.pow_pos Pos.iter Z.mul Pos.mul]; field).
      rewrite E. apply RN_concrete; [lia|split; numbers|apply Rabs_def1; numbers]. }
    rewrite Q, Ztrunc_floor by numbers. apply Zfloor_imp. cbn [Z.add Pos.add]. split; numbers.
Qed.
Print Assumptions C111_index_refuted.
