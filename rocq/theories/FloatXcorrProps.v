(* C112: alignment by cross-correlation in double precision (/repo/swprocess/activetimeseries.py:289-352). *)
From Coq Require Import Lra Lia.
From Verif Require Import FloatModel FloatSpec FloatProofs FloatSlantModel FloatSlantProofs FloatStatModel FloatNormModel FloatNormProofs FloatXcorrModel FloatXcorrSpec FloatXcorrProofs.

(** Whatever the method (direct or by Fourier transform): if every entry of the correlation has an error of at most [E]
    and the best delay is better than the others by more than 2 [E], then that delay is found. *)
Theorem C112_lag : forall E a b corr d, a <> [] -> b <> [] -> length corr = (length a + length b - 1)%nat ->
  (forall k, (k < length corr)%nat -> Rabs (nth k corr 0 - correlation a b (Z.of_nat k + 1 - Z.of_nat (length b))) <= E) ->
  best_by (2 * E) a b d -> fst (crosscorr_shift corr b) = d.
Proof. exact best_found. Qed.
Print Assumptions C112_lag.
(** The errors of the direct method, for every order of the additions. *)
Theorem C112_error : forall a b corr, INR (length a) <= 1073741824 -> correlation_of a b corr -> forall k, (k < length corr)%nat ->
  let d := (Z.of_nat k + 1 - Z.of_nat (length b))%Z in Rabs (nth k corr 0 - correlation a b d) <= allowed (length a) (size a b d).
Proof. intros a b corr Hn [_ H] k Hk. apply entry_error; [exact Hn|]. now apply H. Qed.
Print Assumptions C112_error.
(** The full property, that the best delay is found, is refuted below; it is when it is better than the others by more
    than twice the rounding errors of the correlations.  The record is moved by that delay without rounding. *)
Theorem C112_aligned_partial : forall a b corr d s, a <> [] -> b <> [] -> INR (length a) <= 1073741824 -> correlation_of a b corr ->
  (forall d', overlap a b d' -> size a b d' <= s) -> best_by (2 * allowed (length a) s) a b d ->
  fst (crosscorr_shift corr b) = d /\
  ((Z.abs d <= Z.of_nat (length b))%Z -> length (snd (crosscorr_shift corr b)) = length b /\
   forall j, (j < length b)%nat -> nth j (snd (crosscorr_shift corr b)) 0 = sample b (Z.of_nat j - d)).
Proof.
  intros a b corr d s Ha Hb Hn Hc Hs B. assert (E : fst (crosscorr_shift corr b) = d).
  { apply (C112_lag (allowed (length a) s) a b corr d Ha Hb (proj1 Hc)); [|exact B]. intros k Hk.
    eapply Rle_trans; [now apply (C112_error a b corr Hn Hc k Hk)|]. unfold allowed. apply Rplus_le_compat_r. apply Rmult_le_compat_l.
    - pose proof u_pos. pose proof (pos_INR (length a)). apply Rmult_le_pos; lra.
    - apply Hs. destruct Hc as [L _]. unfold overlap. destruct a, b; try easy. cbn [length] in *. lia. }
  split; [exact E|]. intros Hd. unfold crosscorr_shift in *. cbn [fst snd] in *. rewrite E. split; [now apply shifted_length|].
  intros j Hj. now apply shifted_nth.
Qed.
Print Assumptions C112_aligned_partial.

Local Ltac numbers := cbn [bpow radix_val radix2 Z.pow_pos Pos.iter Z.mul Pos.mul]; unfold Rdiv; lra.
Local Ltac simp := try change (Pos.to_nat 1) with 1%nat; try change (Pos.to_nat 2) with 2%nat; try change (Pos.to_nat 3) with 3%nat; try change (Pos.to_nat 4) with 4%nat; cbn.
(* a pulse of two samples found one sample later *)
Example C112_example : exists corr, correlation_of [0; 1; 2] [1; 2; 0] corr /\ crosscorr_shift corr [1; 2; 0] = (1%Z, [0; 1; 2]).
Proof.
  assert (K : forall z, (Z.abs z <= 2 ^ 53)%Z -> RN (IZR z) = IZR z) by (intros z Hz; now apply RN_int).
  exists [0; 0; 2; 5; 2].
  assert (C : correlation_of [0; 1; 2] [1; 2; 0] [0; 0; 2; 5; 2]).
  { split; [reflexivity|]. intros k Hk. destruct k as [|[|[|[|[|k]]]]]; [| | | | |cbn in Hk; lia].
    - exists (Leaf 0). cbn; simp. rewrite Rmult_0_l, (K 0%Z) by lia. now split.
    - exists (Node (Leaf 0) (Leaf 0)). cbn; simp. rewrite Rmult_0_l, Rmult_0_r, Rplus_0_l, (K 0%Z) by lia. now split.
    - exists (Node (Leaf 0) (Node (Leaf 2) (Leaf 0))). cbn; simp. rewrite Rmult_0_l, Rmult_0_r, Rmult_1_l, Rplus_0_r, (K 0%Z), (K 2%Z), Rplus_0_l, (K 2%Z) by lia. now split.
    - exists (Node (Leaf 1) (Leaf 4)). cbn; simp. rewrite Rmult_1_l. replace (2 * 2) with 4 by lra. replace (1 + 4) with 5 by lra. rewrite (K 1%Z), (K 4%Z), (K 5%Z) by lia. now split.
    - exists (Leaf 2). cbn; simp. rewrite Rmult_1_r, (K 2%Z) by lia. now split. }
  split; [exact C|]. pose proof tiny_small as T. pose proof tiny_pos as T0.
  assert (F : fst (crosscorr_shift [0; 0; 2; 5; 2] [1; 2; 0]) = 1%Z).
  { apply (C112_aligned_partial [0; 1; 2] [1; 2; 0] _ 1%Z 10); try discriminate; [cbn; lra|exact C| |].
    - intros d Hd. unfold overlap in Hd. cbn in Hd. assert (X : (d = -2 \/ d = -1 \/ d = 0 \/ d = 1 \/ d = 2)%Z) by lia.
      destruct X as [-> |[-> |[-> |[-> | ->]]]]; unfold size, sample; cbn; simp; repeat (rewrite Rabs_mult || rewrite Rabs_R0 || rewrite Rabs_R1 || rewrite (Rabs_right 2) by lra); lra.
    - split; [unfold overlap; cbn; lia|]. intros d Hd Ne. unfold overlap in Hd. cbn in Hd. assert (X : (d = -2 \/ d = -1 \/ d = 0 \/ d = 2)%Z) by lia.
      unfold allowed. rewrite u_value. destruct X as [-> |[-> |[-> | ->]]]; unfold correlation, sample; cbn; simp; lra. }
  unfold crosscorr_shift in *. cbn [fst] in F. rewrite F. reflexivity.
Qed.

(** A record of one sample correlates best with the second of two nearly equal samples, but the two products are
    rounded to the same number and the first one is chosen. *)
Theorem C112_aligned_refuted : exists a b corr d, Forall double a /\ Forall double b /\ correlation_of a b corr /\ best_by 0 a b d /\ fst (crosscorr_shift corr b) <> d.
Proof.
  assert (K : forall z, (Z.abs z <= 2 ^ 53)%Z -> double (IZR z)) by (intros z Hz; rewrite <- (RN_int z Hz); apply RN_double).
  assert (D : double (5 / 4)).
  { apply generic_format_FLT. exists (Float radix2 5 (-2)); [|cbn; lia|cbn; lia]. unfold F2R. cbn. unfold Rdiv. f_equal. }
  assert (P1 : RN (9007199254740990 * (5 / 4)) = 5629499534213119 * bpow radix2 1) by (apply RN_concrete; [lia|split; numbers|apply Rabs_def1; numbers]).
  assert (P2 : RN (9007199254740991 * (5 / 4)) = 5629499534213119 * bpow radix2 1) by (apply RN_concrete; [lia|split; numbers|apply Rabs_def1; numbers]).
  set (v := 5629499534213119 * bpow radix2 1) in *.
  exists [9007199254740990; 9007199254740991], [5 / 4], [v; v], 1%Z. split; [repeat apply Forall_cons; auto; apply K; lia|]. split; [auto|]. split; [|split].
  - split; [reflexivity|]. intros [|[|k]] Hk; [exists (Leaf v)|exists (Leaf v)|cbn in Hk; lia]; cbn [leaves fsum nth]; unfold products; cbn; rewrite ?P1, ?P2; now split.
  - split; [unfold overlap; cbn; lia|]. intros d Hd Ne. unfold overlap in Hd. cbn in Hd. assert (d = 0%Z) as -> by lia.
    unfold correlation, sample. cbn; simp. lra.
  - unfold crosscorr_shift, argmax. rewrite (np_max_unique [v; v] v); [|now left|intros y [<-|[<-|[]]]; lra]. cbn [first_equal].
    destruct (Req_EM_T v v) as [_|N]; [cbn; lia|now destruct N].
Qed.
Print Assumptions C112_aligned_refuted.
