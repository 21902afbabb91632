(* C106: normalising an image and reading its peaks with every operation in double precision
   (/repo/swprocess/wavefieldtransforms.py:84-131). *)
From Coq Require Import Lra Lia.
From Verif Require Import FloatModel FloatSpec FloatProofs FloatSlantProofs FloatNormModel FloatNormSpec FloatNormProofs.

(** The full property, that no sequence of normalisations moves the peak of any frequency, is refuted
    below.  It holds, whatever the rounding errors, for the sequences without "absolute-maximum". *)
Theorem C106_peaks_partial : forall nr nc m l w, (0 < nr)%nat -> (0 < nc)%nat -> powers nr nc m ->
  (forall j x, (j < nc)%nat -> column_top nr m j x -> small <= x) ->
  Forall (fun b => b = "none"%string \/ b = "frequency-maximum"%string) l -> calls (mk m (One 1)) l = Some w ->
  forall j, (j < nc)%nat -> peak_row w j = peak_row (mk m (One 1)) j.
Proof. exact columns_peaks. Qed.
Print Assumptions C106_peaks_partial.

(** After "frequency-maximum" the entries equal to 1 are those that were the greatest of their frequency,
    and no entry is above 1. *)
Theorem C106_ones : forall nr nc m l w, (0 < nr)%nat -> (0 < nc)%nat -> powers nr nc m ->
  (forall j x, (j < nc)%nat -> column_top nr m j x -> small <= x) ->
  Forall (fun b => b = "none"%string \/ b = "frequency-maximum"%string) l -> calls (mk m (One 1)) (l ++ ["frequency-maximum"%string]) = Some w ->
  forall j x, (j < nc)%nat -> column_top nr m j x -> column_top nr (power w) j 1 /\ forall i, (i < nr)%nat -> at_ (power w) i j = 1 <-> at_ m i j = x.
Proof. exact columns_ones. Qed.
Print Assumptions C106_ones.

(** Going back with "none" gives the exact greatest power of every frequency. *)
Theorem C106_column_maximum : forall nr nc m l w, (0 < nr)%nat -> (0 < nc)%nat -> powers nr nc m ->
  (forall j x, (j < nc)%nat -> column_top nr m j x -> small <= x) ->
  Forall (fun b => b = "none"%string \/ b = "frequency-maximum"%string) l -> calls (mk m (One 1)) (l ++ ["none"%string]) = Some w ->
  forall j x, (j < nc)%nat -> column_top nr m j x -> column_top nr (power w) j x.
Proof. exact columns_none. Qed.
Print Assumptions C106_column_maximum.

(** Whatever the sequence, going back with "none" gives the greatest power of the image exactly and where it was. *)
Theorem C106_maximum : forall nr nc m l w, (0 < nr)%nat -> (0 < nc)%nat -> powers nr nc m -> in_range nr nc m -> INR (length l) <= 1099511627776 ->
  calls (mk m (One 1)) (l ++ ["none"%string]) = Some w ->
  forall x, top nr nc m x -> top nr nc (power w) x /\ forall i j, (i < nr)%nat -> (j < nc)%nat -> at_ (power w) i j = x <-> at_ m i j = x.
Proof. exact any_top. Qed.
Print Assumptions C106_maximum.

(** The other powers are changed by at most four rounding errors for each call. *)
Theorem C106_error : forall nr nc m l w, (0 < nr)%nat -> (0 < nc)%nat -> powers nr nc m -> in_range nr nc m -> INR (length l) <= 1099511627776 ->
  calls (mk m (One 1)) (l ++ ["none"%string]) = Some w ->
  forall i j, (i < nr)%nat -> (j < nc)%nat -> Rabs (at_ (power w) i j - at_ m i j) <= allowed (length l) (at_ m i j).
Proof. exact any_error. Qed.
Print Assumptions C106_error.

Local Ltac numbers := cbn [bpow radix_val radix2 Z.pow_pos Pos.iter Z.mul Pos.mul]; unfold Rdiv; lra.
Definition close : list (list R) := [[6755399441055745; 13510798882111488]; [6755399441055746; 0]].
Lemma close_powers : powers 2 2 close /\ in_range 2 2 close /\ (forall j x, (j < 2)%nat -> column_top 2 close j x -> small <= x).
Proof.
  assert (D : double 13510798882111488).
  { replace 13510798882111488 with (6755399441055744 * bpow radix2 1) by (cbn; lra).
    apply generic_format_FLT. exists (Float radix2 6755399441055744 1); cbn; [reflexivity|lia|lia]. }
  assert (K : forall z, (Z.abs z <= 2 ^ 53)%Z -> double (IZR z)) by (intros z Hz; rewrite <- (RN_int z Hz); apply RN_double).
  split; [|split].
  - split; [reflexivity|]. repeat apply Forall_cons; try apply Forall_nil; (split; [reflexivity|]); repeat apply Forall_cons; try apply Forall_nil;
    (split; [|lra]); try exact D; apply K; lia.
  - assert (B : 100000000000000000 <= IZR (2 ^ 400)) by (apply IZR_le; intros H; discriminate H).
    assert (B' : / IZR (2 ^ 400) <= 1) by (rewrite <- Rinv_1; apply Rinv_le; lra).
    split.
    + intros j Hj. exists 0%nat. split; [lia|]. unfold at_. destruct j as [|[|j]]; cbn [nth close]; [lra|lra|lia].
    + intros i j Hi Hj. unfold at_. destruct i as [|[|i]]; [| |lia]; (destruct j as [|[|j]]; [| |lia]); cbn [nth close]; lra.
  - assert (B' : small <= 1) by (unfold small; rewrite <- Rinv_1; apply Rinv_le; [lra|apply IZR_le; intros H; discriminate H]).
    intros j x Hj [_ T]. specialize (T 0%nat ltac:(lia)). revert T. unfold at_. destruct j as [|[|j]]; cbn [nth close]; [lra|lra|lia].
Qed.
(* all hypotheses of the five theorems are met, for 1000 calls of both kinds *)
Example C106_example : exists w, calls (mk close (One 1)) (repeat "frequency-maximum"%string 1000 ++ ["none"%string]) = Some w /\
  peak_row w 0 = 1%nat /\ top 2 2 (power w) 13510798882111488 /\ Rabs (at_ (power w) 0 0 - 6755399441055745) <= 3001.
Proof.
  assert (E : forall l, Forall (fun b => b = "none"%string \/ b = "frequency-maximum"%string) l -> forall v, exists w, calls v l = Some w).
  { induction 1 as [|b l Hb F IH]; intros v; [now exists v|]. cbn [calls]. destruct Hb as [-> | ->]; cbn; apply IH. }
  assert (F1 : Forall (fun b => b = "none"%string \/ b = "frequency-maximum"%string) (repeat "frequency-maximum"%string 1000)).
  { apply Forall_forall. intros b Hb. right. now apply repeat_spec in Hb. }
  assert (F2 : Forall (fun b => b = "none"%string \/ b = "frequency-maximum"%string) (repeat "frequency-maximum"%string 1000 ++ ["none"%string])).
  { apply Forall_app. split; [exact F1|]. apply Forall_cons; auto. }
  destruct (E _ F2 (mk close (One 1))) as [w Ew]. exists w. split; [exact Ew|]. destruct close_powers as (P & I & L).
  assert (Len : INR (length (repeat "frequency-maximum"%string 1000)) = 1000) by (rewrite repeat_length, INR_IZR_INZ; reflexivity).
  assert (Pk : peak_row (mk close (One 1)) 0 = 1%nat).
  { unfold peak_row, argmax. rewrite (np_max_unique _ 6755399441055746); [|right; now left|intros y [<-|[<-|[]]]; cbn [nth]; lra].
    cbn. destruct (Req_EM_T 6755399441055745 6755399441055746); [lra|]. now destruct (Req_EM_T 6755399441055746 6755399441055746). }
  split; [|split].
  - rewrite <- Pk. now apply (C106_peaks_partial 2 2 close (repeat "frequency-maximum"%string 1000 ++ ["none"%string]) w); try lia.
  - apply (C106_maximum 2 2 close (repeat "frequency-maximum"%string 1000) w); try lia; auto; [rewrite Len; lra|].
    split; [exists 0%nat, 1%nat; repeat split; lia|]. intros i j Hi Hj. unfold at_. destruct i as [|[|i]]; [| |lia]; (destruct j as [|[|j]]; [| |lia]); cbn [nth close]; lra.
  - eapply Rle_trans; [apply (C106_error 2 2 close (repeat "frequency-maximum"%string 1000) w); try lia; auto; rewrite Len; lra|].
    unfold allowed. rewrite Len. change (at_ close 0 0) with 6755399441055745. rewrite u_value.
    assert (B' : / IZR (2 ^ 600) <= / 100000000) by (apply Rinv_le; [lra|apply IZR_le; intros H; discriminate H]). lra.
Qed.

(** Two powers of one frequency that differ in the last digit become equal when divided by the greatest power
    of another frequency; then the first of the two velocities is reported instead of the other, and it
    still is after going back with "none". *)
Theorem C106_peaks_refuted : exists nr nc m w w', powers nr nc m /\ in_range nr nc m /\
  calls (mk m (One 1)) ["absolute-maximum"%string] = Some w /\ calls (mk m (One 1)) ["absolute-maximum"%string; "none"%string] = Some w' /\
  peak_row w 0 <> peak_row (mk m (One 1)) 0 /\ peak_row w' 0 <> peak_row (mk m (One 1)) 0.
Proof.
  exists 2%nat, 2%nat, close. destruct close_powers as (P & I & _).
  assert (Pk : peak_row (mk close (One 1)) 0 = 1%nat).
  { unfold peak_row, argmax. rewrite (np_max_unique _ 6755399441055746); [|right; now left|intros y [<-|[<-|[]]]; cbn [nth]; lra].
    cbn. destruct (Req_EM_T 6755399441055745 6755399441055746); [lra|]. now destruct (Req_EM_T 6755399441055746 6755399441055746). }
  assert (Q1 : RN (6755399441055745 / 13510798882111488) = 4503599627370497 * bpow radix2 (-53)) by (apply RN_concrete; [lia|split; numbers|apply Rabs_def1; numbers]).
  assert (Q2 : RN (6755399441055746 / 13510798882111488) = 4503599627370497 * bpow radix2 (-53)) by (apply RN_concrete; [lia|split; numbers|apply Rabs_def1; numbers]).
  assert (M : max_all close = 13510798882111488).
  { unfold max_all. apply np_max_unique; [right; now left|]. intros y [<-|[<-|[<-|[<-|[]]]]]; lra. }
  assert (Pz : forall w x z t, power w = [[x; z]; [x; t]] -> peak_row w 0 <> 1%nat).
  { intros w x z t Ew. unfold peak_row, argmax. rewrite Ew. cbn [column map nth]. rewrite (np_max_unique _ x); [|now left|intros y [<-|[<-|[]]]; lra].
    cbn. now destruct (Req_EM_T x x). }
  assert (Rf : by_factor Rmult close (One 1) = close) by (apply (restored_fresh 2 2 close P)).
  eexists. eexists. split; [exact P|]. split; [exact I|]. split; [|split].
  - cbn [calls]. unfold normalize. cbn [String.eqb Ascii.eqb Bool.eqb power to_abs]. rewrite Rf, (abs_same 2 2 close P). reflexivity.
  - cbn [calls]. unfold normalize. cbn [String.eqb Ascii.eqb Bool.eqb power to_abs]. rewrite Rf, (abs_same 2 2 close P). reflexivity.
  - rewrite Pk. split.
    + eapply Pz. cbn [power]. rewrite M. unfold close. cbn [by_factor map]. rewrite Q1, Q2. reflexivity.
    + eapply Pz. cbn [power]. rewrite M. unfold close. cbn [by_factor map]. rewrite Q1, Q2. reflexivity.
Qed.
Print Assumptions C106_peaks_refuted.
