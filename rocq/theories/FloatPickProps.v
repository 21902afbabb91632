(* C115: automatic picks of first arrivals in double precision (/repo/swprocess/array1d.py:421-439). *)
From Coq Require Import Lra Lia String.
From Verif Require Import FloatModel FloatSpec FloatProofs FloatSlantProofs FloatStatModel FloatNormProofs FloatTracesModel FloatTracesProofs FloatPickModel FloatPickSpec FloatPickProofs.

(** The full property, that the pick is the first sample farther from the mean of the first ten than the threshold, is
    refuted below.  With a band of 15 rounding errors about the threshold it holds: the picked sample is above the lower
    edge of the band and no earlier sample is above the upper edge. *)
Theorem C115_pick_partial : forall detrend c amplitude p, detrend amplitude <> [] -> Forall double (detrend amplitude) -> peak (detrend amplitude) p -> 0 < p ->
  forall j, pick_of detrend c amplitude (Some j) ->
  (j < List.length (detrend amplitude))%nat /\ c - 15 * u < deviation (detrend amplitude) p j /\
  forall i, (i < j)%nat -> deviation (detrend amplitude) p i <= c + 15 * u.
Proof. exact pick_some. Qed.
Print Assumptions C115_pick_partial.
(** It fails only if no sample is above the upper edge. *)
Theorem C115_fails : forall detrend c amplitude p, detrend amplitude <> [] -> Forall double (detrend amplitude) -> peak (detrend amplitude) p -> 0 < p ->
  pick_of detrend c amplitude None -> forall i, (i < List.length (detrend amplitude))%nat -> deviation (detrend amplitude) p i <= c + 15 * u.
Proof. exact pick_none. Qed.
Print Assumptions C115_fails.
(** The exact arrival is picked if no sample up to it is inside the band. *)
Theorem C115_arrival : forall detrend c amplitude p, detrend amplitude <> [] -> Forall double (detrend amplitude) -> peak (detrend amplitude) p -> 0 < p ->
  forall j o, arrival (detrend amplitude) p c j -> (forall i, (i <= j)%nat -> 15 * u < Rabs (deviation (detrend amplitude) p i - c)) ->
  pick_of detrend c amplitude o -> o = Some j.
Proof.
  intros detrend c amplitude p Ne D P Hp j o (L & A & B) Band H. assert (A' : c + 15 * u < deviation (detrend amplitude) p j) by (specialize (Band j ltac:(lia)); rewrite Rabs_right in Band; lra).
  destruct o as [k|].
  - destruct (C115_pick_partial detrend c amplitude p Ne D P Hp k H) as (Lk & Ak & Bk). f_equal. destruct (Nat.lt_trichotomy k j) as [Q|[Q|Q]]; [|exact Q|].
    + specialize (B k Q). specialize (Band k ltac:(lia)). rewrite Rabs_left1 in Band by lra. lra.
    + specialize (Bk j Q). lra.
  - pose proof (C115_fails detrend c amplitude p Ne D P Hp H j L). lra.
Qed.
Print Assumptions C115_arrival.

Definition quiet : list R := repeat 0 10.
Lemma picks l c : exists o, pick_of (fun x => x) c (quiet ++ l) o.
Proof.
  unfold pick_of. cbn [row_of String.eqb Ascii.eqb Bool.eqb]. set (tr := divided _ _). assert (N : firstn 10 tr <> []) by (unfold tr, quiet; discriminate).
  assert (T : exists t, leaves t = firstn 10 tr).
  { revert N. generalize (firstn 10 tr). clear. intros l. induction l as [|x [|y l] IH]; [easy|intros _; exists (Leaf x); reflexivity|]. intros _. destruct IH as [t Ht]; [easy|]. exists (Node (Leaf x) t). cbn [leaves app]. now rewrite Ht. }
  destruct T as [t Ht]. eexists. eexists. split; [exists t; split; [rewrite Ht; apply Permutation_refl|reflexivity]|reflexivity].
Qed.
Lemma quiet_mean l : start_mean (quiet ++ l) = 0.
Proof. unfold start_mean, quiet. cbn [repeat app firstn total]. rewrite !Rplus_0_r. unfold Rdiv. apply Rmult_0_l. Qed.
Lemma quiet_double l : Forall double l -> Forall double (quiet ++ l).
Proof. intros H. unfold quiet. cbn [repeat app]. repeat (constructor; [apply double_0|]). exact H. Qed.
(* ten quiet samples, then 1/8 and -1: the threshold 5 % is passed at sample 10 *)
Example C115_example : exists o, pick_of (fun x => x) (5 / 100) (quiet ++ [1; -8]) o /\ o = Some 10%nat.
Proof.
  destruct (picks [1; -8] (5 / 100)) as [o H]. exists o. split; [exact H|].
  assert (K : forall z, (Z.abs z <= 2 ^ 53)%Z -> double (IZR z)) by (intros z Hz; rewrite <- (RN_int z Hz); apply RN_double).
  assert (P : peak (quiet ++ [1; -8]) 8).
  { split; [rewrite map_app; apply in_or_app; right; cbn; right; left; rewrite Rabs_left; lra|]. intros x Hx. apply in_app_or in Hx. destruct Hx as [Hx|[<-|[<-|[]]]].
    - apply repeat_spec in Hx. subst x. rewrite Rabs_R0. lra.
    - rewrite Rabs_R1. lra.
    - rewrite Rabs_left; lra. }
  assert (Z : forall i, (i < 10)%nat -> deviation (quiet ++ [1; -8]) 8 i = 0).
  { intros i Hi. unfold deviation. rewrite quiet_mean, app_nth1 by exact Hi. unfold quiet. rewrite nth_repeat, Rminus_0_r, Rabs_R0. unfold Rdiv. ring. }
  assert (T : deviation (quiet ++ [1; -8]) 8 10 = 1 / 8) by (unfold deviation; rewrite quiet_mean; unfold quiet; cbn [repeat app nth]; rewrite Rminus_0_r, Rabs_R1; reflexivity).
  apply (C115_arrival (fun x => x) (5 / 100) (quiet ++ [1; -8]) 8); auto; try lra; try discriminate.
  - apply quiet_double. constructor; [apply double_1|constructor; [apply K; lia|constructor]].
  - split; [cbn; lia|]. split; [rewrite T; lra|]. intros i Hi. rewrite Z by exact Hi. lra.
  - intros i Hi. destruct (Nat.eq_dec i 10) as [-> |Q]; [rewrite T|rewrite Z by lia]; rewrite u_value; [rewrite Rabs_right|rewrite Rabs_left]; lra.
Qed.

Local Ltac numbers := cbn [bpow radix_val radix2 Z.pow_pos Pos.iter Z.mul Pos.mul]; unfold Rdiv; lra.
(** After ten quiet samples the first one is a little more than the threshold, but its quotient by the peak is rounded to the
    threshold and the next sample is picked (in the amplitudes after detrending). *)
Theorem C115_pick_refuted : exists c amp p, double c /\ Forall double amp /\ peak amp p /\ 0 < p /\ arrival amp p c 10 /\
  exists o, pick_of (fun x => x) c amp o /\ o <> Some 10%nat.
Proof.
  exists (4503599627370497 * bpow radix2 (-53)), (quiet ++ [6755399441055746; 13510798882111488]), 13510798882111488.
  assert (P : peak (quiet ++ [6755399441055746; 13510798882111488]) 13510798882111488).
  { split; [rewrite map_app; apply in_or_app; right; cbn; right; left; rewrite Rabs_right; lra|]. intros x Hx. apply in_app_or in Hx. destruct Hx as [Hx|[<-|[<-|[]]]].
    - apply repeat_spec in Hx. subst x. rewrite Rabs_R0. lra.
    - rewrite Rabs_right; lra.
    - rewrite Rabs_right; lra. }
  assert (Q : RN (6755399441055746 / 13510798882111488) = 4503599627370497 * bpow radix2 (-53)) by (apply RN_concrete; [lia|split; numbers|apply Rabs_def1; numbers]).
  assert (Dc : double (4503599627370497 * bpow radix2 (-53))) by (rewrite <- Q; apply RN_double).
  split; [exact Dc|]. split.
  { apply quiet_double. constructor; [|constructor; [|constructor]].
    - rewrite <- (RN_int 6755399441055746) by lia. apply RN_double.
    - apply generic_format_FLT. exists (Float radix2 6755399441055744 1); [unfold F2R; cbn; lra|cbn; lia|cbn; lia]. }
  split; [exact P|]. split; [lra|]. split.
  { split; [cbn; lia|]. split.
    - unfold deviation. rewrite quiet_mean. unfold quiet. cbn [repeat app nth]. rewrite Rminus_0_r, Rabs_right by lra. numbers.
    - intros i Hi. unfold deviation. rewrite quiet_mean, app_nth1 by exact Hi. unfold quiet. rewrite nth_repeat, Rminus_0_r, Rabs_R0. numbers. }
  destruct (picks [6755399441055746; 13510798882111488] (4503599627370497 * bpow radix2 (-53))) as [o H]. exists o. split; [exact H|].
  destruct H as (m & Hm & ->). intros E. apply (proj1 (first_above_some _ _ _ _ _)) in E. destruct E as (k & Ek & _ & A & _). cbn in Ek. subst k.
  assert (Lg : largest (quiet ++ [6755399441055746; 13510798882111488]) = 13510798882111488).
  { unfold largest. destruct P as [I M]. apply np_max_unique; [exact I|]. intros y Hy. apply in_map_iff in Hy. destruct Hy as (x & <- & Hx). now apply M. }
  change (row_of (fun x => x) "each" (quiet ++ [6755399441055746; 13510798882111488])) with (divided (quiet ++ [6755399441055746; 13510798882111488]) (largest (quiet ++ [6755399441055746; 13510798882111488]))) in *.
  rewrite Lg in *. assert (M0 : m = 0).
  { destruct Hm as (t & Et & ->). assert (Zf : fsum t = 0).
    { apply zeros_sum. rewrite Et. unfold divided, quiet. cbn [repeat app map firstn]. unfold Rdiv. rewrite Rmult_0_l, RN_0. repeat constructor. }
    rewrite Zf. unfold Rdiv. rewrite Rmult_0_l. apply RN_0. }
  rewrite M0 in A. unfold divided, quiet in A. cbn [repeat app map nth] in A. rewrite Rminus_0_r, Q, RN_id in A by exact Dc. rewrite Rabs_right in A by numbers. lra.
Qed.
Print Assumptions C115_pick_refuted.
