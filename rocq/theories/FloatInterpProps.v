(* C116: resampling of dispersion curves in double precision (/repo/swprocess/peakssuite.py:617-630). *)
From Coq Require Import Lra Lia.
From Verif Require Import FloatModel FloatSpec FloatProofs FloatSlantProofs FloatNormProofs FloatInterpModel FloatInterpSpec FloatInterpProofs.

(** At the places of its points a curve has exactly their values. *)
Theorem C116_points : forall l x, curve l -> In x l -> resample l (fst x) = Some (snd x).
Proof. intros l x (_ & _ & H) I. now apply at_node. Qed.
Print Assumptions C116_points.
(** Outside its range it has no value. *)
Theorem C116_outside : forall l v, curve l -> (forall x, In x l -> v < fst x) \/ (forall x, In x l -> fst x < v) -> resample l v = None.
Proof.
  intros l v (Ne & _ & _) H. destruct l as [|a t]; [easy|]. cbn [resample]. destruct (Rlt_dec v (fst a)) as [|N]; [reflexivity|].
  destruct H as [H|H]; [exfalso; apply N, H; now left|]. destruct (Rlt_dec (fst (last t a)) v) as [|N']; [reflexivity|]. exfalso. apply N', H.
  clear. induction t as [|c t IH]; [now left|]. destruct t as [|d t]; [right; now left|]. destruct IH as [IH|IH]; [left|right; right]; exact IH.
Qed.
Print Assumptions C116_outside.
(** Between two points the value is that of the straight line up to eight rounding errors, and exact between equal values. *)
Theorem C116_error : forall l a b v, curve l -> neighbours l a b -> double v -> fst a < v < fst b ->
  exists y, resample l v = Some y /\ Rabs (y - line a b v) <= allowed a b /\ (snd a = snd b -> y = snd a).
Proof.
  intros l a b v (_ & D & H) N Dv Hv. eexists. split; [now apply (inside l a b v)|].
  assert (Da : double (fst a) /\ double (snd a)). { destruct N as (l1 & l2 & ->). rewrite Forall_forall in D. apply D. apply in_or_app. right. now left. }
  assert (Db : double (fst b) /\ double (snd b)). { destruct N as (l1 & l2 & ->). rewrite Forall_forall in D. apply D. apply in_or_app. right. right. now left. }
  split; [apply segment_error; tauto|]. intros <-. rewrite Rminus_eq_0, RN_0. unfold Rdiv. rewrite Rmult_0_l, RN_0, Rmult_0_l, RN_0, Rplus_0_l. apply RN_id. tauto.
Qed.
Print Assumptions C116_error.
(** The full property, that it lies between the two values, is refuted below; it does up to that error. *)
Theorem C116_between_partial : forall l a b v, curve l -> neighbours l a b -> double v -> fst a < v < fst b ->
  exists y, resample l v = Some y /\ Rmin (snd a) (snd b) - allowed a b <= y <= Rmax (snd a) (snd b) + allowed a b.
Proof.
  intros l a b v C N Dv Hv. destruct (C116_error l a b v C N Dv Hv) as (y & E & B & _). exists y. split; [exact E|]. apply Rabs_le_inv in B.
  assert (L : Rmin (snd a) (snd b) <= line a b v <= Rmax (snd a) (snd b)).
  { unfold line. set (k := (v - fst a) / (fst b - fst a)). assert (W : 0 < / (fst b - fst a)) by (apply Rinv_0_lt_compat; lra).
    assert (Hk : 0 <= k <= 1).
    { unfold k, Rdiv. split; [apply Rmult_le_pos; lra|]. apply Rmult_le_reg_r with (fst b - fst a); [lra|]. rewrite Rmult_assoc, Rinv_l by lra. lra. }
    pose proof (Rmin_l (snd a) (snd b)). pose proof (Rmin_r (snd a) (snd b)). pose proof (Rmax_l (snd a) (snd b)). pose proof (Rmax_r (snd a) (snd b)).
    set (m := Rmin (snd a) (snd b)) in *. set (M := Rmax (snd a) (snd b)) in *.
    replace (snd a + (snd b - snd a) * k) with ((1 - k) * snd a + k * snd b) by ring.
    assert ((1 - k) * m <= (1 - k) * snd a <= (1 - k) * M) by (split; apply Rmult_le_compat_l; lra).
    assert (k * m <= k * snd b <= k * M) by (split; apply Rmult_le_compat_l; lra). lra. }
  lra.
Qed.
Print Assumptions C116_between_partial.

Local Ltac numbers := cbn [bpow radix_val radix2 Z.pow_pos Pos.iter Z.mul Pos.mul]; unfold Rdiv; lra.
Definition three : list (R * R) := [(5, 400); (10, 300); (20, 200)].
Lemma three_curve : curve three.
Proof.
  assert (K : forall z, (Z.abs z <= 2 ^ 53)%Z -> double (IZR z)) by (intros z Hz; rewrite <- (RN_int z Hz); apply RN_double).
  split; [discriminate|]. split; [repeat constructor; apply K; cbn; lia|]. cbn. lra.
Qed.
Example C116_example : resample three 10 = Some 300 /\ resample three 4 = None /\
  exists y, resample three 15 = Some y /\ Rabs (y - 250) <= / 1000000000.
Proof.
  split; [apply (C116_points three (10, 300) three_curve); right; now left|]. split.
  - apply C116_outside; [exact three_curve|]. left. intros x [<-|[<-|[<-|[]]]]; cbn; lra.
  - assert (D : double 15) by (rewrite <- (RN_int 15) by lia; apply RN_double).
    destruct (C116_error three (10, 300) (20, 200) 15 three_curve ltac:(exists [(5, 400)], []; reflexivity) D ltac:(cbn; lra)) as (y & E & B & _).
    exists y. split; [exact E|]. unfold line, allowed in B. cbn [fst snd] in B. replace (300 + (200 - 300) * ((15 - 10) / (20 - 10))) with 250 in B by field.
    eapply Rle_trans; [exact B|]. rewrite (Rabs_left (200 - 300)), (Rabs_right 300), (Rabs_right 200), Rmax_left by lra. pose proof tiny_small. rewrite u_value. lra.
Qed.

(** Between (1.9, 0.5) and (6.6, 3.5), just before 6.6, the value is a little above 3.5. *)
Theorem C116_between_refuted : exists l a b v y, curve l /\ neighbours l a b /\ double v /\ fst a < v < fst b /\ resample l v = Some y /\ Rmax (snd a) (snd b) < y.
Proof.
  set (xa := 8556839292003942 * bpow radix2 (-52)). set (xb := 7430939385161318 * bpow radix2 (-50)). set (v := 7430939385161317 * bpow radix2 (-50)).
  assert (F : forall m e, (Z.abs m < 2 ^ 53)%Z -> (-1074 <= e)%Z -> double (IZR m * bpow radix2 e)).
  { intros m e Hm He. apply generic_format_FLT. exists (Float radix2 m e); [reflexivity|exact Hm|exact He]. }
  assert (Half : / 2 = 1 * bpow radix2 (-1)) by numbers. assert (Sev : 7 / 2 = 7 * bpow radix2 (-1)) by numbers.
  assert (Cv : curve [(xa, / 2); (xb, 7 / 2)]).
  { split; [discriminate|]. split; [constructor; [|constructor; [|constructor]]|]; cbn [fst snd].
    - split; [apply F; lia|rewrite Half; apply F; lia].
    - split; [apply F; lia|rewrite Sev; apply F; lia].
    - cbn [increasing fst]. split; [unfold xa, xb; numbers|exact I]. }
  assert (Nb : neighbours [(xa, / 2); (xb, 7 / 2)] (xa, / 2) (xb, 7 / 2)) by (exists [], []; reflexivity).
  assert (Hv : xa < v < xb) by (unfold xa, xb, v; split; numbers).
  exists [(xa, / 2); (xb, 7 / 2)], (xa, / 2), (xb, 7 / 2), v. eexists. split; [exact Cv|]. split; [exact Nb|]. split; [apply F; lia|]. split; [exact Hv|].
  split; [apply (inside _ _ _ _ (proj2 (proj2 Cv)) Nb Hv)|]. cbn [fst snd].
  assert (Q1 : RN (7 / 2 - / 2) = 3) by (replace (7 / 2 - / 2) with (IZR 3) by lra; apply RN_int; lia).
  assert (Q2 : RN (xb - xa) = 5291729562160332 * bpow radix2 (-50)) by (replace (xb - xa) with ((5291729562160332 + / 2) * bpow radix2 (-50)) by (unfold xa, xb; numbers); apply (RN_tie 5291729562160332); lia).
  assert (Q3 : RN (v - xa) = 5291729562160332 * bpow radix2 (-50)) by (replace (v - xa) with ((5291729562160331 + / 2) * bpow radix2 (-50)) by (unfold xa, v; numbers); apply (RN_tie 5291729562160331); lia).
  rewrite Q1, Q2, Q3. unfold Rdiv at 2.
  assert (Iv : / (5291729562160332 * bpow radix2 (-50)) = 1125899906842624 / 5291729562160332).
  { cbn [bpow radix_val radix2 Z.pow_pos Pos.iter Z.mul Pos.mul]. field. }
  rewrite Iv.
  assert (Q4 : RN (3 * (1125899906842624 / 5291729562160332)) = 5749276120047443 * bpow radix2 (-53)) by (apply RN_concrete; [lia|split; numbers|apply Rabs_def1; numbers]).
  assert (Q5 : RN (5749276120047443 * bpow radix2 (-53) * (5291729562160332 * bpow radix2 (-50))) = 6755399441055745 * bpow radix2 (-51)) by (apply RN_concrete; [lia|split; numbers|apply Rabs_def1; numbers]).
  assert (Q6 : RN (6755399441055745 * bpow radix2 (-51) + / 2) = 7881299347898369 * bpow radix2 (-51)) by (apply RN_concrete; [lia|split; numbers|apply Rabs_def1; numbers]).
  rewrite Q4, Q5, Q6, Rmax_right by lra. numbers.
Qed.
Print Assumptions C116_between_refuted.
