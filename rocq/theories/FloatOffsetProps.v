(* C108: offsets, trimming by offset, centre distance and resolution limit in double precision
   (/repo/swprocess/array1d.py:136-156 and 192-219). *)
From Coq Require Import Lra Lia.
From Verif Require Import FloatModel FloatSpec FloatProofs FloatStatModel FloatStatSpec FloatStatProofs FloatOffsetModel FloatOffsetSpec FloatOffsetProofs.

Local Instance valid_fexp : Valid_exp fexp. Proof. apply FLT_exp_valid. reflexivity. Qed.

(** Whatever the rounding, a receiver that is kept is strictly between the limits. *)
Theorem C108_inside : forall sx lo hi ps l p, double lo -> double hi -> trim_offsets sx lo hi ps = Some l -> In p l ->
  In p ps /\ lo < distance sx p < hi.
Proof.
  intros sx lo hi ps l p Dl Dh E I. destruct (proj2 (trim_refused sx lo hi ps) l E) as [-> _]. now apply trim_inside.
Qed.
Print Assumptions C108_inside.

(** The full property, that the receivers kept are exactly those strictly between the limits, up to the first one beyond,
    is refuted below.  It holds when no limit is within a rounding error of an offset. *)
Theorem C108_trim_partial : forall sx lo hi ps, double sx -> Forall double ps -> Forall (fun p => clear_of sx p lo /\ clear_of sx p hi) ps ->
  trim_offsets sx lo hi ps = match filter (strictly_between sx lo hi) (until sx hi ps) with [] => None | l => Some l end.
Proof. intros sx lo hi ps Ds D C. unfold trim_offsets. now rewrite trim_exact. Qed.
Print Assumptions C108_trim_partial.

(** A receiver 10^-18 m farther than the lower limit is removed: its offset is rounded to the limit. *)
Theorem C108_trim_refuted : exists sx lo hi ps, double sx /\ Forall double ps /\ double lo /\ double hi /\
  filter (strictly_between sx lo hi) (until sx hi ps) = ps /\ ps <> [] /\ trim_offsets sx lo hi ps = None.
Proof.
  exists 1, 1, 2, [- bpow radix2 (-60)].
  assert (K : forall z, (Z.abs z <= 2 ^ 53)%Z -> double (IZR z)) by (intros z Hz; rewrite <- (RN_int z Hz); apply RN_double).
  assert (B : 0 < bpow radix2 (-60) <= / 1000000) by (split; [apply bpow_gt_0|]; cbn; lra).
  split; [apply K; lia|]. split. { apply Forall_cons; [|apply Forall_nil]. apply generic_format_opp, generic_format_bpow. unfold fexp, FLT_exp. lia. }
  split; [apply K; lia|]. split; [apply K; lia|].
  assert (D : distance 1 (- bpow radix2 (-60)) = 1 + bpow radix2 (-60)) by (unfold distance; rewrite Rabs_pos_eq; lra).
  assert (O : offset 1 (- bpow radix2 (-60)) = 1).
  { rewrite offset_RN, D. apply Rle_antisym.
    - apply (round_N_le_midp radix2 fexp); [apply (K 1%Z); lia|].
      replace (succ radix2 fexp 1) with (1 + bpow radix2 (-52)); [cbn; lra|].
      change 1 with (bpow radix2 0). rewrite succ_eq_pos by apply bpow_ge_0. rewrite ulp_bpow. reflexivity.
    - rewrite <- (RN_id 1) at 1 by (apply (K 1%Z); lia). apply RN_mono. lra. }
  split; [|split; [discriminate|]].
  - cbn [until filter]. destruct (Rlt_dec 2 (distance 1 (- bpow radix2 (-60)))); cbn [filter]; unfold strictly_between; rewrite D in *;
    destruct (Rlt_dec 1 (1 + bpow radix2 (-60))); try lra; destruct (Rlt_dec (1 + bpow radix2 (-60)) 2); try lra; reflexivity.
  - unfold trim_offsets. cbn [trim_loop]. rewrite O. destruct (Rlt_dec 2 1); [lra|]. destruct (Rlt_dec 1 1); [lra|]. reflexivity.
Qed.
Print Assumptions C108_trim_refuted.

(** The distance of the array centre is the mean offset up to four rounding errors for each receiver. *)
Theorem C108_center : forall sx ps m, double sx -> Forall double ps -> ps <> [] -> INR (length ps) <= 1073741824 ->
  a_mean (map Some (offsets sx ps)) m ->
  Rabs (m - exact_mean (map (distance sx) ps)) <= 4 * INR (length ps) * u * exact_mean (map (distance sx) ps) + tiny.
Proof. exact center_error. Qed.
Print Assumptions C108_center.

(** The resolution limit is pi over the smallest spacing, up to three rounding errors. *)
Theorem C108_kres : forall pi_ ps r, 0 < pi_ -> Forall double ps -> closest ps r -> 0 < r ->
  exists k, kres pi_ ps = Some k /\ Rabs (k - pi_ / r) <= 3 * u * (pi_ / r) + tiny.
Proof. exact kres_error. Qed.
Print Assumptions C108_kres.

(* source at -5, receivers at 0, 2, 4, 20; offsets between 6 and 10 *)
Example C108_example : trim_offsets (-5) 6 10 [0; 2; 4; 20] = Some [2; 4] /\ closest [0; 2; 4; 20] 2.
Proof.
  assert (K : forall z, (Z.abs z <= 2 ^ 53)%Z -> double (IZR z)) by (intros z Hz; rewrite <- (RN_int z Hz); apply RN_double).
  assert (D : forall z, -5 <= z -> distance (-5) z = 5 + z) by (intros z Hz; unfold distance; rewrite Rabs_left1; lra).
  split.
  - rewrite C108_trim_partial; [|apply (K (-5)%Z); lia|repeat apply Forall_cons; try apply Forall_nil; apply K; lia|].
    + cbn [until]. rewrite !D by lra.
      repeat match goal with |- context [Rlt_dec 10 ?b] => destruct (Rlt_dec 10 b); [lra|] || (destruct (Rlt_dec 10 b); [|lra]) end.
      cbn [filter]. unfold strictly_between. rewrite !D by lra.
      repeat (match goal with |- context [Rlt_dec ?a ?b] => destruct (Rlt_dec a b); [lra|] || (destruct (Rlt_dec a b); [|lra]) end; cbn [filter]). reflexivity.
    + repeat apply Forall_cons; try apply Forall_nil; (split; unfold clear_of; rewrite D by lra; rewrite u_value; unfold Rabs; destruct (Rcase_abs _); lra).
  - split; [exists 0%nat; split; [cbn; lia|unfold step; cbn; lra]|]. intros i Hi. cbn in Hi. unfold step. destruct i as [|[|[|i]]]; cbn; lra || lia.
Qed.
