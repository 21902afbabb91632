(* Theorems on stacking and on normalised traces with infinities, NaN and overflow. *)
From Coq Require Import Lra Lia.
From Verif Require Import FloatModel FloatSpec FloatProofs FloatProps FloatTracesModel FloatTracesSpec FloatIeeeModel FloatIeeeSpec FloatIeeeProofs.
Local Open Scope R_scope.

(** ** C117: stacking *)
(** The full property, that stacking finite samples gives a finite sample near the mean, is refuted below.  It holds if the number of
    stacks times the greatest sample is in the range of the doubles; the stack is then no greater than the greatest sample, and it is
    what FloatModel.v computes without a bound on the exponent. *)
Theorem C117_finite_partial : forall e a n l, (-1074 <= e)%Z -> counted ((a, n) :: l) ->
  bpow radix2 e * IZR (stacks ((a, n) :: l)) < bpow radix2 1024 -> Forall (fun r => within e (fst r)) ((a, n) :: l) ->
  within e (fst (stack_all a n l)) /\ snd (stack_all a n l) = stacks ((a, n) :: l) /\
  B2R (fst (stack_all a n l)) = fst (FloatModel.stack_all (B2R a) n (reals l)).
Proof. intros e a n l. exact (stack_all_ok e l a n). Qed.
Print Assumptions C117_finite_partial.
(** So it is near the mean of all the records. *)
Theorem C117_mean_partial : forall e a n l, (-1074 <= e)%Z -> counted ((a, n) :: l) ->
  bpow radix2 e * IZR (stacks ((a, n) :: l)) < bpow radix2 1024 -> Forall (fun r => within e (fst r)) ((a, n) :: l) ->
  (Z.of_nat (List.length l) <= 2 ^ 40)%Z ->
  Rabs (B2R (fst (stack_all a n l)) - mean (reals ((a, n) :: l))) <= IZR (Z.of_nat (List.length l)) * (8 * u * bpow radix2 e + 2 * tiny).
Proof.
  intros e a n l He Hc Ho Hw Hl. destruct (stack_all_ok e l a n He Hc Ho Hw) as [_ [_ ->]].
  assert (L : List.length (reals l) = List.length l) by apply map_length. rewrite <- L in *.
  apply (stack_history (B2R a) n (reals l) (bpow radix2 e)); auto.
  change ((B2R a, n) :: reals l) with (reals ((a, n) :: l)). unfold counts_ok, reals. apply Forall_map. destruct Hc as [Hc _].
  rewrite Forall_forall in *. intros r Hr. split; [now apply Hc|]. apply (Hw r Hr).
Qed.
Print Assumptions C117_mean_partial.
Theorem C117_finite_refuted : exists x : b64, is_finite x = true /\ mean (reals [(x, 1%Z); (x, 1%Z)]) = B2R x /\
  fst (stack_all x 1 [(x, 1%Z)]) = B754_infinity false.
Proof.
  exists Bmax_float. split; [reflexivity|]. split; [|vm_compute; reflexivity].
  unfold mean, weighted, total, reals. cbn [map fold_right fst snd]. change (1 + (1 + 0))%Z with 2%Z. lra.
Qed.
Print Assumptions C117_finite_refuted.
(** A record with a NaN or an infinity is never averaged away: the stack is not finite there, whatever was stacked before and
    after; with a NaN it is NaN. *)
Theorem C117_bad_sample : forall a n l, counted ((a, n) :: l) -> (exists r, In r ((a, n) :: l) /\ is_finite (fst r) = false) ->
  is_finite (fst (stack_all a n l)) = false.
Proof. intros a n l. exact (stack_all_bad l a n). Qed.
Print Assumptions C117_bad_sample.
Theorem C117_nan : forall a n l, (exists r, In r ((a, n) :: l) /\ is_nan (fst r) = true) -> is_nan (fst (stack_all a n l)) = true.
Proof. intros a n l. exact (stack_all_nan l a n). Qed.
Print Assumptions C117_nan.
(** The order of two records does not matter, whatever their samples. *)
Theorem C117_order : forall a n b m, fst (stack_all a n [(b, m)]) = fst (stack_all b m [(a, n)]).
Proof. exact stack2_swap. Qed.
Print Assumptions C117_order.
(* samples up to 2^1000, three records of 5, 1 and 10 stacks *)
Example C117_case : let l := [(of_Z (2 ^ 1000), 5%Z); (of_Z (- 2 ^ 999), 1%Z); (of_Z 3, 10%Z)] in
  counted l /\ Forall (fun r => within 1000 (fst r)) l /\ bpow radix2 1000 * IZR (stacks l) < bpow radix2 1024.
Proof.
  assert (P : forall n, (Z.abs n <= 2 ^ 1000)%Z -> is_finite (of_Z n) = true -> within 1000 (of_Z n)).
  { intros n Hn F. split; [exact F|]. pose proof (binary_normalize_correct 53 1024 prec64 emax64 mode_NE n 0 false) as C. cbv zeta in C.
    rewrite round_RN in C. fold (of_Z n) in C.
    assert (E : F2R (Float radix2 n 0) = IZR n) by (unfold F2R; cbn; lra). rewrite E in C.
    assert (B : bpow radix2 1000 = IZR (2 ^ 1000)) by (symmetry; apply (IZR_Zpower radix2 1000); lia).
    assert (K : Rabs (RN (IZR n)) <= bpow radix2 1000).
    { apply RN_abs_le; [apply generic_format_bpow; unfold fexp, FLT_exp; lia|]. rewrite B, <- abs_IZR. apply IZR_le. exact Hn. }
    rewrite Rlt_bool_true in C by (eapply Rle_lt_trans; [exact K|]; apply bpow_lt; lia). destruct C as [-> _]. exact K. }
  cbv zeta. split; [|split].
  - split; [repeat constructor; cbn; lia|vm_compute; discriminate].
  - do 3 (apply Forall_cons; [cbn [fst]; apply P; [vm_compute; discriminate|vm_compute; reflexivity]|]). apply Forall_nil.
  - change (stacks _) with 16%Z. change 16 with (bpow radix2 4). rewrite <- bpow_plus. apply bpow_lt. lia.
Qed.
(* one infinite and one NaN sample *)
Example C117_bad_case : is_finite (fst (stack_all (of_Z 1) 4 [(B754_infinity true, 1%Z); (of_Z 7, 3%Z)])) = false /\
  is_nan (fst (stack_all (of_Z 1) 4 [(B754_infinity true, 1%Z); (B754_infinity false, 3%Z)])) = true.
Proof. vm_compute. split; reflexivity. Qed.

(** ** C118: normalised traces *)
(** "each": every sample is normalised by the greatest absolute value of its trace.  A NaN makes the whole trace NaN; an infinite sample
    makes the finite samples zero and the infinite ones NaN; a trace of zeros becomes NaN. *)
Theorem C118_each : forall detrend traces i j x, sample (map detrend traces) i j x ->
  exists y t, nth_error (map detrend traces) i = Some t /\ sample (timeseriesmatrix detrend "each" traces) i j y /\ normalised_by t x y.
Proof. exact matrix_each. Qed.
Print Assumptions C118_each.
(** "all": the same by the greatest absolute value of all traces, so that one bad sample destroys every trace. *)
Theorem C118_all : forall detrend traces i j x, sample (map detrend traces) i j x ->
  exists y, sample (timeseriesmatrix detrend "all" traces) i j y /\ normalised_by (List.concat (map detrend traces)) x y.
Proof. exact matrix_all. Qed.
Print Assumptions C118_all.
Theorem C118_plain : forall detrend traces s, s <> "each"%string -> s <> "all"%string -> timeseriesmatrix detrend s traces = map detrend traces.
Proof. exact matrix_plain. Qed.
Print Assumptions C118_plain.
Theorem C118_shape : forall detrend s traces,
  map (@List.length b64) (timeseriesmatrix detrend s traces) = map (@List.length b64) (map detrend traces).
Proof. exact matrix_shape. Qed.
Print Assumptions C118_shape.
(** The property that one bad trace leaves the others alone holds for "each" and is refuted for "all". *)
Theorem C118_others : forall detrend before after bad bad', let m := timeseriesmatrix detrend "each" in
  forall i, i <> List.length before -> nth_error (m (before ++ bad :: after)) i = nth_error (m (before ++ bad' :: after)) i.
Proof.
  intros detrend before after bad bad' m i Hi. unfold m, timeseriesmatrix. cbn [String.eqb Ascii.eqb Bool.eqb].
  rewrite !map_app. cbn [map]. assert (L := map_length (row_of detrend "each") before).
  destruct (Nat.lt_ge_cases i (List.length before)) as [H|H].
  - rewrite !nth_error_app1 by lia. reflexivity.
  - rewrite !nth_error_app2 by lia. destruct (i - List.length (map (row_of detrend "each") before))%nat eqn:E; [lia|reflexivity].
Qed.
Print Assumptions C118_others.
Definition one : b64 := of_Z 1.
Theorem C118_others_refuted : exists good bad bad', sample (timeseriesmatrix (fun l => l) "all" [good; bad]) 0 0 one /\
  exists y, sample (timeseriesmatrix (fun l => l) "all" [good; bad']) 0 0 y /\ is_nan y = true.
Proof.
  exists [one], [one], [B754_nan]. split.
  - exists [bdiv one (largest (List.concat [[one]; [one]]))]. split; [reflexivity|]. cbn [nth_error]. apply f_equal.
    apply B2SF_inj. vm_compute. reflexivity.
  - exists B754_nan. split; [|reflexivity]. exists [B754_nan]. split; [|reflexivity]. reflexivity.
Qed.
Print Assumptions C118_others_refuted.
(* the four cases of [normalised_by] arise: a NaN, an infinity, zeros, and a usual trace whose greatest sample becomes one unit *)
Definition shots : list (list b64) :=
  [[of_Z 2; B754_nan]; [of_Z 2; B754_infinity true]; [B754_zero false; B754_zero true]; [of_Z 2; of_Z (-4)]].
Example C118_case : map (map B2SF) (timeseriesmatrix (fun l => l) "each" shots) =
  map (map B2SF) [[B754_nan; B754_nan]; [B754_zero false; B754_nan]; [B754_nan; B754_nan]; [bdiv one (of_Z 2); of_Z (-1)]] /\
  map (map B2SF) (timeseriesmatrix (fun l => l) "all" [[of_Z 2; of_Z 1]; [of_Z 4; of_Z (-8)]]) =
  map (map B2SF) [[bdiv one (of_Z 4); bdiv one (of_Z 8)]; [bdiv one (of_Z 2); of_Z (-1)]].
Proof. vm_compute. split; reflexivity. Qed.
