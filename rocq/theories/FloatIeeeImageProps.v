(* Theorems on normalised images with infinities, NaN and overflow. *)
From Coq Require Import Lra Lia.
From Verif Require Import FloatModel FloatSpec FloatProofs FloatNormModel FloatNormSpec FloatNormProofs FloatNormProps
  FloatIeeeModel FloatIeeeProofs FloatIeeeImageModel FloatIeeeImageSpec FloatIeeeImageProofs.
Local Open Scope R_scope.

(** ** C120 *)
(** The full property, that every sequence of normalisations of a finite image without columns of zeros gives finite powers, is refuted
    below.  For powers between 2^-400 and 2^400 (with at least one in each column) there is no overflow, infinity or NaN, and the powers
    and peaks are those of FloatNormModel.v, about which C106 speaks. *)
Theorem C120_finite_partial : forall nr nc m l, (0 < nr)%nat -> (0 < nc)%nat -> recorded_image nr nc m -> INR (List.length l) <= 1099511627776 ->
  Forall known l -> exists w, bcalls (raw m) l = Some w /\ all_finite (bpower w) /\
  exists w', calls (mk (values m) (One 1)) l = Some w' /\ values (bpower w) = power w' /\ forall j, bpeak_row w j = peak_row w' j.
Proof.
  intros nr nc m l H1 H2 Rc L K. destruct (bcalls_known l (raw m) K) as [w E]. exists w. split; [exact E|].
  pose proof (refines nr nc m l H1 H2 Rc L) as Q. rewrite E in Q. exact Q.
Qed.
Print Assumptions C120_finite_partial.
(** So the powers come back, up to four rounding errors for each call. *)
Theorem C120_back_partial : forall nr nc m l, (0 < nr)%nat -> (0 < nc)%nat -> recorded_image nr nc m -> INR (List.length l) <= 1099511627775 ->
  Forall known l -> exists w, bcalls (raw m) (l ++ ["none"%string]) = Some w /\ all_finite (bpower w) /\
  forall i j, (i < nr)%nat -> (j < nc)%nat -> Rabs (at_ (values (bpower w)) i j - at_ (values m) i j) <= allowed (List.length l) (at_ (values m) i j).
Proof.
  intros nr nc m l H1 H2 Rc L K.
  destruct (C120_finite_partial nr nc m (l ++ ["none"%string]) H1 H2 Rc) as (w & E & F & w' & C & V & _).
  - rewrite app_length, plus_INR. cbn. lra.
  - apply Forall_app. split; [exact K|]. constructor; [now left|constructor].
  - exists w. split; [exact E|]. split; [exact F|]. rewrite V. pose proof (powers_of nr nc m Rc) as P. destruct Rc as (_ & _ & _ & _ & I).
    apply (C106_error nr nc (values m) l w'); auto. lra.
Qed.
Print Assumptions C120_back_partial.
(** A request that is not known stops the sequence. *)
Theorem C120_unknown : forall w l b l', Forall known l -> ~ known b -> bcalls w (l ++ b :: l') = None.
Proof.
  intros w l b l' K N. revert w. induction K as [|c l Kc _ IH]; intros w; cbn.
  - destruct (bnormalize w b) as [w'|] eqn:E; [|reflexivity]. destruct N. apply (bnormalize_known w). eauto.
  - destruct (proj1 (bnormalize_known w c) Kc) as [w' ->]. apply IH.
Qed.
Print Assumptions C120_unknown.
(* two velocities and two frequencies *)
Definition picture : list (list b64) := [[of_Z 3; of_Z 10]; [of_Z 7; of_Z 0]].
Example C120_case : recorded_image 2 2 picture /\
  map (fun l => match bcalls (raw picture) l with Some w => (bpeak_row w 0, bpeak_row w 1) | None => (9, 9)%nat end)
    [[]; ["frequency-maximum"]; ["absolute-maximum"; "frequency-maximum"; "none"]]%string = [(1, 0); (1, 0); (1, 0)]%nat.
Proof.
  assert (V : forall n, (0 <= n <= 10)%Z -> is_finite (of_Z n) = true /\ B2R (of_Z n) = IZR n).
  { intros n Hn. destruct (Z.eq_dec n 0) as [->|N]; [split; reflexivity|]. destruct (of_Z_spec n) as (F & V & _); [lia|]. auto. }
  destruct (V 3%Z ltac:(lia)) as [F3 V3]. destruct (V 10%Z ltac:(lia)) as [F10 V10]. destruct (V 7%Z ltac:(lia)) as [F7 V7]. destruct (V 0%Z ltac:(lia)) as [F0 V0].
  assert (B : / IZR (2 ^ 400) <= 1). { rewrite <- Rinv_1. apply Rinv_le; [lra|]. apply IZR_le. intros K. discriminate K. }
  assert (T : 10 <= IZR (2 ^ 400)). { apply IZR_le. intros K. discriminate K. }
  split; [|vm_compute; reflexivity]. split; [reflexivity|]. split; [repeat constructor|]. split; [|split].
  - repeat apply Forall_cons; auto.
  - repeat apply Forall_cons; try apply Forall_nil; rewrite ?V3, ?V10, ?V7, ?V0; lra.
  - split.
    + intros [|[|j]] Hj; [exists 1%nat|exists 0%nat|lia]; (split; [lia|]); unfold at_, values, picture; cbn [map nth]; rewrite ?V3, ?V10, ?V7, ?V0; lra.
    + intros [|[|i]] [|[|j]] Hi Hj; try lia; unfold at_, values, picture; cbn [map nth]; rewrite ?V3, ?V10, ?V7, ?V0; lra.
Qed.

(** Powers of very different size: the normalisation by the greatest of all loses the small ones, after which the normalisation by the
    greatest of each frequency divides zero by zero. *)
Definition least_double : b64 := bdiv (of_Z 1) (bmult (of_Z (2 ^ 1000)) (of_Z (2 ^ 23))).
Definition contrast : list (list b64) := [[least_double; bmult (of_Z (2 ^ 1000)) (of_Z (2 ^ 23))]].
Theorem C120_finite_refuted : exists m, all_finite m /\ Forall (Forall (fun x => B2R x <> 0)) m /\
  (exists w, bcalls (raw m) ["frequency-maximum"%string] = Some w /\ map (map B2SF) (bpower w) = [[B2SF (of_Z 1); B2SF (of_Z 1)]]) /\
  (exists w, bcalls (raw m) ["absolute-maximum"; "frequency-maximum"]%string = Some w /\ map (map B2SF) (bpower w) = [[B2SF (B754_nan : b64); B2SF (of_Z 1)]]).
Proof.
  exists contrast. split; [|split; [|split]].
  - repeat apply Forall_cons; try apply Forall_nil; vm_compute; reflexivity.
  - assert (Z : forall x : b64, is_finite_strict x = true -> B2R x <> 0).
    { intros [s|s| |s k e H] Q; try discriminate. apply F2R_neq_0. destruct s; discriminate. }
    repeat apply Forall_cons; try apply Forall_nil; apply Z; vm_compute; reflexivity.
  - eexists. split; [reflexivity|]. vm_compute. reflexivity.
  - eexists. split; [reflexivity|]. vm_compute. reflexivity.
Qed.
Print Assumptions C120_finite_refuted.
