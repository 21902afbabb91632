(* Property C123: samples and time steps through SU files in floating-point arithmetic. *)
From Coq Require Import Lra Lia.
From Verif Require Import FloatModel FloatSpec FloatProofs FloatSlantProofs FloatFileModel FloatFileSpec FloatFileProofs.
Local Notation double := FloatModel.double.

(** A sample of a file is within 2^-24 of the sample written, and close to it in the sense of allclose, both ways. *)
Theorem C123_samples : forall x, Rabs x < edge -> exists y, store x = Finite y /\ single y /\
  Rabs (y - x) <= / 16777216 * Rabs x + / IZR (2 ^ 150) /\ close x y /\ close y x.
Proof.
  intros x H. exists (RN32 x). split; [exact (store_finite x H)|]. split; [apply RN32_single|]. split; [apply RN32_error|apply close_stored].
Qed.
Print Assumptions C123_samples.
(** Larger samples become infinite, with their sign. *)
Theorem C123_overflow : forall x, edge <= Rabs x -> (0 < x -> store x = Infinite false) /\ (x < 0 -> store x = Infinite true).
Proof.
  intros x H. rewrite (store_infinite x H). split; intros S; destruct (Rlt_dec x 0); auto; lra.
Qed.
Print Assumptions C123_overflow.
(** Single-precision samples are kept exactly, and the order of samples is kept. *)
Theorem C123_exact : forall x, single x -> Rabs x < edge -> store x = Finite x.
Proof. intros x S H. rewrite (store_finite x H). now rewrite RN32_id. Qed.
Print Assumptions C123_exact.
Theorem C123_order : forall x y a b, store x = Finite a -> store y = Finite b -> x <= y -> a <= b.
Proof. intros x y a b A B H. apply stored_below in A as [_ ->]. apply stored_below in B as [_ ->]. now apply RN32_mono. Qed.
Print Assumptions C123_order.

(** A time step of [k] microseconds is written as [k], whether it was read from a file or is the nearest double; what is
    read is within six rounding errors of [k] microseconds, and never changes again. *)
Theorem C123_step : forall k, (1 <= k <= 65535)%Z ->
  write_step (RN (IZR k / 1000000)) = k /\ write_step (read_step k) = k /\ read_step (write_step (read_step k)) = read_step k /\
  Rabs (read_step k - IZR k / 1000000) <= 6 * u * (IZR k / 1000000).
Proof. intros k H. destruct (step_stable k H) as (A & B & C). split; [exact A|split; [exact B|split; [exact C|exact (read_near k H)]]]. Qed.
Print Assumptions C123_step.
(** Every other time step a file can hold comes back within little more than half a microsecond. *)
Theorem C123_any_step : forall d, / 1000000 <= d <= 65535 / 1000000 ->
  (1 <= write_step d <= 65535)%Z /\ Rabs (read_step (write_step d) - d) <= 51 / 100000000.
Proof. exact any_step. Qed.
Print Assumptions C123_any_step.

(** A record whose time step was read from a file is equal to what is read after writing it. *)
Theorem C123_equal_partial : forall k dt xs, (1 <= k <= 65535)%Z -> dt = read_step k -> Forall (fun x => Rabs x < edge) xs ->
  exists r, reread dt xs = Some r /\ same_record (dt, xs) r /\ same_record r (dt, xs).
(* Missing: time steps of whole microseconds that were not read from a file, see the next theorem. *)
Proof. exact reread_equal. Qed.
Print Assumptions C123_equal_partial.
Local Ltac numbers := cbn [bpow radix_val radix2 Z.pow_pos Pos.iter Z.mul Pos.mul]; unfold Rdiv; lra.
Local Lemma step240 : RN (IZR 240 / 1000000) = 8854437155380585 * bpow radix2 (-65) /\ read_step 240 = 8854437155380584 * bpow radix2 (-65).
Proof.
  assert (D : RN (IZR 240 / 1000000) = 8854437155380585 * bpow radix2 (-65)) by (apply RN_concrete; [lia|split; numbers|apply Rabs_def1; numbers]).
  split; [exact D|]. unfold read_step, stats_delta. rewrite D.
  assert (S : RN (1 / (8854437155380585 * bpow radix2 (-65))) = 4581298449066667 * bpow radix2 (-40)).
  { replace (1 / (8854437155380585 * bpow radix2 (-65))) with (36893488147419103232 / 8854437155380585) by (cbn; field).
    apply RN_concrete; [lia|split; numbers|apply Rabs_def1; numbers]. }
  rewrite S. replace (1 / (4581298449066667 * bpow radix2 (-40))) with (1099511627776 / 4581298449066667) by (cbn; field).
  apply RN_concrete; [lia|split; numbers|apply Rabs_def1; numbers].
Qed.
(** A record with a time step of 0.00024 s is not equal to what is read after writing it, whatever its samples. *)
Theorem C123_equal_refuted : exists dt, dt = RN (IZR 240 / 1000000) /\ forall xs, Forall (fun x => Rabs x < edge) xs ->
  exists r, reread dt xs = Some r /\ ~ same_record (dt, xs) r /\ ~ same_record r (dt, xs).
Proof.
  exists (RN (IZR 240 / 1000000)). split; [reflexivity|]. intros xs H. unfold reread. rewrite (recall_finite xs H). eexists. split; [reflexivity|].
  destruct (step_stable 240 ltac:(lia)) as (-> & _ & _). destruct step240 as [D R]. unfold same_record. cbn [fst snd]. rewrite D, R.
  split; intros [Q _]; revert Q; [apply Rgt_not_eq|apply Rlt_not_eq]; numbers.
Qed.
Print Assumptions C123_equal_refuted.
(** Writing what was read and reading it again changes nothing more. *)
Theorem C123_again : forall dt xs r, / 1000000 <= dt <= 65535 / 1000000 -> reread dt xs = Some r -> reread (fst r) (snd r) = Some r.
Proof. exact reread_again. Qed.
Print Assumptions C123_again.

(* One tenth is not a single, but 1/2 is; 10^39 is too large. *)
Example C123_example : Rabs (RN (1 / 10)) < edge /\ store (/ 2) = Finite (/ 2) /\ edge <= Rabs (IZR (10 ^ 39)) /\ RN (IZR 240 / 1000000) <> read_step 240.
Proof.
  assert (E0 : edge = IZR (2 ^ 128 - 2 ^ 103)) by (rewrite minus_IZR; reflexivity).
  assert (E : 1 < edge) by (rewrite E0; apply IZR_lt; reflexivity). split; [|split; [|split]].
  - pose proof (RN_error (1 / 10)) as Q. rewrite u_value in Q. pose proof tiny20. rewrite (Rabs_pos_eq (1 / 10)) in Q by lra. apply Rabs_le_inv in Q.
    apply Rabs_def1; lra.
  - apply C123_exact; [|rewrite Rabs_pos_eq; lra]. change (/ 2) with (bpow radix2 (-1)). apply single_power. lia.
  - rewrite Rabs_pos_eq by (apply IZR_le; lia). rewrite E0. apply IZR_le, Z.leb_le. vm_compute. reflexivity.
  - destruct step240 as [-> ->]. apply Rgt_not_eq. numbers.
Qed.
