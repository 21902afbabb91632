(* C100, C101, C102: axes of dispersion images and derived coordinates of peaks with every operation
   in double precision (/repo/swprocess/wavefieldtransforms.py:51-82, 516-527, peaks.py:117-139,
   368-410). *)
From Coq Require Import Lra Lia.
From Verif Require Import FloatModel FloatSpec FloatProofs FloatPadProofs FloatSlantModel FloatSlantSpec FloatSlantProofs FloatAxisModel FloatAxisSpec FloatAxisProofs.

(** C100: linearly spaced trial velocities: the ends are exact, no entry leaves the requested range and
    none is smaller than the one before. *)
Theorem C100_axis : forall vmin vmax n, double vmin -> double vmax -> (2 <= n <= 2147483648)%Z -> 1 / 1000 <= vmax - vmin ->
  linspace_at vmin vmax n 0 = vmin /\ linspace_at vmin vmax n (n - 1) = vmax /\
  (forall i, (0 <= i <= n - 1)%Z -> vmin <= linspace_at vmin vmax n i <= vmax) /\
  (forall i j, (0 <= i <= j)%Z -> (j <= n - 1)%Z -> linspace_at vmin vmax n i <= linspace_at vmin vmax n j).
Proof.
  intros vmin vmax n D1 D2 Hn HD. split; [now apply linspace_first|]. split; [apply linspace_last|].
  split; [intros i Hi; now apply linspace_range|]. intros i j Hi Hj. now apply linspace_mono.
Qed.
Print Assumptions C100_axis.

(** Each entry is within twenty rounding errors of the exact one, and the entries are distinct unless
    the exact spacing is of that size. *)
Theorem C100_spacing : forall vmin vmax n M, (2 <= n <= 2147483648)%Z -> 1 / 1000 <= vmax - vmin -> Rabs vmin <= M -> Rabs vmax <= M ->
  (forall i, (0 <= i <= n - 1)%Z ->
     Rabs (linspace_at vmin vmax n i - (vmin + IZR i * ((vmax - vmin) / IZR (n - 1)))) <= 20 * u * M) /\
  (40 * u * M < (vmax - vmin) / IZR (n - 1) ->
     forall i, (0 <= i < n - 1)%Z -> linspace_at vmin vmax n i < linspace_at vmin vmax n (i + 1)).
Proof.
  intros vmin vmax n M Hn HD M1 M2. split.
  - intros i Hi. now apply linspace_near.
  - intros H i Hi. now apply (linspace_strict vmin vmax n Hn HD i M).
Qed.
Print Assumptions C100_spacing.

(** With equal limits every entry is that velocity. *)
Theorem C100_equal : forall v n i, double v -> linspace_at v v n i = v.
Proof.
  intros v n i D. unfold linspace_at. destruct (Z.eqb i (n - 1)); [reflexivity|].
  assert (Z0 : RN 0 = 0) by exact (RN_int 0 ltac:(cbn; lia)).
  replace (v - v) with 0 by ring. rewrite Z0. replace (0 / IZR (n - 1)) with 0 by (unfold Rdiv; ring). rewrite Z0.
  destruct (Req_EM_T 0 0) as [_|N]; [|now destruct N]. rewrite Rmult_0_r, Z0, Rplus_0_l. now apply RN_id.
Qed.
Print Assumptions C100_equal.

(* 400 velocities from 100 m/s to 500 m/s *)
Example C100_example : double 100 /\ double 500 /\ linspace_at 100 500 400 0 = 100 /\ linspace_at 100 500 400 399 = 500 /\
  linspace_at 100 500 400 7 < linspace_at 100 500 400 8.
Proof.
  assert (D1 : double 100) by (rewrite <- (RN_int 100) by (cbn; lia); apply RN_double).
  assert (D2 : double 500) by (rewrite <- (RN_int 500) by (cbn; lia); apply RN_double).
  destruct (C100_axis 100 500 400 D1 D2 ltac:(lia) ltac:(lra)) as (A & B & _ & _).
  destruct (C100_spacing 100 500 400 500 ltac:(lia) ltac:(lra) ltac:(apply Rabs_le; lra) ltac:(apply Rabs_le; lra)) as [_ S].
  split; [exact D1|]. split; [exact D2|]. split; [exact A|]. split; [exact B|].
  apply (S ltac:(rewrite u_value; cbn; lra) 7%Z). lia.
Qed.

(** C101: a frequency within 48 hundredths of the step of frequency number k selects number k. *)
Theorem C101_nearest : forall n dt f k, (1 <= n <= 2 ^ 38)%Z -> / 1000000000 <= dt <= 100 -> IZR n * dt <= 100000000 -> (0 <= k < n)%Z ->
  Rabs (f - IZR k / (IZR n * dt)) <= 48 / 100 * (1 / (IZR n * dt)) -> frequency_id n dt f = k.
Proof. exact frequency_id_nearest. Qed.
Print Assumptions C101_nearest.

(** A record padded to m times N samples, hence with the frequency step 1/(N dt): if the requested limits
    are multiples a and b of the step (up to 48 hundredths of the finer internal step), exactly the
    multiples from a to b are kept, none is missed and none is repeated. *)
Theorem C101_kept : forall N m dt fmin fmax a b, (1 <= N)%Z -> (1 <= m)%Z -> (m * N <= 2 ^ 38)%Z -> / 1000000000 <= dt <= 100 -> IZR (m * N) * dt <= 100000000 ->
  (0 <= a)%Z -> (a <= b)%Z -> (b < N)%Z ->
  Rabs (fmin - IZR a / (IZR N * dt)) <= 48 / 100 * (1 / (IZR (m * N) * dt)) ->
  Rabs (fmax - IZR b / (IZR N * dt)) <= 48 / 100 * (1 / (IZR (m * N) * dt)) ->
  forall i, kept_ids (m * N) dt fmin fmax m i <-> exists j, (a <= j <= b)%Z /\ i = (m * j)%Z.
Proof. exact kept_frequencies. Qed.
Print Assumptions C101_kept.

(** The frequency listed for number i is i/(n dt) up to nine rounding errors. *)
Theorem C101_frequency : forall n dt i, (1 <= n <= 2 ^ 38)%Z -> / 1000000000 <= dt <= 100 -> (0 <= i < n)%Z ->
  Rabs (frequency_at n dt i - IZR i / (IZR n * dt)) <= 9 * u * (IZR i / (IZR n * dt)).
Proof. exact frequency_near. Qed.
Print Assumptions C101_frequency.

(* 1 ms, padded to 2 * 2000 samples, 5 Hz to 100 Hz every half hertz *)
Example C101_example : kept_ids (2 * 2000) (1 / 1000) 5 100 2 20 /\ ~ kept_ids (2 * 2000) (1 / 1000) 5 100 2 19 /\
  kept_ids (2 * 2000) (1 / 1000) 5 100 2 400 /\ ~ kept_ids (2 * 2000) (1 / 1000) 5 100 2 402.
Proof.
  assert (K := C101_kept 2000 2 (1 / 1000) 5 100 10 200 ltac:(lia) ltac:(lia) ltac:(lia) ltac:(lra) ltac:(cbn; lra) ltac:(lia) ltac:(lia) ltac:(lia)).
  assert (A : Rabs (5 - 10 / (2000 * (1 / 1000))) <= 48 / 100 * (1 / (IZR (2 * 2000) * (1 / 1000)))).
  { replace (5 - 10 / (2000 * (1 / 1000))) with 0 by field. rewrite Rabs_R0. cbn. lra. }
  assert (B : Rabs (100 - 200 / (2000 * (1 / 1000))) <= 48 / 100 * (1 / (IZR (2 * 2000) * (1 / 1000)))).
  { replace (100 - 200 / (2000 * (1 / 1000))) with 0 by field. rewrite Rabs_R0. cbn. lra. }
  specialize (K A B). split; [|split; [|split]].
  - apply K. exists 10%Z. lia.
  - intros H. apply K in H as (j & J & E). lia.
  - apply K. exists 200%Z. lia.
  - intros H. apply K in H as (j & J & E). lia.
Qed.

(** C102: limits on the slowness or the wavelength: a peak that is rejected is outside of the limits in
    exact arithmetic too, so rounding never costs a peak; a peak outside by more than two rounding
    errors is rejected. *)
Theorem C102_wavelength : forall lo hi f v, double_limits lo hi ->
  (rejected lo hi (wavelength f v) -> rejected lo hi (v / f)) /\
  (/ 1000000000000000 <= v / f -> clearly_outside lo hi (v / f) -> rejected lo hi (wavelength f v)).
Proof.
  intros lo hi f v [A B]. split; [now apply rejected_rounded|]. apply rejected_beyond.
Qed.
Print Assumptions C102_wavelength.
Theorem C102_slowness : forall lo hi v, double_limits lo hi ->
  (rejected lo hi (slowness v) -> rejected lo hi (1 / v)) /\
  (/ 1000000000000000 <= 1 / v -> clearly_outside lo hi (1 / v) -> rejected lo hi (slowness v)).
Proof.
  intros lo hi v [A B]. split; [now apply rejected_rounded|]. apply rejected_beyond.
Qed.
Print Assumptions C102_slowness.

(** The wavenumber is computed with four roundings and an approximate pi. *)
Theorem C102_wavenumber : forall f v, 1 / 1000000 <= f <= 1000000 -> 1 / 1000000 <= v <= 1000000 ->
  Rabs (wavenumber f v - 2 * PI * f / v) <= 12 * u * (2 * PI * f / v).
Proof. exact wavenumber_near. Qed.
Print Assumptions C102_wavenumber.

(* velocity 300 m/s at 10 Hz is kept by the limits (30, 100) of the wavelength; at 11 Hz and 2.9 Hz it is
   below and above them *)
Example C102_example : double_limits (Some 30) (Some 100) /\ ~ rejected (Some 30) (Some 100) (wavelength 10 300) /\
  rejected (Some 30) (Some 100) (wavelength 11 300) /\ rejected (Some 30) (Some 100) (wavelength (29 / 10) 300).
Proof.
  assert (D : double_limits (Some 30) (Some 100)).
  { split; intros c E; injection E as <-; [rewrite <- (RN_int 30) by (cbn; lia)|rewrite <- (RN_int 100) by (cbn; lia)]; apply RN_double. }
  split; [exact D|]. split; [|split].
  - intros H. apply (proj1 (C102_wavelength _ _ _ _ D)) in H. cbn in H. lra.
  - apply (proj2 (C102_wavelength _ _ 11 300 D)); [lra|]. right. exists 30. split; [reflexivity|]. rewrite u_value. lra.
  - apply (proj2 (C102_wavelength _ _ (29 / 10) 300 D)); [lra|]. left. exists 100. split; [reflexivity|]. rewrite u_value. lra.
Qed.
