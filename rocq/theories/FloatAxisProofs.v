(* Proofs about axes and derived coordinates in double precision. *)
From Coq Require Import Lra Lia Psatz.
From Verif Require Import FloatModel FloatSpec FloatProofs FloatPadModel FloatPadProofs FloatSlantModel FloatSlantSpec FloatSlantProofs FloatAxisModel FloatAxisSpec.

Section Linspace.
  Context (start stop : R) (n : Z).
  Context (Ds : double start) (De : double stop) (Hn : (2 <= n <= 2147483648)%Z) (HD : 1 / 1000 <= stop - start).
  Let N := IZR (n - 1).
  Let step := RN (RN (stop - start) / N).
  Lemma N_range : 1 <= N <= 2147483648.
  Proof. unfold N. split; apply IZR_le; lia. Qed.
  Lemma step_near : (stop - start) / N * (1 - 6 * u) <= step <= (stop - start) / N * (1 + 6 * u).
  Proof.
    assert (U := u_value). assert (NR := N_range).
    destruct (rel_chain (stop - start) (stop - start) ltac:(lra) 0 ltac:(lra) ltac:(lra) ltac:(lra)) as [A B].
    assert (C := div_rel _ _ _ N ltac:(lra) (conj A B)).
    assert (X : 1 / 1000 / 2147483648 <= (stop - start) / N) by (apply quotient_low; lra).
    assert (Y : 1 / 2000 <= RN (stop - start)). { apply Rle_trans with (2 := A). apply Rle_trans with (1 / 1000 * (1 - (0 + 3) * u)); [rewrite U; lra|]. apply Rmult_le_compat_r; [rewrite U|]; lra. }
    assert (Z : 1 / 2000 / 2147483648 <= RN (stop - start) / N) by (apply quotient_low; lra).
    destruct (rel_chain ((stop - start) / N) _ ltac:(lra) (0 + 3) ltac:(lra) C ltac:(lra)) as [E F].
    unfold step. lra.
  Qed.
  Lemma step_pos : 0 < step.
  Proof.
    assert (U := u_value). assert (NR := N_range). destruct step_near as [A _]. apply Rlt_le_trans with (2 := A).
    apply Rmult_lt_0_compat; [|rewrite U; lra]. apply Rmult_lt_0_compat; [lra|]. apply Rinv_0_lt_compat. lra.
  Qed.
  Lemma linspace_inner i : i <> (n - 1)%Z -> linspace_at start stop n i = RN (RN (IZR i * step) + start).
  Proof.
    intros H. unfold linspace_at. destruct (Z.eqb_spec i (n - 1)); [contradiction|]. fold N. fold step.
    assert (S := step_pos). destruct (Req_EM_T step 0); [lra|reflexivity].
  Qed.
  Lemma increment_near i : (0 <= i <= n - 1)%Z ->
    IZR i * ((stop - start) / N) * (1 - 9 * u) <= RN (IZR i * step) <= IZR i * ((stop - start) / N) * (1 + 9 * u).
  Proof.
    intros Hi. assert (U := u_value). assert (NR := N_range). destruct (Z.eq_dec i 0) as [E|Ne].
    - rewrite E, !Rmult_0_l, (RN_int 0) by (cbn; lia). lra.
    - assert (I1 : 1 <= IZR i) by (apply IZR_le; lia). destruct step_near as [A B].
      assert (X : 1 / 1000 / 2147483648 <= (stop - start) / N) by (apply quotient_low; lra).
      assert (Y : / 10000000000000 <= step). { apply Rle_trans with (2 := A). apply Rle_trans with (1 / 1000 / 2147483648 * (1 - 6 * u)); [rewrite U; lra|]. apply Rmult_le_compat_r; [rewrite U|]; lra. }
      assert (XX : 1 * (1 / 1000 / 2147483648) <= IZR i * ((stop - start) / N)) by (apply Rmult_le_compat; lra).
      assert (YY : 1 * / 10000000000000 <= IZR i * step) by (apply Rmult_le_compat; lra).
      assert (Q : IZR i * ((stop - start) / N) * (1 - 6 * u) <= IZR i * step <= IZR i * ((stop - start) / N) * (1 + 6 * u)).
      { rewrite !Rmult_assoc. split; apply Rmult_le_compat_l; lra. }
      destruct (rel_chain (IZR i * ((stop - start) / N)) (IZR i * step) ltac:(lra) 6 ltac:(lra) Q ltac:(lra)). lra.
  Qed.
  Lemma increment_bounds i : (0 <= i <= n - 2)%Z -> 0 <= RN (IZR i * step) <= stop - start.
  Proof.
    intros Hi. assert (U := u_value). assert (NR := N_range). destruct (increment_near i ltac:(lia)) as [_ A].
    assert (I0 : 0 <= IZR i) by (apply IZR_le; lia). assert (S := step_pos). split.
    - rewrite <- (RN_int 0) by (cbn; lia). apply RN_mono. apply Rmult_le_pos; lra.
    - apply Rle_trans with (1 := A). 
      assert (I1 : IZR i <= N - 1). { unfold N. rewrite <- (minus_IZR (n - 1) 1). apply IZR_le. lia. }
      replace (IZR i * ((stop - start) / N) * (1 + 9 * u)) with ((stop - start) * (IZR i * (1 + 9 * u) / N)) by (field; lra).
      rewrite <- (Rmult_1_r (stop - start)) at 2. apply Rmult_le_compat_l; [lra|].
      apply Rmult_le_reg_r with N; [lra|]. unfold Rdiv. rewrite Rmult_assoc, Rinv_l, Rmult_1_r by lra.
      apply Rle_trans with ((N - 1) * (1 + 9 * u)); [apply Rmult_le_compat_r; [rewrite U|]; lra|].
      assert (9 * u * (N - 1) <= 1). { rewrite U. lra. } lra.
  Qed.

  Lemma linspace_first : linspace_at start stop n 0 = start.
  Proof. rewrite linspace_inner by lia. rewrite Rmult_0_l, (RN_int 0), Rplus_0_l by (cbn; lia). now apply RN_id. Qed.
  Lemma linspace_last : linspace_at start stop n (n - 1) = stop.
  Proof. unfold linspace_at. now rewrite Z.eqb_refl. Qed.
  Lemma linspace_range i : (0 <= i <= n - 1)%Z -> start <= linspace_at start stop n i <= stop.
  Proof.
    intros Hi. destruct (Z.eq_dec i (n - 1)) as [->|Ne]; [rewrite linspace_last; lra|].
    rewrite linspace_inner by exact Ne. destruct (increment_bounds i ltac:(lia)) as [A B]. split.
    - rewrite <- (RN_id start Ds) at 1. apply RN_mono. lra.
    - rewrite <- (RN_id stop De). apply RN_mono. lra.
  Qed.
  Lemma linspace_mono i j : (0 <= i <= j)%Z -> (j <= n - 1)%Z -> linspace_at start stop n i <= linspace_at start stop n j.
  Proof.
    intros Hi Hj. destruct (Z.eq_dec j (n - 1)) as [->|Ne].
    - rewrite linspace_last. apply linspace_range. lia.
    - rewrite !linspace_inner by lia. apply RN_mono, Rplus_le_compat_r, RN_mono.
      apply Rmult_le_compat_r; [left; exact step_pos|]. apply IZR_le. lia.
  Qed.
  Lemma linspace_near i M : (0 <= i <= n - 1)%Z -> Rabs start <= M -> Rabs stop <= M ->
    Rabs (linspace_at start stop n i - (start + IZR i * ((stop - start) / N))) <= 20 * u * M.
  Proof.
    intros Hi M1 M2. assert (U := u_value). assert (NR := N_range). assert (T := tiny_small).
    assert (MD : stop - start <= 2 * M). { apply Rabs_le_inv in M1. apply Rabs_le_inv in M2. lra. }
    assert (M0 : 1 / 2000 <= M) by lra.
    destruct (Z.eq_dec i (n - 1)) as [->|Ne].
    - rewrite linspace_last. replace (stop - _) with 0. { rewrite Rabs_R0. rewrite U. lra. }
      fold N. field. lra.
    - rewrite linspace_inner by exact Ne. destruct (increment_near i ltac:(lia)) as [A B]. destruct (increment_bounds i ltac:(lia)) as [C1 C2].
      set (P := RN (IZR i * step)) in *. set (E := IZR i * ((stop - start) / N)) in *.
      assert (E0 : 0 <= E). { unfold E. apply Rmult_le_pos; [apply IZR_le; lia|]. apply Rmult_le_pos; [lra|]. left. apply Rinv_0_lt_compat. lra. }
      assert (E1 : E <= stop - start).
      { unfold E. replace (IZR i * ((stop - start) / N)) with ((stop - start) * (IZR i / N)) by (field; lra).
        rewrite <- (Rmult_1_r (stop - start)) at 2. apply Rmult_le_compat_l; [lra|]. apply Rmult_le_reg_r with N; [lra|].
        unfold Rdiv. rewrite Rmult_assoc, Rinv_l, Rmult_1_r, Rmult_1_l by lra. unfold N. apply IZR_le. lia. }
      assert (UE : u * E <= 2 * (u * M)). { apply Rle_trans with (u * (2 * M)); [apply Rmult_le_compat_l; [rewrite U|]; lra|lra]. }
      assert (R : Rabs (RN (P + start) - (P + start)) <= u * M + tiny).
      { apply RN_error_le. apply Rabs_le_inv in M1. apply Rabs_le_inv in M2. apply Rabs_le. lra. }
      assert (TM : tiny <= u * M). { apply Rle_trans with (u * (1 / 2000)); [rewrite U; lra|apply Rmult_le_compat_l; [rewrite U|]; lra]. }
      apply Rabs_le_inv in R. apply Rabs_le. lra.
  Qed.
  Lemma linspace_strict i M : (0 <= i < n - 1)%Z -> Rabs start <= M -> Rabs stop <= M -> 40 * u * M < (stop - start) / N ->
    linspace_at start stop n i < linspace_at start stop n (i + 1).
  Proof.
    intros Hi M1 M2 H. assert (A := linspace_near i M ltac:(lia) M1 M2). assert (B := linspace_near (i + 1) M ltac:(lia) M1 M2).
    rewrite plus_IZR in B. apply Rabs_le_inv in A. apply Rabs_le_inv in B. lra.
  Qed.
End Linspace.

(** ** Frequencies *)
Lemma argmin_nearest n dt f m : argmin_of (fun i => Rabs (RN (frequency_at n dt i - f))) m = nearest_sample (internal_step n dt) 0 f m.
Proof.
  induction m as [|m IH]; [reflexivity|]. cbn [argmin_of nearest_sample]. rewrite IH.
  assert (E : forall i, Rabs (RN (frequency_at n dt i - f)) = distance (internal_step n dt) 0 f i).
  { intros i. unfold distance, sample_time, frequency_at. rewrite Rplus_0_r. rewrite (RN_id (RN (IZR i * internal_step n dt))); [reflexivity|apply RN_double]. }
  rewrite !E. reflexivity.
Qed.

Lemma internal_step_near n dt : (1 <= n <= 2 ^ 38)%Z -> / 1000000000 <= dt <= 100 ->
  Rabs (internal_step n dt - 1 / (IZR n * dt)) <= 6 * u * (1 / (IZR n * dt)).
Proof.
  intros Hn Hd. assert (U := u_value). assert (N1 : 1 <= IZR n <= 274877906944) by (split; apply IZR_le; lia).
  assert (X : 1 * / 1000000000 <= IZR n * dt) by (apply Rmult_le_compat; lra).
  assert (XU : IZR n * dt <= 274877906944 * 100) by (apply Rmult_le_compat; lra).
  destruct (RN_rel (IZR n * dt) ltac:(lra)) as [A B].
  assert (P : 0 < IZR n * dt) by lra. set (x := IZR n * dt) in *.
  assert (RP : 0 < RN x). { apply Rlt_le_trans with (2 := A). apply Rmult_lt_0_compat; [lra|rewrite U; lra]. }
  assert (RU : RN x <= 30000000000000). { apply Rle_trans with (1 := B). rewrite U. lra. }
  assert (C : 1 / x * (1 - 3 * u) <= 1 / RN x <= 1 / x * (1 + 3 * u)).
  { replace (1 / x * (1 - 3 * u)) with ((1 - 3 * u) / x) by (field; lra). replace (1 / x * (1 + 3 * u)) with ((1 + 3 * u) / x) by (field; lra). split.
    - apply Rmult_le_reg_r with (x * RN x); [apply Rmult_lt_0_compat; assumption|].
      replace ((1 - 3 * u) / x * (x * RN x)) with ((1 - 3 * u) * RN x) by (field; lra). replace (1 / RN x * (x * RN x)) with x by (field; lra).
      apply Rle_trans with ((1 - 3 * u) * (x * (1 + 2 * u))); [apply Rmult_le_compat_l; [rewrite U; lra|lra]|]. rewrite U. lra.
    - apply Rmult_le_reg_r with (x * RN x); [apply Rmult_lt_0_compat; assumption|].
      replace ((1 + 3 * u) / x * (x * RN x)) with ((1 + 3 * u) * RN x) by (field; lra). replace (1 / RN x * (x * RN x)) with x by (field; lra).
      apply Rle_trans with ((1 + 3 * u) * (x * (1 - 2 * u))); [|apply Rmult_le_compat_l; [rewrite U; lra|lra]]. rewrite U. lra. }
  assert (Q : 1 / 30000000000000 <= 1 / x) by (apply quotient_low; lra).
  assert (Q' : 1 / 30000000000000 <= 1 / RN x) by (apply quotient_low; lra).
  destruct (rel_chain (1 / x) _ ltac:(lra) 3 ltac:(lra) C ltac:(lra)) as [D1 D2].
  unfold internal_step. fold x. apply Rabs_le. lra.
Qed.
Lemma frequency_near n dt i : (1 <= n <= 2 ^ 38)%Z -> / 1000000000 <= dt <= 100 -> (0 <= i < n)%Z ->
  Rabs (frequency_at n dt i - IZR i / (IZR n * dt)) <= 9 * u * (IZR i / (IZR n * dt)).
Proof.
  intros Hn Hd Hi. assert (U := u_value). assert (S := internal_step_near n dt Hn Hd). set (d := 1 / (IZR n * dt)) in *.
  assert (N1 : 1 <= IZR n <= 274877906944) by (split; apply IZR_le; lia).
  assert (X : 1 * / 1000000000 <= IZR n * dt) by (apply Rmult_le_compat; lra).
  assert (XU : IZR n * dt <= 274877906944 * 100) by (apply Rmult_le_compat; lra).
  replace (IZR i / (IZR n * dt)) with (IZR i * d) by (unfold d; field; split; lra).
  assert (Q : 1 / 30000000000000 <= d) by (apply quotient_low; lra).
  unfold frequency_at. destruct (Z.eq_dec i 0) as [->|Ne].
  - rewrite !Rmult_0_l, (RN_int 0), Rminus_0_r, Rabs_R0 by (cbn; lia). lra.
  - assert (I1 : 1 <= IZR i) by (apply IZR_le; lia). apply Rabs_le_inv in S.
    assert (C : IZR i * d * (1 - 6 * u) <= IZR i * internal_step n dt <= IZR i * d * (1 + 6 * u)).
    { rewrite !Rmult_assoc. split; apply Rmult_le_compat_l; lra. }
    assert (Y : 1 * (1 / 30000000000000) <= IZR i * d) by (apply Rmult_le_compat; lra).
    assert (Z : / 40000000000000 <= internal_step n dt). { assert (6 * u * d <= / 100 * d) by (apply Rmult_le_compat_r; [|rewrite U]; lra). lra. }
    assert (W : 1 * / 40000000000000 <= IZR i * internal_step n dt) by (apply Rmult_le_compat; lra).
    destruct (rel_chain (IZR i * d) _ ltac:(lra) 6 ltac:(lra) C ltac:(lra)). apply Rabs_le. lra.
Qed.

(** ** Derived coordinates *)
Lemma RN_above x b : double b -> b < RN x -> b < x.
Proof. intros D H. apply Rnot_le_lt. intros L. apply RN_mono in L. rewrite (RN_id b D) in L. lra. Qed.
Lemma RN_below x a : double a -> RN x < a -> x < a.
Proof. intros D H. apply Rnot_le_lt. intros L. apply RN_mono in L. rewrite (RN_id a D) in L. lra. Qed.

Lemma frequency_id_nearest n dt f k : (1 <= n <= 2 ^ 38)%Z -> / 1000000000 <= dt <= 100 -> IZR n * dt <= 100000000 -> (0 <= k < n)%Z ->
  Rabs (f - IZR k / (IZR n * dt)) <= 48 / 100 * (1 / (IZR n * dt)) -> frequency_id n dt f = k.
Proof.
  intros Hn Hd HT Hk H. assert (U := u_value). assert (S := internal_step_near n dt Hn Hd).
  assert (N1 : 1 <= IZR n <= 274877906944) by (split; apply IZR_le; lia).
  assert (X : 1 * / 1000000000 <= IZR n * dt) by (apply Rmult_le_compat; lra).
  assert (Q : 1 / 100000000 <= 1 / (IZR n * dt)) by (apply quotient_low; lra).
  replace (IZR k / (IZR n * dt)) with (IZR k * (1 / (IZR n * dt))) in H by (field; split; lra).
  set (d := 1 / (IZR n * dt)) in *. set (s := internal_step n dt) in *.
  assert (UD : u * d <= / 1000000 * d) by (apply Rmult_le_compat_r; [|rewrite U]; lra).
  assert (K : 0 <= IZR k <= 274877906944) by (split; apply IZR_le; lia).
  assert (KD : IZR k * Rabs (s - d) <= 1 / 1000 * d).
  { apply Rle_trans with (274877906944 * (6 * u * d)); [apply Rmult_le_compat; try lra; apply Rabs_pos|].
    replace (274877906944 * (6 * u * d)) with (274877906944 * 6 * u * d) by ring. apply Rmult_le_compat_r; [lra|rewrite U; lra]. }
  assert (KS : Rabs (IZR k * s - IZR k * d) <= 1 / 1000 * d).
  { replace (IZR k * s - IZR k * d) with (IZR k * (s - d)) by ring. rewrite Rabs_mult, (Rabs_pos_eq (IZR k)) by lra. exact KD. }
  apply Rabs_le_inv in S. apply Rabs_le_inv in H. apply Rabs_le_inv in KS.
  unfold frequency_id. rewrite argmin_nearest. fold s. apply trim_index.
  - lra.
  - lia.
  - rewrite Rabs_R0. lra.
  - lia.
  - apply Rabs_le. lra.
Qed.

Lemma kept_frequencies N m dt fmin fmax a b : (1 <= N)%Z -> (1 <= m)%Z -> (m * N <= 2 ^ 38)%Z -> / 1000000000 <= dt <= 100 -> IZR (m * N) * dt <= 100000000 ->
  (0 <= a)%Z -> (a <= b)%Z -> (b < N)%Z ->
  Rabs (fmin - IZR a / (IZR N * dt)) <= 48 / 100 * (1 / (IZR (m * N) * dt)) ->
  Rabs (fmax - IZR b / (IZR N * dt)) <= 48 / 100 * (1 / (IZR (m * N) * dt)) ->
  forall i, kept_ids (m * N) dt fmin fmax m i <-> exists j, (a <= j <= b)%Z /\ i = (m * j)%Z.
Proof.
  intros HN Hm HB Hd HT Ha Hab Hb H1 H2 i.
  assert (N1 : 1 <= IZR N) by (apply IZR_le; lia). assert (M1 : 1 <= IZR m) by (apply IZR_le; lia).
  assert (Q : forall c, IZR c / (IZR N * dt) = IZR (m * c) / (IZR (m * N) * dt)).
  { intros c. rewrite !mult_IZR. field. repeat split; lra. }
  rewrite Q in H1, H2.
  assert (E1 := frequency_id_nearest (m * N) dt fmin (m * a) ltac:(nia) Hd HT ltac:(nia) H1).
  assert (E2 := frequency_id_nearest (m * N) dt fmax (m * b) ltac:(nia) Hd HT ltac:(nia) H2).
  unfold kept_ids. rewrite E1, E2. split.
  - intros (k & K & -> & L). exists (a + k)%Z. split; [|ring]. split; [lia|]. nia.
  - intros (j & J & ->). exists (j - a)%Z. split; [lia|]. split; [ring|]. nia.
Qed.

(** Limits on coordinates computed with one rounding. *)
Lemma rejected_rounded lo hi x : (forall a, lo = Some a -> double a) -> (forall b, hi = Some b -> double b) ->
  rejected lo hi (RN x) -> rejected lo hi x.
Proof.
  intros A B. destruct lo as [a|], hi as [b|]; cbn; intros H.
  - destruct H as [H|H]; [left; apply (RN_above x b (B b eq_refl) H)|right; apply (RN_below x a (A a eq_refl) H)].
  - apply (RN_below x a (A a eq_refl) H).
  - apply (RN_above x b (B b eq_refl) H).
  - exact H.
Qed.
Lemma rejected_beyond lo hi x : / 1000000000000000 <= x -> clearly_outside lo hi x -> rejected lo hi (RN x).
Proof.
  intros X. destruct (RN_rel x X) as [A B]. intros [(b & -> & H)|(a & -> & H)].
  - destruct lo as [a|]; cbn; [left|]; lra.
  - destruct hi as [b|]; cbn; [right|]; lra.
Qed.

Lemma PI_range : 2 < PI <= 4.
Proof. assert (A := PI2_1). assert (B := PI_4). unfold PI2 in A. lra. Qed.
Lemma wavenumber_near f v : 1 / 1000000 <= f <= 1000000 -> 1 / 1000000 <= v <= 1000000 ->
  Rabs (wavenumber f v - 2 * PI * f / v) <= 12 * u * (2 * PI * f / v).
Proof.
  intros F V. assert (U := u_value). assert (P := PI_range).
  destruct (rel_chain PI PI ltac:(lra) 0 ltac:(lra) ltac:(lra) ltac:(lra)) as [A1 A2].
  assert (B : 2 * PI * (1 - 3 * u) <= 2 * RN PI <= 2 * PI * (1 + 3 * u)) by lra.
  assert (R1 : 1 <= RN PI). { apply Rle_trans with (2 := A1). rewrite U. lra. }
  destruct (rel_chain (2 * PI) (2 * RN PI) ltac:(lra) 3 ltac:(lra) B ltac:(lra)) as [C1 C2].
  set (t := RN (2 * RN PI)) in *. assert (T1 : 1 <= t). { apply Rle_trans with (2 := C1). rewrite U. lra. }
  assert (D : 2 * PI * f * (1 - 6 * u) <= t * f <= 2 * PI * f * (1 + 6 * u)).
  { replace (2 * PI * f * (1 - 6 * u)) with (2 * PI * (1 - 6 * u) * f) by ring. replace (2 * PI * f * (1 + 6 * u)) with (2 * PI * (1 + 6 * u) * f) by ring.
    split; apply Rmult_le_compat_r; lra. }
  assert (E : 1 * (1 / 1000000) <= t * f) by (apply Rmult_le_compat; lra).
  assert (E' : 2 * (1 / 1000000) <= 2 * PI * f). { apply Rmult_le_compat; lra. }
  destruct (rel_chain (2 * PI * f) (t * f) ltac:(lra) 6 ltac:(lra) D ltac:(lra)) as [G1 G2].
  assert (H := div_rel _ _ _ v ltac:(lra) (conj G1 G2)).
  assert (R2 : / 2000000 <= RN (t * f)). { apply Rle_trans with (2 := G1). assert ((6 + 3) * u <= / 10) by (rewrite U; lra). 
    apply Rle_trans with (2 * (1 / 1000000) * (1 - (6 + 3) * u)); [lra|]. apply Rmult_le_compat_r; lra. }
  assert (I : / 2000000 / 1000000 <= RN (t * f) / v) by (apply quotient_low; lra).
  assert (J : 2 * (1 / 1000000) / 1000000 <= 2 * PI * f / v) by (apply quotient_low; lra).
  destruct (rel_chain (2 * PI * f / v) (RN (t * f) / v) ltac:(lra) (6 + 3) ltac:(lra) H ltac:(lra)) as [K1 K2].
  unfold wavenumber. fold t. apply Rabs_le. lra.
Qed.
