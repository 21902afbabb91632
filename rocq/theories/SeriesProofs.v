From Verif Require Import PyFacts NumFacts SeriesModel SeriesSpec.
From Coq Require Import Sorting.Permutation.

(** * Similarity *)
Lemma series_similar_stack s t :
  series_similar [A_nstacks] s t = true <-> compatible s t.
Proof.
  unfold series_similar, compatible; simpl.
  rewrite !andb_true_iff, !Qceqb_eq, Nat.eqb_eq. unfold nsamples. tauto.
Qed.

Lemma series_similar_all s t :
  series_similar [] s t = true <->
  dt s = dt t /\ nstacks s = nstacks t /\ delay s = delay t /\ length (amp s) = length (amp t).
Proof.
  unfold series_similar; simpl.
  rewrite !andb_true_iff, !Qceqb_eq, Nat.eqb_eq, Z.eqb_eq. unfold nsamples. tauto.
Qed.

Lemma is_similar_stack s o : is_similar [A_nstacks] s o = true <-> compatible_obj s o.
Proof.
  destruct o; simpl; try apply series_similar_stack. split; [discriminate|tauto].
Qed.

Lemma sensor_is_similar_stack s o :
  sensor_is_similar [A_nstacks] s o = true <-> compatible_sensor_obj s o.
Proof.
  destruct o; simpl; try (split; [discriminate|tauto]).
  unfold sensor_similar; simpl. rewrite !andb_true_iff, !Qceqb_eq, series_similar_stack. tauto.
Qed.

Lemma stack_append_refuses s o :
  (snd (stack_append s o) = Ok tt <-> compatible_obj s o) /\
  (~ compatible_obj s o -> stack_append s o = (s, Err ValueError)).
Proof.
  pose proof (is_similar_stack s o) as H. unfold stack_append.
  destruct (is_similar [A_nstacks] s o); split.
  - destruct o; simpl in *; tauto.
  - tauto.
  - simpl; split; [discriminate|]. intros C. apply H in C. discriminate.
  - auto.
Qed.

Lemma sensor_stack_append_refuses s o :
  (snd (sensor_stack_append s o) = Ok tt <-> compatible_sensor_obj s o) /\
  (~ compatible_sensor_obj s o -> sensor_stack_append s o = (s, Err ValueError)).
Proof.
  pose proof (sensor_is_similar_stack s o) as H. unfold sensor_stack_append.
  destruct (sensor_is_similar [A_nstacks] s o); split.
  - destruct o; simpl in *; try tauto; split; try discriminate; tauto.
  - tauto.
  - simpl; split; [discriminate|]. intros C. apply H in C. discriminate.
  - auto.
Qed.

(** * Stacking *)
Lemma stack_append_ok s t :
  compatible s t -> stack_append s (ObjSeries t) = (stack_data s t, Ok tt).
Proof.
  intro H. unfold stack_append. rewrite (proj2 (is_similar_stack s (ObjSeries t)) H). reflexivity.
Qed.

Lemma stack_data_len s t : length (amp s) = length (amp t) ->
  length (amp (stack_data s t)) = length (amp s).
Proof. intro H; simpl. rewrite length_map2. lia. Qed.

Lemma stack_data_sample s t i :
  (0 < nstacks s)%Z -> (0 < nstacks t)%Z ->
  length (amp s) = length (amp t) -> i < length (amp s) ->
  (QcZ (nstacks (stack_data s t)) * nth i (amp (stack_data s t)) 0 =
   QcZ (nstacks s) * nth i (amp s) 0 + QcZ (nstacks t) * nth i (amp t) 0)%Qc.
Proof.
  intros Hs Ht Hl Hi. simpl.
  rewrite (nth_map2 _ _ _ _ 0%Qc 0%Qc) by lia.
  field. apply Qcpos_neq0. rewrite <- QcZ_0. apply QcZ_lt. lia.
Qed.

Lemma stack_all_spec ts : forall s,
  (0 < nstacks s)%Z ->
  Forall (fun t => (0 < nstacks t)%Z /\ compatible s t) ts ->
  exists s', stack_all s ts = (s', Ok tt) /\
    nstacks s' = total_stacks (s :: ts) /\
    dt s' = dt s /\ delay s' = delay s /\ multiple s' = multiple s /\
    length (amp s') = length (amp s) /\
    forall i, i < length (amp s) ->
      (QcZ (nstacks s') * nth i (amp s') 0 =
       Qcsum (map (fun t => QcZ (nstacks t) * nth i (amp t) 0) (s :: ts)))%Qc.
Proof.
  induction ts as [|t ts IH]; intros s Hs HF.
  - exists s; simpl. repeat split; auto. unfold total_stacks; simpl; lia.
    intros; ring.
  - inversion HF as [|? ? [Ht Hc] HF']; subst.
    cbn [stack_all]. rewrite (stack_append_ok s t Hc).
    destruct Hc as (Hd & Hde & Hl).
    destruct (IH (stack_data s t)) as (s' & E & Hn & H1 & H2 & H3 & H4 & H5).
    + simpl; lia.
    + eapply Forall_impl; [|exact HF']. intros u [Hu (Cu1 & Cu2 & Cu3)]. split; auto.
      unfold compatible. rewrite stack_data_len by auto. simpl; auto.
    + exists s'. rewrite stack_data_len in * by auto.
      repeat split; auto.
      * rewrite Hn. unfold total_stacks; simpl. lia.
      * intros i Hi. rewrite (H5 i Hi). cbn [map Qcsum fold_right].
        rewrite stack_data_sample by (auto; lia).
        unfold Qcsum. ring.
Qed.

Lemma total_stacks_pos s ts : (0 < nstacks s)%Z -> Forall (fun t => (0 < nstacks t)%Z) ts ->
  (0 < total_stacks (s :: ts))%Z.
Proof.
  intros Hs H. unfold total_stacks; simpl.
  assert (0 <= fold_right Z.add 0%Z (map nstacks ts))%Z; [|lia].
  induction H; simpl; lia.
Qed.

Lemma stack_all_weighted_mean s ts :
  (0 < nstacks s)%Z ->
  Forall (fun t => (0 < nstacks t)%Z /\ compatible s t) ts ->
  exists s', stack_all s ts = (s', Ok tt) /\
    nstacks s' = total_stacks (s :: ts) /\
    dt s' = dt s /\ delay s' = delay s /\ multiple s' = multiple s /\
    length (amp s') = length (amp s) /\
    forall i, i < length (amp s) ->
      nth i (amp s') 0%Qc =
      weighted_mean (map (fun t => (nstacks t, nth i (amp t) 0%Qc)) (s :: ts)).
Proof.
  intros Hs HF.
  destruct (stack_all_spec ts s Hs HF) as (s' & E & Hn & H1 & H2 & H3 & H4 & H5).
  exists s'; repeat split; auto. intros i Hi.
  unfold weighted_mean. rewrite !map_map. cbn [fst snd].
  rewrite <- (H5 i Hi).
  assert (P : (0 < nstacks s')%Z).
  { rewrite Hn. apply total_stacks_pos; auto. eapply Forall_impl; [|exact HF]; intros ? [? ?]; auto. }
  change (fold_right Z.add 0%Z (map (fun x => nstacks x) (s :: ts))) with (total_stacks (s :: ts)).
  rewrite Hn in *. field. apply Qcpos_neq0. rewrite <- QcZ_0. apply QcZ_lt. exact P.
Qed.

Lemma total_stacks_perm l m : Permutation l m -> total_stacks l = total_stacks m.
Proof. unfold total_stacks; induction 1; simpl; lia. Qed.

Lemma weighted_mean_perm l m : Permutation l m -> weighted_mean l = weighted_mean m.
Proof.
  intro H. unfold weighted_mean. f_equal.
  - apply Qcsum_perm. now apply Permutation_map.
  - assert (E : fold_right Z.add 0%Z (map fst l) = fold_right Z.add 0%Z (map fst m))
      by (induction H; simpl; lia).
    now rewrite E.
Qed.

Lemma series_ext s t :
  amp s = amp t -> dt s = dt t -> nstacks s = nstacks t -> delay s = delay t ->
  multiple s = multiple t -> s = t.
Proof. destruct s, t; simpl; intros; subst; reflexivity. Qed.

(** Any reordering, including of the record everything is stacked onto. *)
Lemma stack_all_perm s ts s2 ts2 :
  (0 < nstacks s)%Z ->
  Forall (fun t => (0 < nstacks t)%Z /\ compatible s t) ts ->
  Permutation (s :: ts) (s2 :: ts2) ->
  exists a b, stack_all s ts = (a, Ok tt) /\ stack_all s2 ts2 = (b, Ok tt) /\
    amp a = amp b /\ nstacks a = nstacks b /\ dt a = dt b /\ delay a = delay b.
Proof.
  intros Hs HF HP.
  assert (HF0 : Forall (fun t => (0 < nstacks t)%Z /\ compatible s t) (s :: ts)).
  { constructor; auto. split; auto. unfold compatible; auto. }
  assert (HF2 := Permutation_Forall HP HF0).
  inversion HF2 as [|? ? [Hs2 (C1 & C2 & C3)] HF2']; subst.
  destruct (stack_all_weighted_mean s ts Hs HF) as (a & Ea & A1 & A2 & A3 & A4 & A5 & A6).
  destruct (stack_all_weighted_mean s2 ts2 Hs2) as (b & Eb & B1 & B2 & B3 & B4 & B5 & B6).
  { eapply Forall_impl; [|exact HF2']. intros u [Hu (D1 & D2 & D3)].
    split; auto. unfold compatible. repeat split; congruence. }
  exists a, b. repeat split; auto; try congruence.
  - apply nth_ext_len with (d := 0%Qc); [congruence|].
    intros i Hi. rewrite A6 by lia. rewrite B6 by lia.
    apply weighted_mean_perm. now apply Permutation_map.
  - rewrite A1, B1. now apply total_stacks_perm.
Qed.

Lemma stack_all_order_irrelevant s ts ts2 :
  (0 < nstacks s)%Z ->
  Forall (fun t => (0 < nstacks t)%Z /\ compatible s t) ts ->
  Permutation ts ts2 -> stack_all s ts = stack_all s ts2.
Proof.
  intros Hs HF HP.
  destruct (stack_all_weighted_mean s ts Hs HF) as (a & Ea & A1 & A2 & A3 & A4 & A5 & A6).
  destruct (stack_all_weighted_mean s ts2 Hs (Permutation_Forall HP HF))
    as (b & Eb & B1 & B2 & B3 & B4 & B5 & B6).
  rewrite Ea, Eb. f_equal. apply series_ext; try congruence.
  - apply nth_ext_len with (d := 0%Qc); [congruence|].
    intros i Hi. rewrite A6, B6 by lia. apply weighted_mean_perm, Permutation_map. auto.
  - rewrite A1, B1. apply total_stacks_perm. auto.
Qed.

(** * Zero padding *)
Lemma round_pos_iff x : (0 < x)%Qc -> ((0 < round_half_even x)%Z <-> (half < x)%Qc).
Proof.
  intros Hx. pose proof (round_half_even_nonneg x (Qclt_le_weak _ _ Hx)) as Hn.
  split; intro H.
  - destruct (Qclt_le_dec half x) as [|L]; auto. exfalso.
    destruct (Qceqb_spec x half) as [->|N].
    + vm_compute in H. discriminate.
    + assert (round_half_even x = 0%Z); [|lia]. apply round_half_even_unique.
      rewrite QcZ_0. apply Qc_neq_Q in N. unfold Qcabs, half in *. qcases; qclra.
  - destruct (Z.eq_dec (round_half_even x) 0) as [E|]; [|lia]. exfalso.
    pose proof (round_half_even_near x) as Hr. rewrite E, QcZ_0 in Hr.
    unfold Qcabs, half in *. qcases; qclra.
Qed.

Lemma prod_pos x y : (0 < x)%Qc -> (0 < y)%Qc -> (0 < x * y)%Qc.
Proof. qcnra. Qed.

Lemma half_lt_inv q : (0 < q)%Qc -> ((half < 1 / q)%Qc <-> (q < Q2Qc 2)%Qc).
Proof.
  intros Hq. assert (E : (1 / q * q = 1)%Qc) by (field; now apply Qcpos_neq0).
  assert (0 < 1 / q)%Qc by (apply Qcdiv_pos; auto; reflexivity).
  split; intro L.
  - destruct (Qclt_le_dec q (Q2Qc 2)) as [|G]; auto. exfalso. unfold half in *. qcnra.
  - destruct (Qclt_le_dec half (1 / q)) as [|G]; auto. exfalso. unfold half in *. qcnra.
Qed.

Definition pad_target (s : series) (df : Qc) : Z := round_half_even (1 / (df * dt s))%Qc.

Lemma pad_target_pos s df : (0 < dt s)%Qc -> (0 < df)%Qc ->
  ((0 < pad_target s df)%Z <-> (df * dt s < Q2Qc 2)%Qc).
Proof.
  intros. pose proof (prod_pos df (dt s) ltac:(auto) ltac:(auto)).
  unfold pad_target. rewrite round_pos_iff, half_lt_inv; [tauto|auto|].
  apply Qcdiv_pos; auto. reflexivity.
Qed.
Lemma pad_target_nonneg s df : (0 < dt s)%Qc -> (0 < df)%Qc -> (0 <= pad_target s df)%Z.
Proof.
  intros. apply round_half_even_nonneg. apply Qclt_le_weak, Qcdiv_pos; [reflexivity|].
  apply prod_pos; auto.
Qed.

(** What a successful call computes. *)
Lemma zero_pad_ok s df :
  (0 < dt s)%Qc -> (0 < df)%Qc -> (df * dt s < Q2Qc 2)%Qc ->
  exists k m, zero_pad s df =
     (mkSeries (amp s ++ repeat 0%Qc k) (dt s) (nstacks s) (delay s) m, Ok tt) /\
     (1 <= m)%Z /\
     (Z.of_nat (length (amp s) + k) = m * pad_target s df)%Z /\
     (Z.of_nat k < pad_target s df \/ length (amp s) = 0%nat /\ m = 1)%Z.
Proof.
  intros Hdt Hdf Hb. pose proof (proj2 (pad_target_pos s df Hdt Hdf) Hb) as HN.
  unfold zero_pad. fold (pad_target s df).
  pose proof (prod_pos df (dt s) ltac:(auto) ltac:(auto)) as Hp.
  destruct (Qcleb_spec df 0) as [Hle|_]; [exfalso; qclra|].
  destruct (Qceqb_spec (df * dt s)%Qc 0) as [Hz|_]; [exfalso; rewrite Hz in Hp; qclra|].
  unfold nsamples. set (n := Z.of_nat (length (amp s))). set (N := pad_target s df) in *.
  destruct (Z.ltb_spec n N).
  - unfold append_zeros. destruct (Z.ltb_spec (N - n) 0); [lia|].
    exists (Z.to_nat (N - n)), 1%Z. repeat split; try lia.
  - destruct (Z.ltb_spec N n).
    + destruct (Z.eqb_spec N 0); [lia|].
      destruct (Z.eqb_spec (n mod N) 0).
      * exists 0, (Z.quot n N). rewrite app_nil_r. split; [reflexivity|].
        rewrite Z.quot_div_nonneg by lia.
        assert (1 <= n / N)%Z by (apply Z.div_le_lower_bound; lia).
        rewrite Nat.add_0_r. fold n. pose proof (Z.div_mod n N ltac:(lia)).
        repeat split; try lia; try nia.
      * pose proof (Z.mod_pos_bound n N HN).
        unfold append_zeros. destruct (Z.ltb_spec (N - n mod N) 0); [lia|].
        exists (Z.to_nat (N - n mod N)), (Z.quot (n + (N - n mod N)) N).
        split; [reflexivity|].
        pose proof (Z.div_mod n N ltac:(lia)) as D.
        assert (E : (n + (N - n mod N) = (n / N + 1) * N)%Z) by lia.
        rewrite E, Z.quot_div_nonneg, Z.div_mul by nia.
        assert (0 <= n / N)%Z by (apply Z.div_pos; lia).
        rewrite Nat2Z.inj_add, Z2Nat.id by lia. fold n.
        repeat split; try lia.
    + assert (n = N) by lia. exists 0, 1%Z. rewrite app_nil_r.
      split; [reflexivity|]. lia.
Qed.

Lemma zero_pad_errors s df :
  ((df <= 0)%Qc -> zero_pad s df = (set_multiple s 1, Err ValueError)) /\
  ((0 < df)%Qc -> (0 < dt s)%Qc -> (Q2Qc 2 <= df * dt s)%Qc ->
     zero_pad s df = (set_multiple s 1,
                      if Nat.eqb (length (amp s)) 0 then Ok tt else Err ZeroDivisionError)) /\
  ((0 < df)%Qc -> dt s = 0%Qc -> zero_pad s df = (set_multiple s 1, Err ZeroDivisionError)).
Proof.
  repeat split.
  - intro H. unfold zero_pad. destruct (Qcleb_spec df 0); [reflexivity|contradiction].
  - intros H1 H2 H3. unfold zero_pad. fold (pad_target s df).
    pose proof (prod_pos df (dt s) ltac:(auto) ltac:(auto)) as Hp.
    destruct (Qcleb_spec df 0) as [Hle|_]; [exfalso; qclra|].
    destruct (Qceqb_spec (df * dt s)%Qc 0) as [Hz|_]; [exfalso; rewrite Hz in Hp; qclra|].
    assert (E : pad_target s df = 0%Z).
    { pose proof (pad_target_nonneg s df H2 H1). pose proof (pad_target_pos s df H2 H1) as P.
      destruct (Z.eq_dec (pad_target s df) 0); auto. exfalso.
      assert (df * dt s < Q2Qc 2)%Qc by (apply P; lia). qclra. }
    rewrite E. unfold nsamples. destruct (Nat.eqb_spec (length (amp s)) 0) as [E0|E0].
    + rewrite E0. simpl. reflexivity.
    + destruct (Z.ltb_spec (Z.of_nat (length (amp s))) 0); [lia|].
      destruct (Z.ltb_spec 0 (Z.of_nat (length (amp s)))); [reflexivity|lia].
  - intros H1 H2. unfold zero_pad. rewrite H2.
    destruct (Qcleb_spec df 0) as [Hle|_]; [exfalso; qclra|].
    destruct (Qceqb_spec (df * 0)%Qc 0) as [|Hz]; [reflexivity|]. exfalso; apply Hz; ring.
Qed.

Lemma user_df_formula s : (0 < dt s)%Qc -> 0 < length (amp s) ->
  user_df s = Ok (QcZ (multiple s) / (QcN (length (amp s)) * dt s))%Qc.
Proof.
  intros H1 H2. unfold user_df, internal_df, nsamples.
  pose proof (prod_pos (QcN (length (amp s))) (dt s) (QcN_pos _ H2) H1) as P.
  destruct (Qceqb_spec (QcN (length (amp s)) * dt s)%Qc 0) as [E|E].
  - rewrite E in P. exfalso; qclra.
  - simpl. f_equal. field. split; intro Z; rewrite Z in P; exfalso; qc2q; nra.
Qed.

Lemma zero_pad_grid s df :
  (0 < dt s)%Qc -> (0 < df)%Qc -> (df * dt s < Q2Qc 2)%Qc ->
  exists s' N,
    zero_pad s df = (s', Ok tt) /\
    (0 < N)%Z /\ (Qcabs (1 / (df * dt s) - QcZ N) <= half)%Qc /\
    (1 <= multiple s')%Z /\
    Z.of_nat (length (amp s')) = (multiple s' * N)%Z /\
    (forall k, (1 <= k)%Z -> (Z.of_nat (length (amp s)) <= k * N)%Z ->
               (Z.of_nat (length (amp s')) <= k * N)%Z) /\
    user_df s' = Ok (1 / (QcZ N * dt s))%Qc /\
    (forall M, (0 < M)%Z -> (1 / (df * dt s))%Qc = QcZ M -> user_df s' = Ok df).
Proof.
  intros Hdt Hdf Hb. pose proof (proj2 (pad_target_pos s df Hdt Hdf) Hb) as HN.
  destruct (zero_pad_ok s df Hdt Hdf Hb) as (k & m & E & Hm & Hl & Hk).
  exists (mkSeries (amp s ++ repeat 0%Qc k) (dt s) (nstacks s) (delay s) m), (pad_target s df).
  set (N := pad_target s df) in *.
  assert (HU : user_df (mkSeries (amp s ++ repeat 0%Qc k) (dt s) (nstacks s) (delay s) m)
               = Ok (1 / (QcZ N * dt s))%Qc).
  { rewrite user_df_formula; cbn [amp dt multiple]; rewrite ?app_length, ?repeat_length; auto.
    - f_equal. unfold QcN. rewrite Hl, QcZ_mul.
      assert (QcZ m <> 0%Qc) by (apply Qcpos_neq0; rewrite <- QcZ_0; apply QcZ_lt; lia).
      assert (QcZ N <> 0%Qc) by (apply Qcpos_neq0; rewrite <- QcZ_0; apply QcZ_lt; lia).
      field. repeat split; auto. now apply Qcpos_neq0.
    - nia. }
  split; [exact E|]. split; [exact HN|]. split; [apply round_half_even_near|].
  cbn [multiple amp]. rewrite app_length, repeat_length.
  split; [auto|]. split; [auto|]. split.
  - intros j Hj Hle. rewrite Hl in *.
    destruct Hk as [Hk|[Hk ->]].
    + assert (m <= j)%Z; [|nia]. rewrite Nat2Z.inj_add in Hl. nia.
    + nia.
  - split; [exact HU|]. intros M HM EM. rewrite HU. f_equal.
    assert (N = M) as ->. { unfold N, pad_target. rewrite EM. apply round_half_even_QcZ. }
    rewrite <- EM. field. repeat split; try (now apply Qcpos_neq0).
Qed.

(** Whatever happens, padding only appends zeros and touches nothing else. *)
Lemma zero_pad_prefix s df : exists k m,
  fst (zero_pad s df) = mkSeries (amp s ++ repeat 0%Qc k) (dt s) (nstacks s) (delay s) m.
Proof.
  assert (Z0 : forall m, exists k m', set_multiple s m =
     mkSeries (amp s ++ repeat 0%Qc k) (dt s) (nstacks s) (delay s) m').
  { intro m. exists 0, m. rewrite app_nil_r. reflexivity. }
  unfold zero_pad, append_zeros.
  destruct (Qcleb df 0); [apply Z0|].
  destruct (Qceqb (df * dt s) 0); [apply Z0|].
  destruct (_ <? _)%Z.
  - destruct (_ <? _)%Z; [apply Z0|]. simpl. eexists _, _. reflexivity.
  - destruct (_ <? _)%Z; [|apply Z0].
    destruct (_ =? _)%Z; [apply Z0|].
    destruct (_ =? _)%Z; [apply Z0|].
    destruct (_ <? _)%Z; [apply Z0|]. simpl. eexists _, _. reflexivity.
Qed.

Lemma pads_prefix dfs : forall s, exists k m,
  pads s dfs = mkSeries (amp s ++ repeat 0%Qc k) (dt s) (nstacks s) (delay s) m.
Proof.
  induction dfs as [|df dfs IH]; intro s.
  - exists 0, (multiple s). rewrite app_nil_r. destruct s; reflexivity.
  - cbn [pads fold_left]. destruct (zero_pad_prefix s df) as (k & m & E). rewrite E.
    destruct (IH (mkSeries (amp s ++ repeat 0%Qc k) (dt s) (nstacks s) (delay s) m)) as (k2 & m2 & E2).
    exists (k + k2), m2. unfold pads in E2. rewrite E2. cbn [amp dt nstacks delay].
    rewrite <- app_assoc, repeat_app. reflexivity.
Qed.

Lemma zero_pad_idem s df s' :
  (0 < dt s)%Qc -> zero_pad s df = (s', Ok tt) -> zero_pad s' df = (s', Ok tt).
Proof.
  intros Hdt H.
  destruct (Qclt_le_dec 0 df) as [Hdf|Hdf].
  2:{ destruct (zero_pad_errors s df) as [E _]. rewrite (E Hdf) in H. discriminate. }
  destruct (Qclt_le_dec (df * dt s) (Q2Qc 2)) as [Hb|Hb].
  - destruct (zero_pad_ok s df Hdt Hdf Hb) as (k & m & E & Hm & Hl & Hk).
    rewrite E in H; injection H as <-.
    pose proof (proj2 (pad_target_pos s df Hdt Hdf) Hb) as HN.
    set (s' := mkSeries (amp s ++ repeat 0%Qc k) (dt s) (nstacks s) (delay s) m) in *.
    unfold zero_pad. change (dt s') with (dt s). fold (pad_target s df).
    set (N := pad_target s df) in *.
    pose proof (prod_pos df (dt s) ltac:(auto) ltac:(auto)) as Hp.
    destruct (Qcleb_spec df 0) as [Hle|_]; [exfalso; qclra|].
    destruct (Qceqb_spec (df * dt s)%Qc 0) as [Hz|_]; [exfalso; rewrite Hz in Hp; qclra|].
    assert (L : Z.of_nat (nsamples s') = (m * N)%Z).
    { unfold nsamples; simpl. rewrite app_length, repeat_length. auto. }
    rewrite L.
    destruct (Z.ltb_spec (m * N) N); [nia|].
    destruct (Z.ltb_spec N (m * N)).
    + destruct (Z.eqb_spec N 0); [lia|]. rewrite Z.mod_mul by lia. simpl.
      rewrite Z.quot_mul by lia. reflexivity.
    + assert (m = 1)%Z by nia. subst m. reflexivity.
  - destruct (zero_pad_errors s df) as (_ & E & _). rewrite (E Hdf Hdt Hb) in H.
    destruct (Nat.eqb_spec (length (amp s)) 0) as [E0|]; [|discriminate].
    injection H as <-.
    destruct (zero_pad_errors (set_multiple s 1) df) as (_ & E' & _).
    rewrite E' by auto. simpl. rewrite E0. reflexivity.
Qed.

(** The outcome depends on the history only through the number of samples. *)
Lemma pads_last s dfs df :
  (0 < dt s)%Qc -> (0 < df)%Qc -> (df * dt s < Q2Qc 2)%Qc ->
  user_df (pads s (dfs ++ [df])) = Ok (1 / (QcZ (pad_target s df) * dt s))%Qc.
Proof.
  intros H1 H2 H3. unfold pads. rewrite fold_left_app. cbn [fold_left].
  fold (pads s dfs). destruct (pads_prefix dfs s) as (k & m & E). rewrite E.
  set (s1 := mkSeries _ _ _ _ _).
  destruct (zero_pad_ok s1 df H1 H2 H3) as (k' & m' & E' & Hm & Hl & _).
  rewrite E'. cbn [fst].
  pose proof (proj2 (pad_target_pos s df H1 H2) H3) as HN.
  change (pad_target s1 df) with (pad_target s df) in Hl.
  assert (D1 : dt s1 = dt s) by reflexivity. set (N := pad_target s df) in *.
  clearbody s1. rewrite user_df_formula; cbn [amp dt multiple]; rewrite ?app_length, ?repeat_length; auto.
  - f_equal. unfold QcN. rewrite Hl, QcZ_mul.
    assert (QcZ m' <> 0%Qc) by (apply Qcpos_neq0; rewrite <- QcZ_0; apply QcZ_lt; lia).
    assert (QcZ N <> 0%Qc) by (apply Qcpos_neq0; rewrite <- QcZ_0; apply QcZ_lt; lia).
    rewrite D1. field. repeat split; auto. now apply Qcpos_neq0.
  - rewrite D1; auto.
  - nia.
Qed.

Lemma zero_pad_fail_state s df s' e :
  (0 < dt s)%Qc -> zero_pad s df = (s', Err e) -> s' = set_multiple s 1.
Proof.
  intros Hdt H. destruct (zero_pad_errors s df) as (E1 & E2 & _).
  destruct (Qclt_le_dec 0 df) as [Hdf|Hdf].
  - destruct (Qclt_le_dec (df * dt s) (Q2Qc 2)) as [Hb|Hb].
    + destruct (zero_pad_ok s df Hdt Hdf Hb) as (k & m & E & _). rewrite E in H. discriminate.
    + rewrite (E2 Hdf Hdt Hb) in H. congruence.
  - rewrite (E1 Hdf) in H. congruence.
Qed.

(** * Trimming *)
Lemma Qcltb_irr a : Qcltb a a = false.
Proof. destruct (Qcltb_spec a a); auto. exfalso; qclra. Qed.
Lemma Qcltb_trans a b c : Qcltb a b = true -> Qcltb b c = true -> Qcltb a c = true.
Proof. rewrite !Qcltb_lt. apply Qclt_trans. Qed.
Lemma Qcltb_negtrans a b c : Qcltb a b = false -> Qcltb b c = false -> Qcltb a c = false.
Proof. qcases; intros; auto; try discriminate. exfalso; qclra. Qed.

Lemma argmin_spec l k : argmin l = Ok k ->
  k < length l /\ (forall j, j < length l -> (nth k l 0 <= nth j l 0)%Qc) /\
  (forall j, j < k -> (nth k l 0 < nth j l 0)%Qc).
Proof.
  intro H. destruct (argbest_spec Qcltb 0%Qc Qcltb_irr Qcltb_trans Qcltb_negtrans _ _ H) as (A & B & C).
  split; auto. split; intros j Hj.
  - specialize (B j Hj). qcases; try discriminate. qclra.
  - apply Qcltb_lt. auto.
Qed.
Lemma argmin_unique l k : k < length l -> (forall j, j < length l -> (nth k l 0 <= nth j l 0)%Qc) ->
  (forall j, j < k -> (nth k l 0 < nth j l 0)%Qc) -> argmin l = Ok k.
Proof.
  intros H1 H2 H3. apply (argbest_unique Qcltb 0%Qc Qcltb_irr Qcltb_trans Qcltb_negtrans); auto.
  - intros j Hj. specialize (H2 j Hj). qcases; auto. exfalso; qclra.
  - intros j Hj. apply Qcltb_lt; auto.
Qed.

Definition Qcgtb a b := Qcltb b a.
Lemma argmax_spec l k : argmax l = Ok k ->
  k < length l /\ (forall j, j < length l -> (nth j l 0 <= nth k l 0)%Qc) /\
  (forall j, j < k -> (nth j l 0 < nth k l 0)%Qc).
Proof.
  intro H.
  destruct (argbest_spec (fun a b => Qcltb b a) 0%Qc) with (l := l) (k := k) as (A & B & C); auto.
  - intros; apply Qcltb_irr.
  - intros a b c; intros; eapply Qcltb_trans; eauto.
  - intros a b c; intros; eapply Qcltb_negtrans; eauto.
  - split; auto. split; intros j Hj.
    + specialize (B j Hj). simpl in B. qcases; try discriminate. qclra.
    + apply Qcltb_lt. apply (C j Hj).
Qed.
Lemma argmax_ok l : l <> [] -> exists k, argmax l = Ok k.
Proof. intros. now apply argbest_ok. Qed.
Lemma argmin_ok l : l <> [] -> exists k, argmin l = Ok k.
Proof. intros. now apply argbest_ok. Qed.

Lemma lmin_spec l : forall a, (lmin a l <= a)%Qc /\ (forall x, In x l -> (lmin a l <= x)%Qc) /\
  (lmin a l = a \/ In (lmin a l) l).
Proof.
  induction l as [|b l IH]; intros a; simpl.
  - repeat split; try tauto. qclra.
  - unfold lmin in *; simpl. destruct (IH (Qcmin2 a b)) as (H1 & H2 & H3).
    assert (Qcmin2 a b <= a)%Qc by (unfold Qcmin2; qcases; qclra).
    assert (Qcmin2 a b <= b)%Qc by (unfold Qcmin2; qcases; qclra).
    repeat split.
    + qclra.
    + intros x [->|Hx]; [qclra|auto].
    + destruct H3 as [->|H3]; auto. unfold Qcmin2. destruct (Qcltb b a); auto.
Qed.
Lemma lmax_spec l : forall a, (a <= lmax a l)%Qc /\ (forall x, In x l -> (x <= lmax a l)%Qc) /\
  (lmax a l = a \/ In (lmax a l) l).
Proof.
  induction l as [|b l IH]; intros a; simpl.
  - repeat split; try tauto. qclra.
  - unfold lmax in *; simpl. destruct (IH (Qcmax2 a b)) as (H1 & H2 & H3).
    assert (a <= Qcmax2 a b)%Qc by (unfold Qcmax2; qcases; qclra).
    assert (b <= Qcmax2 a b)%Qc by (unfold Qcmax2; qcases; qclra).
    repeat split.
    + qclra.
    + intros x [->|Hx]; [qclra|auto].
    + destruct H3 as [->|H3]; auto. unfold Qcmax2. destruct (Qcltb a b); auto.
Qed.

Lemma length_time s : length (time s) = length (amp s).
Proof. unfold time. rewrite map_length. apply seq_length. Qed.
Lemma nth_time s i : i < length (amp s) -> nth i (time s) 0%Qc = time_at s i.
Proof.
  intro H. unfold time, range, nsamples. now rewrite nth_map_seq by auto.
Qed.
Lemma time_at_mono s i j : (0 < dt s)%Qc -> i <= j -> (time_at s i <= time_at s j)%Qc.
Proof. unfold time_at. intros H L. apply QcN_le in L. qcnra. Qed.
Lemma time_at_smono s i j : (0 < dt s)%Qc -> i < j -> (time_at s i < time_at s j)%Qc.
Proof. unfold time_at. intros H L. apply QcN_lt in L. qcnra. Qed.

Lemma In_time s x : In x (time s) <-> exists i, i < length (amp s) /\ x = time_at s i.
Proof.
  unfold time, range, nsamples. rewrite in_map_iff. split.
  - intros (i & <- & H). apply in_seq in H. exists i; split; [lia|reflexivity].
  - intros (i & H & ->). exists i; split; [reflexivity|]. apply in_seq; lia.
Qed.

Lemma time_min_max s t0 ts : (0 < dt s)%Qc -> time s = t0 :: ts ->
  lmin t0 ts = time_at s 0 /\ lmax t0 ts = time_at s (length (amp s) - 1).
Proof.
  intros Hdt E. pose proof (length_time s) as L. rewrite E in L. simpl in L.
  assert (forall x, In x (t0 :: ts) <-> exists i, i < length (amp s) /\ x = time_at s i) as I
    by (intro; rewrite <- E; apply In_time).
  destruct (lmin_spec ts t0) as (A1 & A2 & A3). destruct (lmax_spec ts t0) as (B1 & B2 & B3).
  split; apply Qcle_antisym.
  - assert (In (time_at s 0) (t0 :: ts)) as [<-|H] by (apply I; exists 0; split; [lia|auto]); auto.
  - assert (In (lmin t0 ts) (t0 :: ts)) as H by (destruct A3 as [->|]; simpl; auto).
    apply I in H as (i & Hi & ->). apply time_at_mono; auto; lia.
  - assert (In (lmax t0 ts) (t0 :: ts)) as H by (destruct B3 as [->|]; simpl; auto).
    apply I in H as (i & Hi & ->). apply time_at_mono; auto; lia.
  - assert (In (time_at s (length (amp s) - 1)) (t0 :: ts)) as [<-|H]
      by (apply I; exists (length (amp s) - 1); split; [lia|auto]); auto.
Qed.

Lemma nth_dist s t i : i < length (amp s) ->
  nth i (map (fun u => Qcabs (u - t)%Qc) (time s)) 0%Qc = Qcabs (time_at s i - t)%Qc.
Proof.
  intro H. rewrite (nth_map_lt _ _ _ _ 0%Qc) by (rewrite length_time; auto).
  rewrite nth_time by auto. reflexivity.
Qed.

Lemma argmin_dist s t i :
  argmin (map (fun u => Qcabs (u - t)%Qc) (time s)) = Ok i <-> nearest_sample s t i.
Proof.
  assert (L : length (map (fun u => Qcabs (u - t)%Qc) (time s)) = length (amp s))
    by (rewrite map_length; apply length_time).
  split.
  - intro H. apply argmin_spec in H. rewrite L in H. destruct H as (A & B & C).
    split; auto. split; intros k Hk.
    + specialize (B k Hk). rewrite !nth_dist in B by lia. auto.
    + specialize (C k Hk). rewrite !nth_dist in C by lia. auto.
  - intros (A & B & C). apply argmin_unique; rewrite ?L; auto; intros k Hk;
      rewrite !nth_dist by lia; auto.
Qed.

Lemma nearest_exists s t : 0 < length (amp s) -> exists i, nearest_sample s t i.
Proof.
  intro H. destruct (argmin_ok (map (fun u => Qcabs (u - t)%Qc) (time s))) as [i E].
  - intro E. apply (f_equal (@length Qc)) in E. rewrite map_length, length_time in E. simpl in E; lia.
  - exists i. now apply argmin_dist.
Qed.

Lemma nearest_unique s t i j : nearest_sample s t i -> nearest_sample s t j -> i = j.
Proof. intros A B. apply argmin_dist in A. apply argmin_dist in B. congruence. Qed.

Lemma nearest_mono s a b i j :
  (0 < dt s)%Qc -> (a <= b)%Qc -> nearest_sample s a i -> nearest_sample s b j -> i <= j.
Proof.
  intros Hdt Hab (A1 & A2 & A3) (B1 & B2 & B3).
  destruct (le_lt_dec i j) as [|L]; auto. exfalso.
  pose proof (A3 j L) as C. pose proof (B2 i A1) as D. pose proof (time_at_smono s j i Hdt L) as E.
  set (u := time_at s i) in *. set (v := time_at s j) in *. clearbody u v.
  unfold Qcabs in *. qcases; qclra.
Qed.

Lemma trim_ok s st en : (0 < dt s)%Qc -> 0 < length (amp s) -> in_span s st en ->
  exists i j, nearest_sample s st i /\ nearest_sample s en j /\ i <= j /\
    trim s st en = (mkSeries (firstn (j + 1 - i) (skipn i (amp s))) (dt s) (nstacks s) st (multiple s), Ok tt).
Proof.
  intros Hdt Hn (S1 & S2 & S3).
  destruct (nearest_exists s st Hn) as [i Hi]. destruct (nearest_exists s en Hn) as [j Hj].
  exists i, j. split; [exact Hi|]. split; [exact Hj|]. split.
  - exact (nearest_mono s st en i j Hdt S2 Hi Hj).
  - unfold trim, base_trim.
    rewrite (proj2 (argmin_dist s st i) Hi), (proj2 (argmin_dist s en j) Hj).
    destruct (time s) as [|t0 ts] eqn:E.
    { apply (f_equal (@length Qc)) in E. rewrite length_time in E. simpl in E. lia. }
    destruct (time_min_max s t0 ts Hdt E) as [-> ->].
    destruct (Qcltb_spec st (time_at s 0)); [exfalso; qclra|].
    destruct (Qcltb_spec en st); [exfalso; qclra|].
    destruct (Qcltb_spec (time_at s (length (amp s) - 1)) en); [exfalso; qclra|].
    cbn [orb amp dt nstacks multiple set_amp]. rewrite firstn_skipn_comm.
    pose proof (nearest_mono s st en i j Hdt S2 Hi Hj).
    replace (i + (j + 1 - i)) with (j + 1) by lia. reflexivity.
Qed.

Lemma trim_refused s st en : (0 < dt s)%Qc -> 0 < length (amp s) -> ~ in_span s st en ->
  trim s st en = (s, Err IndexError).
Proof.
  intros Hdt Hn H. unfold trim, base_trim.
  destruct (time s) as [|t0 ts] eqn:E.
  { apply (f_equal (@length Qc)) in E. rewrite length_time in E. simpl in E. lia. }
  destruct (time_min_max s t0 ts Hdt E) as [-> ->].
  destruct (Qcltb_spec st (time_at s 0)); [reflexivity|].
  destruct (Qcltb_spec en st); [reflexivity|].
  destruct (Qcltb_spec (time_at s (length (amp s) - 1)) en); [reflexivity|].
  exfalso. apply H. unfold in_span. repeat split; qclra.
Qed.

Lemma trim_empty s st en : amp s = [] -> trim s st en = (s, Err ValueError).
Proof. intro H. unfold trim, base_trim, time, nsamples. rewrite H. reflexivity. Qed.

(** A failing trim never changes anything (any record, any dt). *)
Lemma trim_fail_state s st en s' e : trim s st en = (s', Err e) -> s' = s.
Proof.
  unfold trim, base_trim. destruct (time s); simpl; [congruence|].
  destruct (_ || _ || _); [congruence|].
  repeat match goal with |- context [argmin ?l] => destruct (argmin l) end; simpl; congruence.
Qed.

Lemma trim_keeps s st en : dt (fst (trim s st en)) = dt s /\ nstacks (fst (trim s st en)) = nstacks s /\
  multiple (fst (trim s st en)) = multiple s.
Proof.
  unfold trim, base_trim. destruct (time s); simpl; auto.
  destruct (_ || _ || _); simpl; auto.
  all: repeat match goal with |- context [argmin ?l] => destruct (argmin l) end; simpl; auto.
Qed.

(** The nearest sample is at most half a time step away inside the record. *)
Lemma nearest_within_half s t i :
  (0 < dt s)%Qc -> (time_at s 0 <= t)%Qc -> (t <= time_at s (length (amp s) - 1))%Qc ->
  nearest_sample s t i -> (Qcabs (time_at s i - t) <= half * dt s)%Qc.
Proof.
  intros Hdt H0 H1 (A & B & C).
  set (q := ((t - delay s) / dt s)%Qc).
  assert (Eq : (q * dt s = t - delay s)%Qc) by (unfold q; field; now apply Qcpos_neq0).
  destruct (Qcfloor_spec q) as [F1 F2].
  assert (Hq0 : (0 <= q)%Qc).
  { destruct (Qclt_le_dec q 0); auto. exfalso. unfold time_at in H0. rewrite QcN_0 in H0. qcnra. }
  assert (0 <= Qcfloor q)%Z as Hf.
  { rewrite <- (Qcfloor_QcZ 0). apply Qcfloor_mono. now rewrite QcZ_0. }
  set (k := Z.to_nat (Qcfloor q)).
  assert (Ek : QcN k = QcZ (Qcfloor q)) by (unfold QcN, k; rewrite Z2Nat.id; auto).
  assert (Hk : (QcN k <= QcN (length (amp s) - 1))%Qc).
  { rewrite Ek. unfold time_at in H1.
    destruct (Qclt_le_dec (QcN (length (amp s) - 1)) (QcZ (Qcfloor q))); auto. exfalso. qcnra. }
  apply QcN_le in Hk.
  assert (D1 : (Qcabs (time_at s k - t) = t - time_at s k)%Qc).
  { unfold Qcabs, time_at. rewrite Ek. qcases; [qclra|].
    apply Qcle_antisym; qcnra. }
  assert (B1 := B k ltac:(lia)). rewrite D1 in B1.
  destruct (Nat.eq_dec k (length (amp s) - 1)) as [E|E].
  - rewrite <- E in H1. unfold half. qcnra.
  - assert (B2 := B (S k) ltac:(lia)).
    assert (D2 : (Qcabs (time_at s (S k) - t) = time_at s k + dt s - t)%Qc).
    { unfold Qcabs, time_at. rewrite QcN_S, Ek. qcases; [|ring].
      exfalso. qcnra. }
    rewrite D2 in B2. unfold half. qclra.
Qed.

Lemma on_grid_nearest s i : (0 < dt s)%Qc -> i < length (amp s) -> nearest_sample s (time_at s i) i.
Proof.
  intros Hdt Hi. assert (Z0 : Qcabs (time_at s i - time_at s i)%Qc = 0%Qc).
  { apply Qcabs_0. ring. }
  split; auto. split; intros k Hk; rewrite Z0.
  - apply Qcabs_nonneg.
  - assert (Qcabs (time_at s k - time_at s i) <> 0)%Qc as N.
    { rewrite Qcabs_0. pose proof (time_at_smono s k i Hdt Hk). intro E. qclra. }
    pose proof (Qcabs_nonneg (time_at s k - time_at s i)) as P.
    apply Qc_neq_Q in N. qc2q. lra.
Qed.

(** Time labels after a trim. *)
Lemma trim_times s st en s' :
  (0 < dt s)%Qc -> trim s st en = (s', Ok tt) ->
  exists i, nearest_sample s st i /\ 0 < length (amp s') /\
    (forall k, k < length (amp s') -> nth k (amp s') 0%Qc = nth (i + k) (amp s) 0%Qc) /\
    (forall k, (time_at s' k - time_at s (i + k) = st - time_at s i)%Qc) /\
    (Qcabs (st - time_at s i) <= half * dt s)%Qc.
Proof.
  intros Hdt H.
  destruct (amp s) as [|a0 l0] eqn:E0. { rewrite trim_empty in H; [discriminate|auto]. }
  assert (Hn : 0 < length (amp s)) by (rewrite E0; simpl; lia).
  rewrite <- E0.
  destruct (Qclt_le_dec st (time_at s 0)) as [C1|C1].
  { rewrite trim_refused in H; [discriminate|auto|auto|]. intros (?&?&?); qclra. }
  destruct (Qclt_le_dec en st) as [C2|C2].
  { rewrite trim_refused in H; [discriminate|auto|auto|]. intros (?&?&?); qclra. }
  destruct (Qclt_le_dec (time_at s (length (amp s) - 1)) en) as [C3|C3].
  { rewrite trim_refused in H; [discriminate|auto|auto|]. intros (?&?&?); qclra. }
  destruct (trim_ok s st en Hdt Hn) as (i & j & Hi & Hj & Hij & E).
  { unfold in_span; auto. }
  rewrite E in H. injection H as <-. exists i. split; auto.
  assert (Lj : j < length (amp s)) by apply Hj.
  cbn [amp]. rewrite firstn_length, skipn_length.
  split; [lia|]. split; [|split].
  - intros k Hk. rewrite nth_firstn_lt by lia. apply nth_skipn.
  - intros k. unfold time_at. cbn [dt delay]. rewrite QcN_add. ring.
  - rewrite Qcabs_minus. apply nearest_within_half; auto. eapply Qcle_trans; eauto.
Qed.

Lemma trim_on_grid s en s' i :
  (0 < dt s)%Qc -> i < length (amp s) -> trim s (time_at s i) en = (s', Ok tt) ->
  forall k, k < length (amp s') ->
    nth k (amp s') 0%Qc = nth (i + k) (amp s) 0%Qc /\ time_at s' k = time_at s (i + k).
Proof.
  intros Hdt Hi H k Hk. destruct (trim_times s _ _ s' Hdt H) as (i' & N & _ & A & B & _).
  assert (i' = i) as -> by (eapply nearest_unique; eauto using on_grid_nearest).
  split; auto. specialize (B k). qclra.
Qed.

(** * Copies *)
Lemma copy_series_ok s : (1 <= nstacks s)%Z -> (delay s <= 0)%Qc -> 
  copy_series s = Ok (mkSeries (amp s) (dt s) (nstacks s) (delay s) 1).
Proof.
  intros H1 H2. unfold copy_series, new_series.
  destruct (Z.leb_spec (nstacks s) 0); [lia|].
  destruct (Qcltb_spec 0 (delay s)); [exfalso; qclra|reflexivity].
Qed.

Lemma isclose_refl a : isclose a a = true.
Proof.
  unfold isclose. apply Qcleb_le. replace (a - a)%Qc with 0%Qc by ring.
  rewrite (proj2 (Qcabs_0 0%Qc) eq_refl). pose proof (Qcabs_nonneg a) as H.
  unfold atol, rtol. qcnra.
Qed.
Lemma allclose_refl l : allclose l l = true.
Proof. unfold allclose. induction l as [|a l IH]; simpl; auto. rewrite isclose_refl; auto. Qed.
Lemma series_similar_refl ex s : series_similar ex s s = true.
Proof.
  unfold series_similar. rewrite !(proj2 (Qceqb_eq _ _) eq_refl), Z.eqb_refl, Nat.eqb_refl, !orb_true_r.
  reflexivity.
Qed.
Lemma sensor_similar_refl ex s : sensor_similar ex s s = true.
Proof.
  unfold sensor_similar. rewrite !(proj2 (Qceqb_eq _ _) eq_refl), series_similar_refl, !orb_true_r. reflexivity.
Qed.
Lemma series_eq_refl s : series_eq s (ObjSeries s) = true.
Proof. unfold series_eq; simpl. now rewrite series_similar_refl, allclose_refl. Qed.
Lemma sensor_eq_refl s : sensor_eq s (ObjSensor s) = true.
Proof. unfold sensor_eq; simpl. now rewrite sensor_similar_refl, allclose_refl. Qed.

Lemma allclose_spec l m : length l = length m ->
  (allclose l m = true <-> forall i, i < length l -> (Qcabs (nth i l 0 - nth i m 0) <= atol + rtol * Qcabs (nth i m 0))%Qc).
Proof.
  unfold allclose. revert m; induction l as [|a l IH]; intros [|b m] H; simpl in *; try lia.
  - split; auto. intros; lia.
  - rewrite andb_true_iff, IH by lia. unfold isclose. rewrite Qcleb_le. split.
    + intros [H1 H2] [|i] Hi; auto. apply H2; lia.
    + intro G. split; [apply (G 0); lia|]. intros i Hi. apply (G (S i)); lia.
Qed.

Lemma series_eq_spec s t :
  series_eq s (ObjSeries t) = true <->
  dt s = dt t /\ nstacks s = nstacks t /\ delay s = delay t /\ length (amp s) = length (amp t) /\
  forall i, i < length (amp s) -> (Qcabs (nth i (amp s) 0 - nth i (amp t) 0) <= atol + rtol * Qcabs (nth i (amp t) 0))%Qc.
Proof.
  unfold series_eq; simpl. rewrite andb_true_iff, series_similar_all. split.
  - intros [(A & B & C & D) E]. repeat split; auto. now apply allclose_spec.
  - intros (A & B & C & D & E). repeat split; auto. now apply allclose_spec.
Qed.

(** * Cross-correlation *)
Lemma map_seq_shift {A} (f : nat -> A) a n : map f (seq a n) = map (fun i => f (a + i)) (seq 0 n).
Proof.
  revert f a; induction n as [|n IH]; intros f a; simpl; auto.
  f_equal; [f_equal; lia|]. rewrite (IH f (S a)), (IH (fun i => f (a + i)) 1).
  apply map_ext. intro; f_equal; lia.
Qed.

Lemma correlate_length a b : a <> [] -> b <> [] -> length (correlate a b) = length a + length b - 1.
Proof.
  intros Ha Hb. unfold correlate. destruct a; [congruence|]. destruct b; [congruence|].
  rewrite map_length. unfold range. apply seq_length.
Qed.
Lemma correlate_nth a b k : a <> [] -> b <> [] -> k < length a + length b - 1 ->
  nth k (correlate a b) 0%Qc = similarity a b (Z.of_nat k + 1 - Z.of_nat (length b)).
Proof.
  intros Ha Hb Hk. unfold correlate. destruct a as [|a0 a]; [congruence|]. destruct b as [|b0 b]; [congruence|].
  set (x := a0 :: a) in *. set (y := b0 :: b) in *.
  set (f := fun k => Qcsum _).
  unfold range at 1. rewrite nth_map_seq by auto. unfold f, similarity, range.
  f_equal. apply map_ext. intro l. unfold delayed. f_equal. f_equal. lia.
Qed.

Lemma sample_nth l i : sample l (Z.of_nat i) = nth i l 0%Qc.
Proof. unfold sample. destruct (Z.ltb_spec (Z.of_nat i) 0); [lia|]. now rewrite Nat2Z.id. Qed.
Lemma sample_neg l i : (i < 0)%Z -> sample l i = 0%Qc.
Proof. unfold sample. destruct (Z.ltb_spec i 0); [auto|lia]. Qed.
Lemma sample_big l i : (Z.of_nat (length l) <= i)%Z -> sample l i = 0%Qc.
Proof. unfold sample. intro. destruct (Z.ltb_spec i 0); auto. apply nth_overflow. lia. Qed.
Lemma sample_in l i : (0 <= i)%Z -> sample l i = nth (Z.to_nat i) l 0%Qc.
Proof. unfold sample. destruct (Z.ltb_spec i 0); [lia|auto]. Qed.

Lemma shift_amp_spec k b :
  (Z.abs k < Z.of_nat (length b))%Z ->
  length (shift_amp k b) = length b /\
  forall i, i < length b -> nth i (shift_amp k b) 0%Qc = delayed k b i.
Proof.
  intro H. unfold shift_amp, delayed.
  destruct (Z.ltb_spec 0 k).
  - unfold pyslice. rewrite clip_index_neg by lia.
    replace (length b - Z.to_nat (- - k)) with (length b - Z.to_nat k) by lia.
    cbn [skipn]. rewrite app_length, repeat_length, firstn_length. split; [lia|].
    intros i Hi. destruct (lt_dec i (Z.to_nat k)).
    + rewrite app_nth1 by (rewrite repeat_length; auto).
      rewrite sample_neg by lia. apply nth_repeat_any.
    + rewrite app_nth2; rewrite repeat_length; [|lia].
      rewrite nth_firstn_lt by lia. rewrite sample_in by lia. f_equal. lia.
  - destruct (Z.ltb_spec k 0).
    + unfold pyslice. rewrite clip_index_nonneg by lia. rewrite firstn_all.
      rewrite Nat.min_l by lia.
      rewrite app_length, repeat_length, skipn_length. split; [lia|].
      intros i Hi. destruct (lt_dec i (length b - Z.to_nat (Z.abs k))).
      * rewrite app_nth1 by (rewrite skipn_length; auto).
        rewrite nth_skipn, sample_in by lia. f_equal. lia.
      * rewrite app_nth2; rewrite skipn_length; [|lia].
        rewrite nth_repeat_any, sample_big by lia. reflexivity.
    + split; auto. intros i Hi. rewrite sample_in by lia. f_equal. lia.
Qed.

Lemma shift_amp_length k b :
  length (shift_amp k b) = Nat.max (length b) (Z.to_nat (Z.abs k)).
Proof.
  unfold shift_amp. destruct (Z.ltb_spec 0 k).
  - unfold pyslice. rewrite clip_index_neg by lia. cbn [skipn].
    rewrite app_length, repeat_length, firstn_length. lia.
  - destruct (Z.ltb_spec k 0); [|lia].
    unfold pyslice. rewrite clip_index_nonneg by lia. rewrite firstn_all.
    rewrite app_length, repeat_length, skipn_length. lia.
Qed.

Lemma crosscorr_shift_best ex a b :
  series_similar ex a b = true -> length (amp a) = length (amp b) -> 0 < length (amp b) ->
  exists k out, crosscorr_shift ex a b = Ok (k, out) /\
    (Z.abs k < Z.of_nat (length (amp b)))%Z /\
    length out = length (amp b) /\
    (forall i, i < length (amp b) -> nth i out 0%Qc = delayed k (amp b) i) /\
    (forall k', (Z.abs k' < Z.of_nat (length (amp b)))%Z ->
        (similarity (amp a) (amp b) k' <= similarity (amp a) (amp b) k)%Qc) /\
    (forall k', (Z.abs k' < Z.of_nat (length (amp b)))%Z -> (k' < k)%Z ->
        (similarity (amp a) (amp b) k' < similarity (amp a) (amp b) k)%Qc).
Proof.
  intros Hs Hl Hp. unfold crosscorr_shift, crosscorr. rewrite Hs. cbn [bind].
  assert (Ha : amp a <> []) by (destruct (amp a); simpl in *; [lia|congruence]).
  assert (Hb : amp b <> []) by (destruct (amp b); simpl in *; [lia|congruence]).
  destruct (argmax_ok (correlate (amp a) (amp b))) as [loc E].
  { intro E. apply (f_equal (@length Qc)) in E. rewrite correlate_length in E by auto. simpl in E. lia. }
  rewrite E. cbn [bind]. unfold nsamples.
  destruct (argmax_spec _ _ E) as (A & B & C). rewrite correlate_length in * by auto.
  set (k := (Z.of_nat loc + 1 - Z.of_nat (length (amp b)))%Z).
  assert (Hk : (Z.abs k < Z.of_nat (length (amp b)))%Z) by lia.
  exists k, (shift_amp k (amp b)). split; [reflexivity|]. split; [auto|].
  destruct (shift_amp_spec k (amp b) Hk) as [S1 S2]. split; [auto|]. split; [auto|].
  split; intros k' Hk'.
  - specialize (B (Z.to_nat (k' - 1 + Z.of_nat (length (amp b)))) ltac:(lia)).
    rewrite !correlate_nth in B by (auto; lia). fold k in B.
    replace (Z.of_nat (Z.to_nat (k' - 1 + Z.of_nat (length (amp b)))) + 1 - Z.of_nat (length (amp b)))%Z
      with k' in B by lia. exact B.
  - intros Hlt.
    specialize (C (Z.to_nat (k' - 1 + Z.of_nat (length (amp b)))) ltac:(lia)).
    rewrite !correlate_nth in C by (auto; lia). fold k in C.
    replace (Z.of_nat (Z.to_nat (k' - 1 + Z.of_nat (length (amp b)))) + 1 - Z.of_nat (length (amp b)))%Z
      with k' in C by lia. exact C.
Qed.

Lemma crosscorr_shift_refused ex a b :
  series_similar ex a b = false -> crosscorr_shift ex a b = Err ValueError.
Proof. intro H. unfold crosscorr_shift, crosscorr. rewrite H. reflexivity. Qed.

Lemma from_cross_stack_ok a b :
  (1 <= nstacks a)%Z -> (1 <= nstacks b)%Z -> compatible a b -> (delay a <= 0)%Qc ->
  0 < length (amp a) ->
  exists r k, from_cross_stack a b = Ok r /\
    (Z.abs k < Z.of_nat (length (amp b)))%Z /\
    (forall k', (Z.abs k' < Z.of_nat (length (amp b)))%Z ->
        (similarity (amp a) (amp b) k' <= similarity (amp a) (amp b) k)%Qc) /\
    nstacks r = (nstacks a + nstacks b)%Z /\ dt r = dt a /\ delay r = delay a /\
    length (amp r) = length (amp a) /\
    forall i, i < length (amp a) ->
      nth i (amp r) 0%Qc = weighted_mean [(nstacks a, nth i (amp a) 0%Qc); (nstacks b, delayed k (amp b) i)].
Proof.
  intros Ha Hb (C1 & C2 & C3) Hd Hn. unfold from_cross_stack.
  rewrite copy_series_ok by auto. cbn [bind].
  rewrite copy_series_ok by (rewrite <- ?C2; auto). cbn [bind].
  set (b' := mkSeries (amp b) (dt b) (nstacks b) (delay b) 1).
  assert (Hs : series_similar [A_nsamples; A_nstacks] a b' = true).
  { unfold series_similar; simpl. rewrite C1, C2, !(proj2 (Qceqb_eq _ _) eq_refl). reflexivity. }
  destruct (crosscorr_shift_best _ a b' Hs) as (k & out & E & Hk & L & S & M & _); simpl; auto; try lia.
  rewrite E. cbn [bind snd].
  set (o := mkSeries (amp a) (dt a) (nstacks a) (delay a) 1).
  set (t := set_amp b' out).
  assert (Cot : compatible o t).
  { unfold compatible; simpl. simpl in L. repeat split; auto; lia. }
  rewrite (stack_append_ok o t Cot).
  exists (stack_data o t), k. simpl in L, S, Hk, M.
  split; [reflexivity|]. split; [auto|]. split; [auto|]. split; [reflexivity|].
  split; [reflexivity|]. split; [reflexivity|]. split.
  { rewrite stack_data_len; [reflexivity|]. apply Cot. }
  intros i Hi. unfold weighted_mean. simpl.
  rewrite (nth_map2 _ _ _ _ 0%Qc 0%Qc) by lia. rewrite S by lia.
  replace (nstacks b + 0)%Z with (nstacks b) by lia.
  field. apply Qcpos_neq0. rewrite <- QcZ_0. apply QcZ_lt. lia.
Qed.

Lemma series_eta s : mkSeries (amp s) (dt s) (nstacks s) (delay s) (multiple s) = s.
Proof. destruct s; reflexivity. Qed.

Lemma from_cross_stack_refused a b :
  (1 <= nstacks a)%Z -> (1 <= nstacks b)%Z ->
  ~ (compatible a b /\ (delay a <= 0)%Qc /\ 0 < length (amp a)) ->
  from_cross_stack a b = Err ValueError.
Proof.
  intros Ha Hb H. unfold from_cross_stack.
  destruct (Qcltb_spec 0 (delay a)) as [D|D].
  { unfold copy_series at 1, new_series. destruct (Z.leb_spec (nstacks a) 0); [lia|].
    rewrite (proj2 (Qcltb_lt _ _) D). reflexivity. }
  rewrite copy_series_ok by (auto; qclra). cbn [bind].
  destruct (Qcltb_spec 0 (delay b)) as [D2|D2].
  { unfold copy_series, new_series. destruct (Z.leb_spec (nstacks b) 0); [lia|].
    rewrite (proj2 (Qcltb_lt _ _) D2). reflexivity. }
  rewrite copy_series_ok by (auto; qclra). cbn [bind].
  set (b' := mkSeries (amp b) (dt b) (nstacks b) (delay b) 1).
  destruct (series_similar [A_nsamples; A_nstacks] a b') eqn:S.
  2:{ rewrite crosscorr_shift_refused by auto. reflexivity. }
  assert (S' := S). unfold series_similar in S'. simpl in S'. rewrite !andb_true_r, andb_true_iff, !Qceqb_eq in S'.
  destruct S' as [S1 S2].
  unfold crosscorr_shift, crosscorr. rewrite S. cbn [bind amp].
  destruct (amp a) as [|x xs] eqn:Ea; [reflexivity|].
  destruct (amp b) as [|y ys] eqn:Eb.
  { subst b'. simpl. reflexivity. }
  assert (Nl : length (amp a) <> length (amp b)).
  { intro E. apply H. split; [unfold compatible; repeat split; auto|]. split; [qclra|simpl; lia]. }
  subst b'. cbn [amp]. rewrite <- Ea, <- Eb in *.
  destruct (argmax_ok (correlate (amp a) (amp b))) as [loc E].
  { intro E. apply (f_equal (@length Qc)) in E. rewrite correlate_length in E by congruence.
    rewrite Ea, Eb in E. simpl in E. lia. }
  rewrite E. cbn [bind snd]. apply argmax_spec in E as (A & _).
  rewrite correlate_length in A by congruence.
  unfold stack_append, nsamples; cbn [amp].
  set (k := (Z.of_nat loc + 1 - Z.of_nat (length (amp b)))%Z).
  match goal with |- context [if is_similar ?e ?o ?t then _ else _] =>
    destruct (is_similar e o t) eqn:G; [exfalso|reflexivity] end.
  apply is_similar_stack in G. destruct G as (_ & _ & G3). cbn [amp set_amp] in G3.
  rewrite shift_amp_length in G3. lia.
Qed.

(** * Invariants of single-record histories *)
Lemma series_step_inv s o : (1 <= nstacks s)%Z -> op_valid o ->
  (1 <= nstacks (series_step s o))%Z /\ dt (series_step s o) = dt s.
Proof.
  intros Hs Ho. destruct o as [a b|df|t]; simpl.
  - destruct (trim_keeps s a b) as (-> & -> & _). auto.
  - destruct (zero_pad_prefix s df) as (k & m & ->). auto.
  - unfold stack_append. destruct (is_similar _ _ _); simpl; auto.
    destruct t; simpl in *; auto; split; auto; lia.
Qed.
Lemma series_run_inv ops : forall s, (1 <= nstacks s)%Z -> Forall op_valid ops ->
  (1 <= nstacks (series_run s ops))%Z /\ dt (series_run s ops) = dt s.
Proof.
  induction ops as [|o ops IH]; intros s Hs HF; simpl; auto.
  inversion HF; subst. destruct (series_step_inv s o Hs) as [A B]; auto.
  destruct (IH _ A) as [C D]; auto. split; auto. unfold series_run in *. congruence.
Qed.

Lemma new_series_valid a d n de s : new_series a d n de = Ok s ->
  (1 <= nstacks s)%Z /\ (delay s <= 0)%Qc /\ amp s = a /\ dt s = d /\ nstacks s = n /\ delay s = de /\ multiple s = 1%Z.
Proof.
  unfold new_series. destruct (Z.leb_spec n 0); [discriminate|].
  destruct (Qcltb_spec 0 de); [discriminate|]. intro E; injection E as <-. simpl.
  repeat split; auto; try lia. qclra.
Qed.

Lemma reachable_valid s : reachable s -> (1 <= nstacks s)%Z /\ (0 < dt s)%Qc.
Proof.
  intros (a & d & n & de & s0 & ops & H & Hd & HF & ->).
  apply new_series_valid in H as (A & _ & _ & B & _).
  destruct (series_run_inv ops s0 A HF) as [C D]. split; auto. rewrite D, B. auto.
Qed.

Lemma copy_reachable s : reachable s ->
  (((delay s <= 0)%Qc -> multiple s = 1%Z ->
     exists c, copy_series s = Ok c /\ faithful_copy s c /\ series_eq c (ObjSeries s) = true)) /\
  ((delay s <= 0)%Qc -> copy_series s = Ok (set_multiple s 1)) /\
  ((0 < delay s)%Qc -> copy_series s = Err ValueError).
Proof.
  intro H. apply reachable_valid in H as [Hn _]. split; [|split].
  - intros Hd Hm. exists s. rewrite copy_series_ok by auto. rewrite <- Hm, series_eta.
    split; [reflexivity|]. split; [unfold faithful_copy; auto|apply series_eq_refl].
  - intros Hd. now rewrite copy_series_ok.
  - intro Hd. unfold copy_series, new_series. destruct (Z.leb_spec (nstacks s) 0); [lia|].
    now rewrite (proj2 (Qcltb_lt _ _) Hd).
Qed.
