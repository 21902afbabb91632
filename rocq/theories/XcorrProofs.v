From Verif Require Import PyFacts NumFacts SeriesModel SeriesSpec SeriesProofs ArrayModel ArraySpec ArrayProofs DetrendProofs ArrayMatrixProofs XcorrSpec.
Local Open Scope nat_scope.

Lemma clip_kept n z : Z.of_nat (clip_index n z) = kept_end (Z.of_nat n) z.
Proof.
  unfold clip_index, norm_index, kept_end. destruct (Z.ltb_spec z 0).
  - destruct (Z.ltb_spec (z + Z.of_nat n) 0) as [L|L] || destruct (Z.ltb_spec (Z.of_nat n + z) 0) as [L|L]; lia.
  - destruct (Z.ltb_spec z 0); lia.
Qed.
Lemma clip_le n z : clip_index n z <= n.
Proof. unfold clip_index. destruct (_ <? 0)%Z; lia. Qed.

Lemma xcorrelate_outcome a srcamp srcdt vmin vmax mn mx :
  sensors a <> [] -> nearest_offset a mn -> farthest_offset a mx ->
  srcdt <> 0%Qc -> vmin <> 0%Qc -> vmax <> 0%Qc -> srcamp <> [] ->
  (forall s, In s (sensors a) -> amp (ser s) <> [] /\ (1 <= nstacks (ser s))%Z) ->
  let n := Z.of_nat (length srcamp) in
  exists a', xcorrelate a srcamp srcdt vmin vmax = (a', Ok tt) /\ src a' = src a /\
    Forall2 (fun s s' =>
       let m := (Z.of_nat (length (amp (ser s))) + n - 1)%Z in
       let first := kept_end m (n + intended_first_lag srcdt mn vmax) in
       let last := kept_end m (n + intended_end_lag srcdt mx vmin) in
       sx s' = sx s /\ sy s' = sy s /\ sz s' = sz s /\ dt (ser s') = dt (ser s) /\
       nstacks (ser s') = nstacks (ser s) /\ delay (ser s') = 0%Qc /\ multiple (ser s') = 1%Z /\
       Z.of_nat (length (amp (ser s'))) = Z.max 0 (last - first) /\
       forall k, k < length (amp (ser s')) ->
         nth k (amp (ser s')) 0%Qc = similarity (amp (ser s)) srcamp (first - (n - 1) + Z.of_nat k))
      (sensors a) (sensors a').
Proof.
  intros N MN MX D V1 V2 SN H n. unfold xcorrelate.
  destruct (offsets a) as [|o os] eqn:E.
  { exfalso. unfold offsets in E. destruct (sensors a); [congruence|discriminate]. }
  rewrite (lmin_offsets a o os mn E MN), (lmax_offsets a o os mx E MX).
  unfold xcorr_bounds.
  destruct (Qceqb_spec vmax 0) as [->|_]; [congruence|].
  destruct (Qceqb_spec vmin 0) as [->|_]; [congruence|].
  destruct (Qceqb_spec srcdt 0) as [->|_]; [congruence|].
  cbn [orb]. fold (intended_first_lag srcdt mn vmax) (intended_end_lag srcdt mx vmin).
  set (lo := intended_first_lag srcdt mn vmax). set (hi := intended_end_lag srcdt mx vmin). fold n.
  set (g := fun s => mkSensor (mkSeries (pyslice (Some (n + lo)%Z) (Some (n + hi)%Z)
                (correlate (amp (ser s)) srcamp)) (dt (ser s)) (nstacks (ser s)) 0%Qc 1) (sx s) (sy s) (sz s)).
  rewrite (mapM_total _ g).
  - exists (set_sensors a (map g (sensors a))). split; auto. split; auto. cbn [set_sensors sensors].
    revert H. generalize (sensors a). clear - SN. intros l H.
    induction l as [|s l IH]; cbn [map]; constructor; [|apply IH; intros; apply H; now right].
    destruct (H s (or_introl eq_refl)) as [Ns _]. cbv zeta. do 7 (split; [reflexivity|]).
    assert (CL := correlate_length (amp (ser s)) srcamp Ns SN).
    assert (MP : 1 <= length srcamp) by (destruct srcamp; [congruence|cbn; lia]).
    assert (NP : 1 <= length (amp (ser s))) by (destruct (amp (ser s)); [congruence|cbn; lia]).
    set (m := (Z.of_nat (length (amp (ser s))) + n - 1)%Z).
    assert (Em : m = Z.of_nat (length (correlate (amp (ser s)) srcamp))) by (rewrite CL; unfold m, n; lia).
    rewrite Em, <- !clip_kept. cbn [g ser amp]. unfold pyslice.
    set (c := correlate (amp (ser s)) srcamp) in *.
    assert (Bl : clip_index (length c) (n + lo) <= length c) by apply clip_le.
    assert (Bh : clip_index (length c) (n + hi) <= length c) by apply clip_le.
    rewrite skipn_length, firstn_length. split; [lia|].
    intros k Hk. rewrite nth_skipn, nth_firstn_lt by lia.
    pose proof (correlate_nth (amp (ser s)) srcamp (clip_index (length c) (n + lo) + k) Ns SN ltac:(lia)) as Q.
    fold c in Q. rewrite Q. f_equal. unfold n. lia.
  - intros s Hs. destruct (H s Hs) as [_ B]. unfold new_sensor, new_series.
    destruct (Z.leb_spec (nstacks (ser s)) 0); [lia|].
    destruct (Qcltb_spec 0 0) as [X|_]; [elim (Qclt_not_eq _ _ X); reflexivity|]. reflexivity.
Qed.
