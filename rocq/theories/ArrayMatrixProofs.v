(* Proofs about matrices, copies, equality and cross-correlation of arrays. *)
From Verif Require Import PyFacts NumFacts SeriesModel SeriesSpec SeriesProofs.
From Verif Require Import ArrayModel ArraySpec ArrayProofs DetrendProofs.

Lemma absmax_spec l m : absmax l = Ok m -> largest_magnitude l m.
Proof.
  destruct l as [|a t]; cbn; [discriminate|]. intros H. injection H as <-.
  destruct (lmax_spec (map Qcabs t) (Qcabs a)) as (A & B & C). split.
  - destruct C as [C|C].
    + exists a. split; [now left|auto].
    + apply in_map_iff in C as (v & E & Hv). exists v. split; [now right|auto].
  - intros v [->|Hv]; auto. apply B. now apply in_map.
Qed.
Lemma largest_unique l m m' : largest_magnitude l m -> largest_magnitude l m' -> m = m'.
Proof.
  intros ((v & V & <-) & A) ((w & W & <-) & B). apply Qcle_antisym; auto.
Qed.
Lemma largest_nonneg l m : largest_magnitude l m -> (0 <= m)%Qc.
Proof. intros ((v & _ & <-) & _). apply Qcabs_nonneg. Qed.
Lemma absmax_ok l : l <> [] -> exists m, absmax l = Ok m.
Proof. destruct l; [congruence|]. cbn. eauto. Qed.
Lemma absmax_complete l m : largest_magnitude l m -> absmax l = Ok m.
Proof.
  intros H. destruct (absmax_ok l) as (m' & E).
  - destruct H as ((v & V & _) & _). intros ->. destruct V.
  - rewrite E. f_equal. apply (largest_unique l); auto. now apply absmax_spec.
Qed.

Definition base (dtr : bool) (s : sensor) : list Qc :=
  if dtr then detrend (amp (ser s)) else amp (ser s).
Lemma base_nonempty dtr s : amp (ser s) <> [] -> base dtr s <> [].
Proof.
  intros H E. apply H. apply length_zero_iff_nil. rewrite <- (length_detrend (amp (ser s))).
  destruct dtr; cbn in E; rewrite E, ?length_detrend; auto.
Qed.

Lemma mapM_total {A B} (f : A -> result B) (g : A -> B) l :
  (forall a, In a l -> f a = Ok (g a)) -> mapM f l = Ok (map g l).
Proof.
  induction l as [|a l IH]; intros H; cbn; auto. rewrite H by (now left). cbn.
  rewrite IH by (intros; apply H; now right). reflexivity.
Qed.

Lemma normalize_row_pos m l : (0 < m)%Qc -> normalize_row m l = map (fun v => Fin (v / m)%Qc) l.
Proof.
  intros H. apply map_ext. intros v. cbn. destruct (Qceqb_spec m 0) as [->|]; auto.
  elim (Qclt_not_eq _ _ H). reflexivity.
Qed.
Lemma normalize_row_zero l : (forall v, In v l -> v = 0%Qc) -> normalize_row 0 l = map (fun _ => NaN) l.
Proof.
  intros H. apply map_ext_in. intros v Hv. rewrite (H v Hv). reflexivity.
Qed.

Lemma matrix_none a dtr : sensors a <> [] ->
  timeseriesmatrix a dtr NormNone = Ok (map (fun s => map Fin (base dtr s)) (sensors a)).
Proof.
  intros N. unfold timeseriesmatrix. destruct (sensors a) as [|s l] eqn:E; [congruence|].
  rewrite (mapM_total _ (fun s => map Fin (base dtr s))); [reflexivity|]. auto.
Qed.

Lemma matrix_each a dtr : sensors a <> [] ->
  (forall s, In s (sensors a) -> amp (ser s) <> []) ->
  exists rows, timeseriesmatrix a dtr NormEach = Ok rows /\
    Forall2 (fun s row => exists m, largest_magnitude (base dtr s) m /\
      ((0 < m)%Qc -> row = map (fun v => Fin (v / m)%Qc) (base dtr s)) /\
      (m = 0%Qc -> row = map (fun _ => NaN) (base dtr s))) (sensors a) rows.
Proof.
  intros N H. unfold timeseriesmatrix. destruct (sensors a) as [|s0 l0] eqn:E; [congruence|].
  rewrite <- E in *. clear N.
  destruct (mapM (tsm_row dtr NormEach) (sensors a)) as [rows|e] eqn:M; cbn [bind].
  - exists rows. split; auto. apply mapM_ok in M. eapply Forall2_impl; [|exact M].
    intros s row R. cbn in R. fold (base dtr s) in R.
    destruct (absmax (base dtr s)) as [m|] eqn:A; cbn [bind] in R; [|discriminate].
    injection R as <-. apply absmax_spec in A. exists m. split; auto. split.
    + intros P. now apply normalize_row_pos.
    + intros ->. apply normalize_row_zero. intros v Hv. destruct A as [_ A].
      specialize (A v Hv). assert (B := Qcabs_nonneg v). assert (C : Qcabs v = 0%Qc) by (now apply Qcle_antisym).
      revert C. unfold Qcabs. destruct (Qcltb_spec v 0); intros; auto. qclra.
  - exfalso. revert M H. generalize (sensors a). clear. induction l as [|s l IH]; cbn; intros M H; [discriminate|].
    fold (base dtr s) in M. destruct (absmax_ok (base dtr s)) as (m & A).
    { apply base_nonempty. apply H. now left. }
    rewrite A in M. cbn in M. destruct (mapM (tsm_row dtr NormEach) l); cbn in M; [discriminate|].
    injection M as ->. apply IH; auto.
Qed.

(** Row scaled by its own maximum has largest magnitude one. *)
Lemma scaled_max l m : largest_magnitude l m -> (0 < m)%Qc ->
  largest_magnitude (map (fun v => (v / m)%Qc) l) 1%Qc.
Proof.
  intros ((v & V & E) & A) P. assert (N := Qcpos_neq0 _ P).
  assert (AB : forall w, Qcabs (w / m) = (Qcabs w / m)%Qc).
  { intros w. unfold Qcdiv. rewrite Qcabs_mult. f_equal. apply Qcabs_pos. apply Qclt_le_weak. now apply Qcinv_pos. }
  split.
  - exists (v / m)%Qc. split; [now apply (in_map (fun v => (v / m)%Qc))|]. rewrite AB, E. field. exact N.
  - intros w Hw. apply in_map_iff in Hw as (u & <- & Hu). rewrite AB.
    apply Qcle_div; auto. rewrite Qcmult_1_l. auto.
Qed.

Lemma fmax_fin : forall l a, fold_left fmax2 (map Fin l) (Fin a) = Fin (lmax a l).
Proof.
  induction l as [|b l IH]; intros a; cbn [map fold_left]; auto.
  replace (fmax2 (Fin a) (Fin b)) with (Fin (Qcmax2 a b)) by (unfold fmax2, Qcmax2; cbn; now destruct (Qcltb a b)).
  apply IH.
Qed.
Lemma map_fabs_fin l : map fabs (map Fin l) = map Fin (map Qcabs l).
Proof. rewrite !map_map. reflexivity. Qed.
Lemma concat_rows dtr l :
  concat (map (map fabs) (map (fun s => map Fin (base dtr s)) l)) = map Fin (map Qcabs (concat (map (base dtr) l))).
Proof.
  induction l; cbn; auto. rewrite IHl, map_fabs_fin, !map_app. reflexivity.
Qed.

Lemma matrix_all a dtr : sensors a <> [] ->
  (forall s, In s (sensors a) -> amp (ser s) <> []) ->
  exists m rows, timeseriesmatrix a dtr NormAll = Ok rows /\
    largest_magnitude (concat (map (base dtr) (sensors a))) m /\
    ((0 < m)%Qc -> rows = map (fun s => map (fun v => Fin (v / m)%Qc) (base dtr s)) (sensors a)) /\
    (m = 0%Qc -> rows = map (fun s => map (fun _ => NaN) (base dtr s)) (sensors a)).
Proof.
  intros N H.
  assert (NE : concat (map (base dtr) (sensors a)) <> []).
  { destruct (sensors a) as [|s l]; [congruence|]. cbn. intros E. apply app_eq_nil in E as [E _].
    revert E. apply base_nonempty. apply H. now left. }
  destruct (absmax_ok _ NE) as (m & A). exists m.
  assert (L := absmax_spec _ _ A).
  set (rows := map (fun s => map (fun v => fdiv (Fin v) (Fin m)) (base dtr s)) (sensors a)).
  exists rows.
  assert (R : timeseriesmatrix a dtr NormAll = Ok rows).
  { unfold timeseriesmatrix. destruct (sensors a) as [|s0 l0] eqn:E; [congruence|]. rewrite <- E in *.
    rewrite (mapM_total _ (fun s => map Fin (base dtr s))) by auto. cbn [bind].
    rewrite concat_rows.
    destruct (concat (map (base dtr) (sensors a))) as [|v t] eqn:CE; [congruence|].
    cbn [map fmax]. rewrite fmax_fin. cbn in A. injection A as <-. cbn [bind].
    unfold rows. rewrite <- E, map_map. f_equal. apply map_ext. intros s. rewrite map_map. reflexivity. }
  split; auto. split; auto. split.
  - intros P. apply map_ext. intros s. apply normalize_row_pos, P.
  - intros ->. apply map_ext_in. intros s Hs. apply normalize_row_zero. intros v Hv.
    assert (Z : (Qcabs v <= 0)%Qc) by (apply L; apply in_concat; exists (base dtr s); split; auto; now apply in_map).
    assert (B := Qcabs_nonneg v). assert (C : Qcabs v = 0%Qc) by (now apply Qcle_antisym).
    revert C. unfold Qcabs. destruct (Qcltb_spec v 0); intros; auto. qclra.
Qed.

(** ** Copies and equality *)
Lemma copy_sensor_ok s : (1 <= nstacks (ser s))%Z -> (delay (ser s) <= 0)%Qc ->
  copy_sensor s = Ok (set_ser s (set_multiple (ser s) 1)).
Proof.
  intros H1 H2. unfold copy_sensor, new_sensor. fold (copy_series (ser s)).
  rewrite copy_series_ok by auto. reflexivity.
Qed.
Lemma sort_sorted_id l : increasing (map sx l) -> sort_sensors l = l.
Proof.
  intros H. apply increasing_perm_unique; auto using sort_perm. apply sort_sorted.
  clear -H. unfold increasing in H. induction (map sx l) as [|x m IH]; constructor; inversion H as [|? ? H1 F]; subst; auto.
  intros I. rewrite Forall_forall in F. elim (Qclt_not_eq _ _ (F _ I)). reflexivity.
Qed.
Lemma consistent_rebuild a : consistent a -> new_array (sensors a) (src a) = Ok a.
Proof.
  intros (N & S & G). rewrite (proj1 (new_array_ok (sensors a) (src a))).
  - rewrite sort_sorted_id by exact S. destruct a; reflexivity.
  - split; [auto|split; auto]. clear -S. unfold increasing in S.
    induction (map sx (sensors a)) as [|x m IH]; constructor; inversion S as [|? ? H1 F]; subst; auto.
    intros I. rewrite Forall_forall in F. elim (Qclt_not_eq _ _ (F _ I)). reflexivity.
Qed.
Definition reset (s : sensor) : sensor := set_ser s (set_multiple (ser s) 1).
Lemma copy_array_ok a : consistent a ->
  (forall s, In s (sensors a) -> (1 <= nstacks (ser s))%Z /\ (delay (ser s) <= 0)%Qc) ->
  copy_array a = Ok (set_sensors a (map reset (sensors a))).
Proof.
  intros C H. unfold copy_array. rewrite (mapM_total _ reset).
  - cbn [bind]. assert (C' : consistent (set_sensors a (map reset (sensors a)))).
    { apply consistent_map; auto. }
    exact (consistent_rebuild _ C').
  - intros s Hs. destruct (H s Hs). now apply copy_sensor_ok.
Qed.
Lemma copy_array_positive a : consistent a ->
  (forall s, In s (sensors a) -> (0 < delay (ser s))%Qc /\ (1 <= nstacks (ser s))%Z) ->
  copy_array a = Err ValueError.
Proof.
  intros (N & _) H. unfold copy_array. destruct (sensors a) as [|s l]; [congruence|].
  destruct (H s (or_introl eq_refl)) as [D B]. cbn [mapM]. unfold copy_sensor, new_sensor, new_series.
  destruct (Z.leb_spec (nstacks (ser s)) 0); [lia|]. destruct (Qcltb_spec 0 (delay (ser s))); [reflexivity|contradiction].
Qed.

Lemma source_eq_spec s t : source_eq s t = true <-> s = t.
Proof.
  unfold source_eq. rewrite !andb_true_iff, !Qceqb_eq. destruct s, t; cbn. split.
  - intros ((-> & ->) & ->). reflexivity.
  - intros E. injection E as -> -> ->. auto.
Qed.
Lemma forallb_id_map2 {A} (f : A -> A -> bool) l m : length l = length m ->
  (forallb (fun x => x) (map2 f l m) = true <-> Forall2 (fun a b => f a b = true) l m).
Proof.
  revert m. induction l as [|a l IH]; intros [|b m] H; cbn in *; try discriminate.
  - split; constructor.
  - rewrite andb_true_iff, IH by lia. split; [intros []; now constructor|]. intros F. inversion F; auto.
Qed.
Lemma array_eq_spec a b : array_eq a b = true <->
  src a = src b /\ Forall2 (fun s t => sensor_eq s (ObjSensor t) = true) (sensors a) (sensors b).
Proof.
  unfold array_eq, array_similar, nchannels. rewrite !andb_true_iff, Nat.eqb_eq, source_eq_spec. split.
  - intros ((L & S) & F). split; auto. now apply forallb_id_map2.
  - intros (S & F). assert (L := Forall2_length _ _ _ F). split; auto. now apply forallb_id_map2.
Qed.
Lemma array_eq_refl a : array_eq a a = true.
Proof. apply array_eq_spec. split; auto. apply Forall2_refl_in. intros. apply sensor_eq_refl. Qed.

Lemma sensor_eq_meta s t : sensor_eq s (ObjSensor t) = true ->
  agree s t /\ sx s = sx t /\ sy s = sy t /\ sz s = sz t.
Proof.
  unfold sensor_eq, sensor_is_similar, sensor_similar. cbn [excluded existsb orb].
  rewrite !andb_true_iff, !Qceqb_eq, series_similar_all. unfold agree. tauto.
Qed.
Lemma array_eq_meta a b : array_eq a b = true ->
  src a = src b /\ Forall2 (fun s t => agree s t /\ sx s = sx t /\ sy s = sy t /\ sz s = sz t) (sensors a) (sensors b).
Proof.
  intros H. apply array_eq_spec in H as [S F]. split; auto.
  eapply Forall2_impl; [|exact F]. intros s t. apply sensor_eq_meta.
Qed.

Lemma sensor_eq_reset s : sensor_eq (reset s) (ObjSensor s) = true.
Proof.
  unfold sensor_eq. cbn [sensor_is_similar]. 
  change (sensor_similar [] (reset s) s) with (sensor_similar [] s s). rewrite sensor_similar_refl.
  apply allclose_refl.
Qed.
Lemma copy_array_equal a c : copy_array a = Ok c -> consistent a ->
  (forall s, In s (sensors a) -> (1 <= nstacks (ser s))%Z /\ (delay (ser s) <= 0)%Qc) ->
  array_eq c a = true /\ src c = src a /\
  Forall2 (fun s s' => sx s' = sx s /\ sy s' = sy s /\ sz s' = sz s /\ amp (ser s') = amp (ser s) /\
     dt (ser s') = dt (ser s) /\ nstacks (ser s') = nstacks (ser s) /\ delay (ser s') = delay (ser s) /\
     (multiple (ser s) = 1%Z -> s' = s)) (sensors a) (sensors c).
Proof.
  intros E C H. rewrite (copy_array_ok a C H) in E. injection E as <-. split; [|split; auto].
  - apply array_eq_spec. split; auto. cbn. clear. induction (sensors a); cbn; constructor; auto. apply sensor_eq_reset.
  - cbn. clear. induction (sensors a) as [|s l IH]; cbn; constructor; auto.
    repeat split. unfold reset, set_multiple. intros M. rewrite <- M. destruct s as [[] ? ? ?]; reflexivity.
Qed.

(** ** Spacing and picks *)
Lemma round2_near x : (Qcabs (round2 x - x) <= Q2Qc (1 # 200))%Qc.
Proof.
  unfold round2. assert (H := round_half_even_near (x * Q2Qc 100)).
  set (z := QcZ (round_half_even (x * Q2Qc 100))) in *.
  replace (z / Q2Qc 100 - x)%Qc with ((z - x * Q2Qc 100) * / Q2Qc 100)%Qc.
  2:{ unfold Qcdiv. field. discriminate. }
  rewrite Qcabs_mult. rewrite (Qcabs_swap z). rewrite (Qcabs_pos (/ Q2Qc 100)) by (compute; discriminate).
  replace (Q2Qc (1 # 200)) with (half * / Q2Qc 100)%Qc by (apply Qc_is_canon; reflexivity).
  apply Qcmult_le_compat_r; auto. compute; discriminate.
Qed.
Lemma spacing_spec a d : spacing a = Ok d ->
  forall x, In x (diffs (position a)) -> (Qcabs (x - d) <= Q2Qc (15 # 1000))%Qc.
Proof.
  unfold spacing. destruct (diffs (position a)) as [|d0 t]; [discriminate|].
  destruct (Qcltb_spec (lmax d0 t - lmin d0 t) (Q2Qc (1 # 100))) as [L|]; [|discriminate].
  intros E x Hx. injection E as <-.
  destruct (lmin_spec t d0) as (A & B & _). destruct (lmax_spec t d0) as (A' & B' & _).
  assert (X : (lmin d0 t <= x)%Qc) by (destruct Hx as [<-|Hx]; auto).
  assert (Y : (x <= lmax d0 t)%Qc) by (destruct Hx as [<-|Hx]; auto).
  assert (R := round2_near (lmin d0 t)). set (m := lmin d0 t) in *. set (M := lmax d0 t) in *.
  set (r := round2 m) in *. clearbody m M r. clear A B A' B' Hx.
  revert R. unfold Qcabs. destruct (Qcltb_spec (r - m) 0); destruct (Qcltb_spec (x - r) 0); intros; qclra.
Qed.
Lemma spacing_errors a : (exists e, spacing a = Err e) <->
  length (sensors a) < 2 \/ exists x y, In x (diffs (position a)) /\ In y (diffs (position a)) /\
     (Q2Qc (1 # 100) <= x - y)%Qc.
Proof.
  unfold spacing.
  assert (LD : forall l, diffs l = [] <-> length l < 2).
  { intros [|x [|y l]]; cbn; split; intros; auto; try lia; discriminate. }
  assert (LS : length (sensors a) = length (position a)) by (unfold position; now rewrite map_length).
  destruct (diffs (position a)) as [|d0 t] eqn:E.
  - apply LD in E. split; [intros _; left; lia|eauto].
  - assert (N : ~ length (position a) < 2) by (rewrite <- LD, E; discriminate).
    destruct (lmin_spec t d0) as (A & B & C). destruct (lmax_spec t d0) as (A' & B' & C').
    destruct (Qcltb_spec (lmax d0 t - lmin d0 t) (Q2Qc (1 # 100))) as [L|L].
    + split; [intros (e & H); discriminate|]. intros [H|(x & y & Hx & Hy & H)]; [lia|]. exfalso.
      assert (X : (x <= lmax d0 t)%Qc) by (destruct Hx as [<-|Hx]; auto).
      assert (Y : (lmin d0 t <= y)%Qc) by (destruct Hy as [<-|Hy]; auto).
      clear - H X Y L. qclra.
    + split; [|eauto]. intros _. right. exists (lmax d0 t), (lmin d0 t).
      split; [destruct C' as [->|C']; [now left|now right]|].
      split; [destruct C as [->|C]; [now left|now right]|]. now apply Qcnot_lt_le.
Qed.

Lemma first_index_spec {A} (p : A -> bool) d : forall l i k, first_index p i l = Ok k ->
  i <= k /\ k - i < length l /\ p (nth (k - i) l d) = true /\ (forall j, j < k - i -> p (nth j l d) = false).
Proof.
  induction l as [|a l IH]; intros i k H; cbn in H; [discriminate|].
  destruct (p a) eqn:P.
  - injection H as <-. rewrite Nat.sub_diag. cbn. repeat split; auto; try lia.
  - apply IH in H as (A1 & A2 & A3 & A4). replace (k - i) with (S (k - S i)) by lia. cbn.
    repeat split; auto; try lia. intros [|j] Hj; auto. apply A4. lia.
Qed.
Lemma first_index_err {A} (p : A -> bool) : forall l i e, first_index p i l = Err e ->
  e = IndexError /\ forall a, In a l -> p a = false.
Proof.
  induction l as [|a l IH]; intros i e H; cbn in H; [injection H as <-; split; auto; intros ? []|].
  destruct (p a) eqn:P; [discriminate|]. apply IH in H as [-> H]. split; auto. intros b [<-|]; auto.
Qed.

(** ** Cross-correlation *)
Lemma pyslice_nonneg {A} lo hi (l : list A) : (0 <= lo)%Z -> (0 <= hi)%Z ->
  pyslice (Some lo) (Some hi) l = firstn (Z.to_nat hi - Z.to_nat lo) (skipn (Z.to_nat lo) l).
Proof.
  intros H1 H2. unfold pyslice. rewrite !clip_index_nonneg by auto.
  set (a := Z.to_nat lo). set (b := Z.to_nat hi). clearbody a b. clear.
  apply nth_error_ext. intros i.
  destruct (Nat.lt_ge_cases i (b - a)) as [L|L].
  - rewrite nth_error_firstn_lt by exact L. rewrite !nth_error_skipn.
    destruct (Nat.lt_ge_cases a (length l)) as [La|La].
    + rewrite (Nat.min_l a) by lia. destruct (Nat.lt_ge_cases (a + i) (length l)) as [Lb|Lb].
      * apply nth_error_firstn_lt. lia.
      * rewrite (proj2 (nth_error_None l _)) by lia. apply nth_error_None. rewrite firstn_length. lia.
    + rewrite (proj2 (nth_error_None l _)) by lia. apply nth_error_None. rewrite firstn_length. lia.
  - rewrite !(proj2 (nth_error_None _ i)); auto.
    + rewrite firstn_length. lia.
    + rewrite skipn_length, firstn_length. lia.
Qed.

Lemma lmin_offsets a o os mn : offsets a = o :: os -> nearest_offset a mn -> lmin o os = mn.
Proof.
  intros E ((s & Hs & <-) & H). destruct (lmin_spec os o) as (A & B & C).
  assert (I : forall x, In x (o :: os) <-> exists s, In s (sensors a) /\ dist a s = x).
  { intros x. rewrite <- E. unfold offsets. rewrite (map_ext _ _ (offset_dist a)), in_map_iff. firstorder. }
  apply Qcle_antisym.
  - assert (X : In (dist a s) (o :: os)) by (apply I; eauto). destruct X as [<-|X]; auto.
  - assert (X : In (lmin o os) (o :: os)) by (destruct C as [->|C]; [now left|now right]).
    apply I in X as (t & Ht & <-). auto.
Qed.
Lemma lmax_offsets a o os mx : offsets a = o :: os -> farthest_offset a mx -> lmax o os = mx.
Proof.
  intros E ((s & Hs & <-) & H). destruct (lmax_spec os o) as (A & B & C).
  assert (I : forall x, In x (o :: os) <-> exists s, In s (sensors a) /\ dist a s = x).
  { intros x. rewrite <- E. unfold offsets. rewrite (map_ext _ _ (offset_dist a)), in_map_iff. firstorder. }
  apply Qcle_antisym.
  - assert (X : In (lmax o os) (o :: os)) by (destruct C as [->|C]; [now left|now right]).
    apply I in X as (t & Ht & <-). auto.
  - assert (X : In (dist a s) (o :: os)) by (apply I; eauto). destruct X as [<-|X]; auto.
Qed.

Lemma xcorrelate_spec a srcamp srcdt vmin vmax mn mx :
  sensors a <> [] -> nearest_offset a mn -> farthest_offset a mx ->
  (0 < srcdt)%Qc -> (0 < vmin)%Qc -> (0 < vmax)%Qc -> srcamp <> [] ->
  (forall s, In s (sensors a) -> amp (ser s) <> [] /\ (1 <= nstacks (ser s))%Z) ->
  let lo := intended_first_lag srcdt mn vmax in
  let hi := intended_end_lag srcdt mx vmin in
  (0 <= Z.of_nat (length srcamp) + lo)%Z -> (0 <= hi)%Z ->
  exists a', xcorrelate a srcamp srcdt vmin vmax = (a', Ok tt) /\ src a' = src a /\
    Forall2 (fun s s' =>
       sx s' = sx s /\ sy s' = sy s /\ sz s' = sz s /\ dt (ser s') = dt (ser s) /\
       nstacks (ser s') = nstacks (ser s) /\ delay (ser s') = 0%Qc /\
       (Z.of_nat (length (amp (ser s'))) =
          Z.max 0 (Z.min (hi - lo) (Z.of_nat (length (amp (ser s))) - 1 - lo)))%Z /\
       forall k, k < length (amp (ser s')) ->
         nth k (amp (ser s')) 0%Qc = similarity (amp (ser s)) srcamp (lo + 1 + Z.of_nat k))
      (sensors a) (sensors a').
Proof.
  intros N MN MX D V1 V2 SN H lo hi P1 P2. unfold xcorrelate.
  destruct (offsets a) as [|o os] eqn:E.
  { exfalso. unfold offsets in E. destruct (sensors a); [congruence|discriminate]. }
  rewrite (lmin_offsets a o os mn E MN), (lmax_offsets a o os mx E MX).
  unfold xcorr_bounds.
  destruct (Qceqb_spec vmax 0) as [->|_]; [elim (Qclt_not_eq _ _ V2); reflexivity|].
  destruct (Qceqb_spec vmin 0) as [->|_]; [elim (Qclt_not_eq _ _ V1); reflexivity|].
  destruct (Qceqb_spec srcdt 0) as [->|_]; [elim (Qclt_not_eq _ _ D); reflexivity|].
  cbn [orb]. fold (intended_first_lag srcdt mn vmax) (intended_end_lag srcdt mx vmin). fold lo hi.
  set (M := length srcamp) in *.
  set (g := fun s => mkSensor (mkSeries (pyslice (Some (Z.of_nat M + lo)%Z) (Some (Z.of_nat M + hi)%Z)
                (correlate (amp (ser s)) srcamp)) (dt (ser s)) (nstacks (ser s)) 0%Qc 1) (sx s) (sy s) (sz s)).
  rewrite (mapM_total _ g).
  - exists (set_sensors a (map g (sensors a))). split; auto. split; auto. cbn [set_sensors sensors].
    revert H. generalize (sensors a). clear - SN P1 P2 M. intros l H.
    induction l as [|s l IH]; cbn [map]; constructor; [|apply IH; intros; apply H; now right].
    destruct (H s (or_introl eq_refl)) as [Ns _]. do 6 (split; [reflexivity|]).
    cbn [g ser amp]. rewrite pyslice_nonneg by lia.
    assert (CL := correlate_length (amp (ser s)) srcamp Ns SN). fold M in CL.
    assert (MP : 1 <= M) by (unfold M; destruct srcamp; [congruence|cbn; lia]).
    assert (NP : 1 <= length (amp (ser s))) by (destruct (amp (ser s)); [congruence|cbn; lia]).
    rewrite firstn_length, skipn_length, CL. split; [lia|].
    intros k Hk. rewrite nth_firstn_lt by lia. rewrite nth_skipn.
    rewrite correlate_nth by (auto; fold M; lia). f_equal. fold M. lia.
  - intros s Hs. destruct (H s Hs) as [_ B]. unfold new_sensor, new_series.
    destruct (Z.leb_spec (nstacks (ser s)) 0); [lia|].
    destruct (Qcltb_spec 0 0) as [X|_]; [elim (Qclt_not_eq _ _ X); reflexivity|]. reflexivity.
Qed.

(** ** First-arrival picks *)
Lemma fold_fadd_fin l : forall a, fold_left fadd (map Fin l) (Fin a) = Fin (a + Qcsum l)%Qc.
Proof.
  induction l as [|b l IH]; intros a; cbn [map fold_left]; [f_equal; unfold Qcsum; cbn; ring|].
  change (fadd (Fin a) (Fin b)) with (Fin (a + b)%Qc). rewrite IH. f_equal. unfold Qcsum. cbn. ring.
Qed.
Lemma fmean_fin l : l <> [] -> fmean (map Fin l) = Fin (mean l).
Proof.
  intros N. unfold fmean, f0. rewrite fold_fadd_fin, map_length. cbn [fdiv].
  destruct (Qceqb_spec (QcN (length l)) 0) as [E|_].
  - destruct l; [congruence|]. elim (Qcpos_neq0 _ (QcN_pos (length (q :: l)) (Nat.lt_0_succ _)) E).
  - unfold mean. do 2 f_equal. ring.
Qed.

Lemma pick_trace_spec thr d m : d <> [] -> (0 < m)%Qc ->
  (forall i, pick_trace thr (map (fun v => Fin (v / m)%Qc) d) = Ok i <-> first_exceeding d m thr i) /\
  (pick_trace thr (map (fun v => Fin (v / m)%Qc) d) = Err IndexError <-> forall i, i < length d -> ~ exceeds d m thr i).
Proof.
  intros N P. unfold pick_trace.
  rewrite firstn_map. rewrite <- (map_map (fun v => (v / m)%Qc) Fin).
  rewrite (fmean_fin (map (fun v => (v / m)%Qc) (firstn 10 d))) by (destruct d; [congruence|discriminate]).
  set (mu := mean (map (fun v => (v / m)%Qc) (firstn 10 d))).
  set (p := fun v => flt_lt (Fin thr) (fabs (fsub v (Fin mu)))).
  set (tr := map (fun v => Fin (v / m)%Qc) d).
  assert (L : length tr = length d) by apply map_length.
  assert (PE : forall i, i < length d -> (p (nth i tr NaN) = true <-> exceeds d m thr i)).
  { intros i Hi. unfold tr. rewrite (nth_map_lt _ d i NaN 0%Qc) by exact Hi. unfold p, exceeds. cbn.
    fold mu. unfold Qcminus. destruct (Qcltb_spec thr (Qcabs (nth i d 0 / m + - mu)%Qc)); split; auto; discriminate. }
  assert (S : forall i, first_index p 0 tr = Ok i -> first_exceeding d m thr i).
  { intros i Hi. apply (first_index_spec p NaN) in Hi as (_ & A & B & C). rewrite Nat.sub_0_r in *. rewrite L in A.
    split; [exact A|]. split; [now apply PE|]. intros j Hj E. apply PE in E; [|lia]. rewrite C in E by exact Hj. discriminate. }
  split.
  - intros i. split; auto. intros (A & B & C).
    destruct (first_index p 0 tr) as [k|e] eqn:F.
    + f_equal. destruct (S k eq_refl) as (A' & B' & C').
      destruct (Nat.lt_trichotomy i k) as [X|[X|X]]; auto; [elim (C' _ X B)|elim (C _ X B')].
    + apply first_index_err in F as [_ F]. exfalso. apply PE in B; auto.
      rewrite F in B; [discriminate|]. apply nth_In. now rewrite L.
  - split.
    + intros F i Hi E. apply first_index_err in F as [_ F]. apply PE in E; auto.
      rewrite F in E; [discriminate|]. apply nth_In. now rewrite L.
    + intros H. destruct (first_index p 0 tr) as [k|e] eqn:F.
      * destruct (S k eq_refl) as (A & B & _). elim (H k A B).
      * apply first_index_err in F as [-> _]. reflexivity.
Qed.

Lemma pick_spec a thr pos ts : consistent a ->
  (forall s, In s (sensors a) -> amp (ser s) <> []) ->
  pick_on_threshold a thr = Ok (pos, ts) ->
  pos = map sx (sensors a) /\
  Forall2 (fun s t => forall m, largest_magnitude (detrend (amp (ser s))) m ->
     (0 < m)%Qc /\ exists i, first_exceeding (detrend (amp (ser s))) m thr i /\ t = time_at (ser s) i)
    (sensors a) ts.
Proof.
  intros C H. unfold pick_on_threshold.
  destruct (matrix_each a true (proj1 C) H) as (rows & R & F). rewrite R. cbn [bind].
  destruct (mapM _ rows) as [ts'|] eqn:M; cbn [bind]; [|discriminate].
  intros E. injection E as <- <-. split; [reflexivity|].
  apply mapM_ok in M.
  assert (G : forall s t, In s (sensors a) -> In t (sensors a) -> agree s t) by apply C.
  destruct (sensors a) as [|s0 l0] eqn:ES; [destruct C as [X _]; congruence|].
  assert (AG : forall s, In s (s0 :: l0) -> agree s s0) by (intros; apply G; auto; now left).
  clear G C R ES. revert ts' M H AG. 
  induction F as [|s row ls rows (m & Lm & Rpos & Rz) F IH]; intros ts' M H AG.
  - inversion M; subst. constructor.
  - inversion M as [|? t ? ts'' M1 M2]; subst. constructor.
    2:{ apply IH; auto; intros; [apply H|apply AG]; now right. }
    intros m' Lm'. rewrite <- (largest_unique _ _ _ Lm Lm') in *. cbn [base] in *. clear m' Lm'.
    assert (Hs := H s (or_introl eq_refl)). destruct (AG s (or_introl eq_refl)) as (D1 & _ & D2 & D3).
    set (d := detrend (amp (ser s))) in *.
    assert (Nd : d <> []).
    { intros Z. apply Hs. apply length_zero_iff_nil. rewrite <- (length_detrend (amp (ser s))). fold d. now rewrite Z. }
    destruct (Qcle_lt_or_eq _ _ (largest_nonneg _ _ Lm)) as [P|Z].
    + split; auto. rewrite (Rpos P) in M1.
      destruct (pick_trace thr (map (fun v => Fin (v / m)%Qc) d)) as [i|] eqn:PT; cbn [bind] in M1; [|discriminate].
      apply pick_trace_spec in PT; auto. exists i. split; auto.
      unfold pyget, norm_index in M1. destruct (Z.ltb_spec (Z.of_nat i) 0); [lia|].
      destruct (Z.ltb_spec (Z.of_nat i) 0); [lia|]. rewrite Nat2Z.id in M1.
      destruct (nth_error (time (ser s0)) i) as [t0|] eqn:NE; [|discriminate]. injection M1 as <-.
      assert (LT : i < length (amp (ser s0))).
      { rewrite <- length_time. apply nth_error_Some. congruence. }
      apply (nth_error_nth _ _ 0%Qc) in NE. rewrite nth_time in NE by exact LT.
      rewrite <- NE. unfold time_at. now rewrite D1, D2.
    + exfalso. rewrite (Rz (eq_sym Z)) in M1.
      assert (X : forall l : list Qc, first_index (fun v => flt_lt (Fin thr) (fabs (fsub v (fmean (firstn 10 (map (fun _ : Qc => NaN) d)))))) 0 (map (fun _ => NaN) l) = Err IndexError).
      { intros l. generalize (fmean (firstn 10 (map (fun _ : Qc => NaN) d))). intros x.
        generalize 0%nat. induction l as [|v l IHl]; intros k; [reflexivity|]. cbn [map first_index].
        replace (flt_lt (Fin thr) (fabs (fsub NaN x))) with false by reflexivity. apply IHl. }
      unfold pick_trace in M1. rewrite X in M1. discriminate.
Qed.

(** ** Every reachable sensor *)
Definition sensor_inv (s : sensor) : Prop :=
  (1 <= nstacks (ser s))%Z /\ (0 < dt (ser s))%Qc /\ amp (ser s) <> [].
Lemma sensor_inv_samples s s' : only_samples_change s s' -> sensor_inv s -> sensor_inv s'.
Proof.
  intros (_ & _ & _ & D & N & _ & _ & L) (A & B & C). unfold sensor_inv. rewrite D, N. repeat split; auto.
  intros E. apply C. apply length_zero_iff_nil. now rewrite <- L, E.
Qed.
Lemma sensor_inv_trim st en s : sensor_inv s -> sensor_inv (fst (sensor_trim st en s)).
Proof.
  intros (A & B & C). unfold sensor_trim. destruct (trim (ser s) st en) as [s' r] eqn:T.
  destruct (trim_keeps (ser s) st en) as (K1 & K2 & _). rewrite T in *. cbn in *.
  unfold sensor_inv. cbn. rewrite K1, K2. repeat split; auto.
  destruct r as [[]|e].
  - destruct (trim_times _ _ _ _ B T) as (i & _ & L & _). intros E. rewrite E in L. cbn in L. lia.
  - apply trim_fail_state in T. now subst.
Qed.
Lemma sensor_inv_pad df s : sensor_inv s -> sensor_inv (fst (sensor_zero_pad df s)).
Proof.
  intros (A & B & C). unfold sensor_zero_pad. destruct (zero_pad_prefix (ser s) df) as (k & m & E).
  destruct (zero_pad (ser s) df) as [s' r]. cbn in *. subst s'. repeat split; auto.
  cbn. intros E. apply app_eq_nil in E as [E _]. auto.
Qed.
Lemma array_call_inv a o : consistent a -> Forall sensor_inv (sensors a) ->
  Forall sensor_inv (sensors (fst (array_call a o))).
Proof.
  intros C F. rewrite Forall_forall in F. apply Forall_forall.
  destruct o as [st en|mn mx|df|w ss se|]; cbn [array_call].
  - destruct (array_trim_cases a st en C) as (s0 & l & E & H). rewrite H.
    destruct (snd (sensor_trim st en s0)); cbn [fst]; auto. cbn. intros x Hx.
    apply in_map_iff in Hx as (u & <- & Hu). apply sensor_inv_trim. auto.
  - destruct (trim_offsets_sub a mn mx) as (k & _ & E). rewrite E.
    destruct (select k (sensors a)) eqn:Z; cbn [fst]; auto. cbn [set_sensors sensors]. rewrite <- Z. intros x Hx. apply In_select_l in Hx. auto.
  - destruct (array_pad_cases a df C) as (s0 & l & E & H). rewrite H.
    destruct (snd (sensor_zero_pad df s0)); cbn [fst set_sensors sensors].
    + intros x Hx. apply in_map_iff in Hx as (u & <- & Hu). apply sensor_inv_pad. auto.
    + rewrite E in F. intros x [<-|Hx]; [apply sensor_inv_pad; apply F; now left|apply F; now right].
  - destruct (mute_keeps a w ss se C) as [_ K]. intros x Hx.
    destruct (Forall2_In_r _ _ _ _ K Hx) as (u & Hu & R). eapply sensor_inv_samples; eauto.
  - cbn. intros x Hx. apply in_map_iff in Hx as (u & <- & Hu).
    eapply sensor_inv_samples; [apply detrend_only_samples|auto].
Qed.
Lemma array_run_inv ops : forall a, consistent a -> Forall sensor_inv (sensors a) ->
  Forall sensor_inv (sensors (array_run a ops)).
Proof.
  induction ops as [|o ops IH]; intros a C F; auto. cbn [array_run fold_left]. apply IH.
  - now apply array_call_consistent.
  - now apply array_call_inv.
Qed.
Lemma array_reachable_inv a : array_reachable a -> consistent a /\ Forall sensor_inv (sensors a).
Proof.
  intros (l & s & a0 & ops & F & H & ->). destruct (new_array_spec _ _ _ H) as (C & P & _).
  split; [now apply array_run_consistent|]. apply array_run_inv; auto.
  apply Forall_forall. intros u Hu. rewrite Forall_forall in F.
  destruct (F u (Permutation_in _ P Hu)) as (A & _ & B & _ & D). repeat split; auto.
Qed.

Lemma reachable_copy a : array_reachable a ->
  ((forall s, In s (sensors a) -> (delay (ser s) <= 0)%Qc) ->
     exists c, copy_array a = Ok c /\ array_eq c a = true /\ src c = src a /\
       Forall2 (fun s s' => sx s' = sx s /\ sy s' = sy s /\ sz s' = sz s /\ amp (ser s') = amp (ser s) /\
         dt (ser s') = dt (ser s) /\ nstacks (ser s') = nstacks (ser s) /\ delay (ser s') = delay (ser s) /\
         (multiple (ser s) = 1%Z -> s' = s)) (sensors a) (sensors c)) /\
  ((exists s, In s (sensors a) /\ (0 < delay (ser s))%Qc) -> copy_array a = Err ValueError).
Proof.
  intros R. destruct (array_reachable_inv a R) as [C F]. rewrite Forall_forall in F. split.
  - intros D. assert (H : forall s, In s (sensors a) -> (1 <= nstacks (ser s))%Z /\ (delay (ser s) <= 0)%Qc)
      by (intros s Hs; split; auto; now apply F).
    eexists. split; [exact (copy_array_ok a C H)|]. apply copy_array_equal; auto. now apply copy_array_ok.
  - intros (s & Hs & P). apply copy_array_positive; auto. intros t Ht. split; [|now apply F].
    destruct C as (_ & _ & G). destruct (G t s Ht Hs) as (_ & _ & -> & _). exact P.
Qed.
Lemma array_trim_errors a st en : array_reachable a ->
  (exists a', array_trim a st en = (a', Ok tt) /\ src a' = src a /\
     Forall2 (fun s s' => in_span (ser s) st en /\ trim (ser s) st en = (ser s', Ok tt) /\
                          sx s' = sx s /\ sy s' = sy s /\ sz s' = sz s) (sensors a) (sensors a')) \/
  (array_trim a st en = (a, Err IndexError) /\ Forall (fun s => ~ in_span (ser s) st en) (sensors a)).
Proof.
  intros R. destruct (array_reachable_inv a R) as [C F]. rewrite Forall_forall in F.
  assert (L : forall s, In s (sensors a) -> 0 < length (amp (ser s))).
  { intros s Hs. destruct (F s Hs) as (_ & _ & N). destruct (amp (ser s)); [congruence|cbn; lia]. }
  assert (DEC : forall s, In s (sensors a) -> (exists r, trim (ser s) st en = (r, Ok tt)) -> in_span (ser s) st en).
  { intros s Hs (r & T). unfold in_span.
    destruct (Qclt_le_dec st (time_at (ser s) 0)) as [X|X].
    { rewrite trim_refused in T; [discriminate|now apply F|auto|]. intros (Y & _). elim (Qclt_not_le _ _ X Y). }
    destruct (Qclt_le_dec en st) as [X2|X2].
    { rewrite trim_refused in T; [discriminate|now apply F|auto|]. intros (_ & Y & _). elim (Qclt_not_le _ _ X2 Y). }
    destruct (Qclt_le_dec (time_at (ser s) (length (amp (ser s)) - 1)) en) as [X3|X3].
    { rewrite trim_refused in T; [discriminate|now apply F|auto|]. intros (_ & _ & Y). elim (Qclt_not_le _ _ X3 Y). }
    auto. }
  destruct (array_trim_atomic a st en C) as [(a' & E & S & F2)|(e & E & F2)].
  - left. exists a'. split; auto. split; auto.
    revert F2 DEC. generalize (sensors a) (sensors a'). clear. intros l l' F2.
    induction F2 as [|s s' l l' (T & K) F2 IH]; intros DEC; constructor.
    + split; [apply DEC; [now left|eauto]|]. split; auto.
    + apply IH. intros; apply DEC; auto; now right.
  - right. rewrite Forall_forall in F2.
    assert (NS : forall s, In s (sensors a) -> ~ in_span (ser s) st en).
    { intros s Hs I. destruct (trim_ok (ser s) st en) as (i & j & _ & _ & _ & T); auto; [now apply F|].
      rewrite (F2 s Hs) in T. discriminate. }
    split; [|now apply Forall_forall].
    destruct C as (N & _). destruct (sensors a) as [|s0 l0] eqn:ES; [congruence|].
    assert (T := F2 s0 (or_introl eq_refl)).
    rewrite trim_refused in T; [|apply F; now left|apply L; now left|apply NS; now left].
    injection T as <-. exact E.
Qed.

Lemma array_pad_fail a df e a' : consistent a -> array_zero_pad a df = (a', Err e) ->
  src a' = src a /\
  Forall2 (fun s s' => sx s' = sx s /\ sy s' = sy s /\ sz s' = sz s /\ amp (ser s') = amp (ser s) /\
     dt (ser s') = dt (ser s) /\ nstacks (ser s') = nstacks (ser s) /\ delay (ser s') = delay (ser s))
    (sensors a) (sensors a').
Proof.
  intros C H. destruct (array_pad_cases a df C) as (s0 & l & E & H'). rewrite H' in H.
  destruct (snd (sensor_zero_pad df s0)) as [u|e0] eqn:O; [discriminate|]. injection H as <- <-.
  split; auto. cbn. rewrite E. constructor; [|apply Forall2_refl_in; auto 10].
  destruct (sensor_pad_fail_agree _ _ _ O) as [(A1 & A2 & A3 & _) A4].
  destruct (sensor_pad_sx df s0) as (X1 & X2 & X3). auto 10.
Qed.
