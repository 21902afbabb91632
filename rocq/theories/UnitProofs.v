(* Proofs about surveys measured in another unit of length. *)
From Verif Require Import NumFacts PyFacts ArrayModel ArrayProofs TransformModel GainSpec GainProofs GainPeakProofs GainImageProofs UnitSpec.
Local Open Scope nat_scope.
Local Open Scope list_scope.
Local Open Scope py_scope.

Section Units.
  Variable u : Qc.
  Hypothesis P : (0 < u)%Qc.
  Notation mu := (measured u).
  Notation ms := (measured_sensor u).

  (** * What is read off an array *)
  Lemma ltb_units x y : Qcltb (u * x) (u * y) = Qcltb x y.
  Proof. now apply less_louder. Qed.
  Lemma eqb_units x y : Qceqb (u * x) (u * y) = Qceqb x y.
  Proof.
    destruct (Qceqb_spec (u * x) (u * y)) as [H|H], (Qceqb_spec x y) as [G|G]; auto; exfalso; [|apply H; now rewrite G]. apply G.
    assert (E : (u * (x - y))%Qc = 0%Qc) by (replace (u * (x - y))%Qc with (u * x - u * y)%Qc by ring; rewrite H; ring). apply Qcmult_integral in E as [E|E]; [now apply (nonzero u P) in E|].
    replace x with (x - y + y)%Qc by ring. rewrite E. ring.
  Qed.
  Lemma position_units a : position (mu a) = map (Qcmult u) (position a).
  Proof. unfold position, measured. cbn [sensors]. now rewrite !map_map. Qed.
  Lemma offset_units a s : offset_of (mu a) (ms s) = (u * offset_of a s)%Qc.
  Proof. unfold offset_of. cbn. rewrite <- abs_louder by exact P. f_equal. ring. Qed.
  Lemma offsets_units a : offsets (mu a) = map (Qcmult u) (offsets a).
  Proof. unfold offsets. cbn [measured sensors]. rewrite !map_map. apply map_ext. intros s. apply offset_units. Qed.
  Lemma diffs_units l : diffs (map (Qcmult u) l) = map (Qcmult u) (diffs l).
  Proof. induction l as [|x [|y t] IH]; [reflexivity|reflexivity|]. cbn [map diffs] in *. rewrite IH. f_equal. ring. Qed.
  Lemma first_units a : sensors a <> [] -> first_x (mu a) = (u * first_x a)%Qc.
  Proof. unfold first_x. rewrite position_units. unfold position. destruct (sensors a); [congruence|reflexivity]. Qed.
  Lemma last_map {A B} (f : A -> B) l x y : l <> [] -> last (map f l) y = f (last l x).
  Proof. induction l as [|a [|b t] IH]; intros N; [congruence|reflexivity|]. cbn [map last] in *. apply IH. discriminate. Qed.
  Lemma last_units a : sensors a <> [] -> last_x (mu a) = (u * last_x a)%Qc.
  Proof. unfold last_x. rewrite position_units. intros N. apply last_map with (f := fun x => (u * x)%Qc). unfold position. destruct (sensors a); [congruence|discriminate]. Qed.
  Lemma inside_units a : source_inside (mu a) = source_inside a.
  Proof.
    destruct (sensors a) eqn:S.
    { assert (G : forall b, sensors b = [] -> source_inside b = false).
      { intros b H. unfold source_inside, first_x, last_x, position. rewrite H. cbn. destruct (Qcltb_spec 0 (src_x (src b))) as [A|A], (Qcltb_spec (src_x (src b)) 0) as [B|B]; auto. exfalso; qclra. }
      rewrite !G; auto. cbn. now rewrite S. }
    assert (N : sensors a <> []) by congruence. unfold source_inside. rewrite first_units, last_units by exact N. cbn [measured src measured_source src_x]. now rewrite !ltb_units.
  Qed.
  Lemma flip_units a : sensors a <> [] -> flip_required (mu a) = flip_required a.
  Proof. intros N. unfold flip_required. rewrite last_units by exact N. cbn [measured src measured_source src_x]. now rewrite !ltb_units. Qed.
  Lemma rows_units {A} (f : series -> A) a : map (fun s => f (ser s)) (sensors (mu a)) = map (fun s => f (ser s)) (sensors a).
  Proof. cbn [measured sensors]. now rewrite map_map. Qed.
  Lemma flipped_units a : sensors a <> [] -> flipped (mu a) = (fst (flipped a), map (Qcmult u) (snd (flipped a))).
  Proof. intros N. unfold flipped. rewrite flip_units, offsets_units, (rows_units amp) by exact N. destruct (flip_required a); cbn [fst snd]; [now rewrite map_rev|reflexivity]. Qed.
  Lemma mapM_units {A} (f : sensor -> result A) l : (forall s, f (ms s) = f s) -> mapM f (map ms l) = mapM f l.
  Proof. intros H. induction l as [|s l IH]; [reflexivity|]. cbn [map mapM]. now rewrite H, IH. Qed.
  Lemma matrix_units a dtr norm : timeseriesmatrix (mu a) dtr norm = timeseriesmatrix a dtr norm.
  Proof.
    unfold timeseriesmatrix. cbn [measured sensors]. rewrite mapM_units by reflexivity. destruct (sensors a); reflexivity.
  Qed.
  Lemma pick_units a thr : pick_on_threshold (mu a) thr = outcome_map (fun r => (map (Qcmult u) (fst r), snd r)) (pick_on_threshold a thr).
  Proof.
    unfold pick_on_threshold. rewrite matrix_units, position_units. destruct (timeseriesmatrix a true NormEach) as [m|]; cbn [bind outcome_map]; [|reflexivity].
    cbn [measured sensors].
    assert (Q : mapM (fun tr => bind (pick_trace thr tr) (fun i => match map ms (sensors a) with [] => Err IndexError | s0 :: _ => pyget (time (ser s0)) (Z.of_nat i) end)) m =
                mapM (fun tr => bind (pick_trace thr tr) (fun i => match sensors a with [] => Err IndexError | s0 :: _ => pyget (time (ser s0)) (Z.of_nat i) end)) m).
    { destruct (sensors a); reflexivity. }
    cbn [map] in Q. etransitivity; [exact (f_equal (fun r => do ts <- r; Ok (map (Qcmult u) (position a), ts)) Q)|]. clear Q. destruct (mapM _ m); reflexivity.
  Qed.
  Lemma for_each_units (f : sensor -> sensor * result unit) l : (forall s, f (ms s) = (ms (fst (f s)), snd (f s))) ->
    for_each f (map ms l) = (map ms (fst (for_each f l)), snd (for_each f l)).
  Proof.
    intros H. induction l as [|s l IH]; [reflexivity|]. cbn [map for_each]. rewrite H. destruct (f s) as [s' [[]|e]]; cbn [fst snd]; [|reflexivity].
    rewrite IH. destruct (for_each f l) as [t r]. reflexivity.
  Qed.
  Lemma trim_units b e a : array_trim (mu a) b e = measured_result u (array_trim a b e).
  Proof.
    unfold array_trim, measured_result. cbn [measured sensors]. rewrite for_each_units.
    - destruct (for_each _ (sensors a)); reflexivity.
    - intros s. unfold sensor_trim. cbn [measured_sensor ser]. destruct (trim (ser s) b e); reflexivity.
  Qed.
  Lemma pad_units f a : array_zero_pad (mu a) f = measured_result u (array_zero_pad a f).
  Proof.
    unfold array_zero_pad, measured_result. cbn [measured sensors]. rewrite for_each_units.
    - destruct (for_each _ (sensors a)); reflexivity.
    - intros s. unfold sensor_zero_pad. cbn [measured_sensor ser]. destruct (zero_pad (ser s) f); reflexivity.
  Qed.
  Lemma detrend_units a : array_detrend (mu a) = mu (array_detrend a).
  Proof. unfold array_detrend, measured, set_sensors. cbn [sensors src]. now rewrite !map_map. Qed.
  Lemma loop_units mn mx os l : trim_offsets_loop (u * mn) (u * mx) (combine (map (Qcmult u) os) (map ms l)) = map ms (trim_offsets_loop mn mx (combine os l)).
  Proof.
    revert l. induction os as [|o os IH]; intros [|s l]; try reflexivity. cbn [map combine trim_offsets_loop]. rewrite IH, !ltb_units. destruct (Qcltb mn o && Qcltb o mx), (Qcltb mx o); reflexivity.
  Qed.
  Lemma trim_offsets_units mn mx a : trim_offsets (mu a) (u * mn) (u * mx) = measured_result u (trim_offsets a mn mx).
  Proof. unfold trim_offsets. rewrite offsets_units. cbn [measured sensors]. rewrite loop_units. destruct (trim_offsets_loop _ _ _); reflexivity. Qed.
  Lemma indices_units l t n pos : line_indices (measured_line u l) t n (map (Qcmult u) pos) = line_indices l t n pos.
  Proof.
    destruct l as [[x1 t1] [x2 t2]]. unfold line_indices, measured_line. replace (u * x2 - u * x1)%Qc with (u * (x2 - x1))%Qc by ring. rewrite zero_louder by exact P. destruct (Qceqb (x2 - x1) 0) eqn:E; [reflexivity|].
    f_equal. rewrite map_map. apply map_ext. intros x. do 3 f_equal. unfold line_time. f_equal. assert (x2 - x1 <> 0)%Qc by (intros H; apply Qceqb_eq in H; congruence). replace (u * x2 - u * x1)%Qc with (u * (x2 - x1))%Qc by ring. replace (u * x - u * x1)%Qc with (u * (x - x1))%Qc by ring.
    field. split; [assumption|apply (nonzero u P)].
  Qed.
  Lemma mute_loop_units taper n idx l : mute_loop taper n idx (map ms l) = (map ms (fst (mute_loop taper n idx l)), snd (mute_loop taper n idx l)).
  Proof.
    revert l. induction idx as [|[i j] idx IH]; intros [|s l]; try reflexivity. cbn [map mute_loop].
    assert (M : mute_sensor taper n i j (ms s) = (ms (fst (mute_sensor taper n i j s)), snd (mute_sensor taper n i j s))).
    { unfold mute_sensor. cbn [measured_sensor ser]. destruct (bind _ _); reflexivity. }
    rewrite M. destruct (mute_sensor taper n i j s) as [s' [[]|e]]; cbn [fst snd]; [|reflexivity]. rewrite IH. destruct (mute_loop taper n idx l); reflexivity.
  Qed.
  Lemma mute_units taper ss se a : mute (mu a) taper (option_map (measured_line u) ss) (option_map (measured_line u) se) = measured_result u (mute a taper ss se).
  Proof.
    unfold mute. rewrite position_units. cbn [measured sensors]. destruct (sensors a) as [|s0 l] eqn:S; [unfold measured_result; cbn; unfold measured; now rewrite S|].
    cbn [map]. change (ser (ms s0)) with (ser s0). destruct (Qceqb (dt (ser s0)) 0); [unfold measured_result; cbn; unfold measured; now rewrite S|].
    set (st := match option_map (measured_line u) ss with Some _ => _ | None => _ end).
    set (sp := match option_map (measured_line u) se with Some _ => _ | None => _ end).
    assert (Q1 : st = match ss with Some l => line_indices l (dt (ser s0)) (Qcabs (delay (ser s0) / dt (ser s0))%Qc) (position a) | None => Ok (map (fun _ => 0%Z) (position a)) end).
    { unfold st. destruct ss; cbn [option_map]; [apply indices_units|now rewrite map_map]. }
    assert (Q2 : sp = match se with Some l => line_indices l (dt (ser s0)) (Qcabs (delay (ser s0) / dt (ser s0))%Qc) (position a) | None => Ok (map (fun _ => (Z.of_nat (nsamples (ser s0)) - 1)%Z) (position a)) end).
    { unfold sp. destruct se; cbn [option_map]; [apply indices_units|now rewrite map_map]. }
    rewrite Q1, Q2. clear st sp Q1 Q2. destruct (bind _ _) as [idx|e]; [|unfold measured_result; cbn; unfold measured; now rewrite S].
    change (ms s0 :: map ms l) with (map ms (s0 :: l)). rewrite mute_loop_units.
    destruct (mute_loop taper (nsamples (ser s0)) idx (s0 :: l)) as [l' r]. reflexivity.
  Qed.
  Lemma mapM_after {A} (f : sensor -> result A) (h : A -> A) l : (forall s, f (ms s) = outcome_map h (f s)) -> mapM f (map ms l) = outcome_map (map h) (mapM f l).
  Proof.
    intros H. induction l as [|s l IH]; [reflexivity|]. cbn [map mapM]. rewrite H. destruct (f s); [|reflexivity]. cbn [outcome_map bind]. rewrite IH. destruct (mapM f l); reflexivity.
  Qed.
  Lemma existsb_units x l : existsb (Qceqb (u * x)) (map (Qcmult u) l) = existsb (Qceqb x) l.
  Proof. induction l as [|y l IH]; [reflexivity|]. cbn [map existsb]. now rewrite eqb_units, IH. Qed.
  Lemma similar_units s t : sensor_similar [A_x; A_y; A_z] (ms s) (ms t) = sensor_similar [A_x; A_y; A_z] s t.
  Proof. reflexivity. Qed.
  Lemma check_units e l : forall ps, check_sensors (ms e) (map (Qcmult u) ps) (map ms l) = check_sensors e ps l.
  Proof.
    induction l as [|s l IH]; intros ps; [reflexivity|]. cbn [map check_sensors]. rewrite similar_units. destruct (sensor_similar _ e s); [|reflexivity]. cbn [negb].
    change (sx (ms s)) with (u * sx s)%Qc. rewrite existsb_units. destruct (existsb _ ps); [reflexivity|]. rewrite <- IH, map_app. reflexivity.
  Qed.
  Lemma sort_units l : sort_sensors (map ms l) = map ms (sort_sensors l).
  Proof.
    assert (I : forall s m, insert_sensor (ms s) (map ms m) = map ms (insert_sensor s m)).
    { intros s m. induction m as [|t m IH]; [reflexivity|]. cbn [map insert_sensor]. change (sx (ms t)) with (u * sx t)%Qc. change (sx (ms s)) with (u * sx s)%Qc.
      rewrite ltb_units. destruct (Qcltb (sx t) (sx s)); cbn [map]; [now rewrite IH|reflexivity]. }
    unfold sort_sensors. induction l as [|s l IH]; [reflexivity|]. cbn [map fold_right]. rewrite IH. apply I.
  Qed.
  Lemma new_array_units l s : new_array (map ms l) (measured_source u s) = outcome_map mu (new_array l s).
  Proof.
    unfold new_array. destruct l as [|e t]; [reflexivity|]. cbn [map]. pose proof (check_units e t [sx e]) as C. cbn [map] in C. change (sx (ms e)) with (u * sx e)%Qc.
    rewrite C. destruct (check_sensors e [sx e] t); [|reflexivity]. cbn [bind outcome_map]. change (ms e :: map ms t) with (map ms (e :: t)). rewrite sort_units. reflexivity.
  Qed.

  (** * Correlation with the source *)
  Lemma extremes x l : lmax (u * x) (map (Qcmult u) l) = (u * lmax x l)%Qc /\ lmin (u * x) (map (Qcmult u) l) = (u * lmin x l)%Qc.
  Proof.
    split; [now apply lmax_louder|]. unfold lmin. revert x. induction l as [|y l IH]; intros x; [reflexivity|]. cbn [map fold_left]. rewrite <- IH. f_equal. unfold Qcmin2. rewrite ltb_units. now destruct (Qcltb _ _).
  Qed.
  Lemma ratio_units x y : Qceqb y 0 = false -> (u * x / (u * y))%Qc = (x / y)%Qc.
  Proof. intros E. assert (y <> 0)%Qc by (intros H; apply Qceqb_eq in H; congruence). field. split; [assumption|apply (nonzero u P)]. Qed.
  Lemma bounds_units n d lo hi vl vh : xcorr_bounds n d (u * lo) (u * hi) (u * vl) (u * vh) = xcorr_bounds n d lo hi vl vh.
  Proof.
    unfold xcorr_bounds. rewrite !zero_louder by exact P. destruct (Qceqb vh 0) eqn:H; [reflexivity|]. destruct (Qceqb vl 0) eqn:L; [reflexivity|]. cbn [orb]. destruct (Qceqb d 0); [reflexivity|]. now rewrite !ratio_units.
  Qed.
  Lemma xcorrelate_units sa sd vl vh a : xcorrelate (mu a) sa sd (u * vl) (u * vh) = measured_result u (xcorrelate a sa sd vl vh).
  Proof.
    unfold xcorrelate. rewrite offsets_units. destruct (offsets a) as [|o os]; [reflexivity|]. cbn [map]. destruct (extremes o os) as [-> ->]. rewrite bounds_units. destruct (xcorr_bounds _ _ _ _ _ _) as [[lo hi]|e]; [|reflexivity].
    cbn [measured sensors]. rewrite (mapM_after _ ms); [destruct (mapM _ (sensors a)); reflexivity|].
    intros s. unfold new_sensor. cbn [measured_sensor ser sx sy sz]. destruct (new_series _ _ _ _); reflexivity.
  Qed.
End Units.
