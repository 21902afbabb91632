(* Proofs about images, ratios and correlations of surveys recorded with another gain. *)
From Verif Require Import NumFacts PyFacts SeriesProofs ArrayModel ArraySpec ArrayProofs ArrayMatrixProofs TransformModel GainSpec GainProofs.
Local Open Scope nat_scope.
Local Open Scope list_scope.

Section Gain.
  Variable c : Qc.
  Notation g := (map (Qcmult c)).
  Notation ls := (louder_series c).
  Notation lo := (louder_sensor c).
  Notation la := (louder c).
  Lemma nth_louder i l : nth i (g l) 0%Qc = (c * nth i l 0)%Qc.
  Proof. rewrite <- (map_nth (Qcmult c)). f_equal. ring. Qed.
  Lemma pyget_louder l i : pyget (g l) i = outcome_map (Qcmult c) (pyget l i).
  Proof. unfold pyget. rewrite map_length. destruct (_ <? _)%Z; [reflexivity|]. rewrite nth_error_map. destruct (nth_error l _); reflexivity. Qed.
  Lemma mapM_outcome {A B C} (f : A -> result B) (h : A -> result C) (k : B -> C) l : (forall x, h x = outcome_map k (f x)) -> mapM h l = outcome_map (map k) (mapM f l).
  Proof. intros H. induction l as [|x l IH]; [reflexivity|]. cbn [mapM]. rewrite H, IH. destruct (f x); [|reflexivity]. destruct (mapM f l); reflexivity. Qed.
  Lemma mapM_ext {A B} (f h : A -> result B) l : (forall x, h x = f x) -> mapM h l = mapM f l.
  Proof. intros H. induction l as [|x l IH]; [reflexivity|]. cbn [mapM]. now rewrite H, IH. Qed.
  Lemma mapM_of_map {A B C} (f : B -> result C) (k : A -> B) l : mapM f (map k l) = mapM (fun x => f (k x)) l.
  Proof. induction l as [|x l IH]; [reflexivity|]. cbn [map mapM]. now rewrite IH. Qed.
  Lemma sum_louder {A} (f : A -> Qc) l : Qcsum (map (fun x => c * f x)%Qc l) = (c * Qcsum (map f l))%Qc.
  Proof. rewrite <- Qcsum_scale. f_equal. now rewrite map_map. Qed.

  (** * Correlation with the source *)
  Lemma correlate_louder l m : correlate (g l) m = g (correlate l m).
  Proof.
    unfold correlate. rewrite map_length. destruct l as [|x l]; [reflexivity|]. destruct m as [|y m]; [reflexivity|]. cbn [map]. change ((c * x)%Qc :: g l) with (g (x :: l)).
    rewrite map_map. apply map_ext. intros k. rewrite <- sum_louder. f_equal. apply map_ext. intros i. rewrite nth_louder. ring.
  Qed.
  Lemma slice_louder b e l : pyslice b e (g l) = g (pyslice b e l).
  Proof. unfold pyslice. rewrite map_length. now rewrite firstn_map, skipn_map. Qed.
  Lemma xcorrelate_louder a srcamp srcdt vmin vmax : xcorrelate (la a) srcamp srcdt vmin vmax = louder_result c (xcorrelate a srcamp srcdt vmin vmax).
  Proof.
    unfold xcorrelate. rewrite offsets_louder. destruct (offsets a) as [|o os]; [reflexivity|]. destruct (xcorr_bounds _ _ _ _ _ _) as [[b e]|x]; [|reflexivity]. cbn [louder sensors]. rewrite mapM_of_map.
    rewrite (mapM_outcome (fun s => new_sensor (pyslice (Some b) (Some e) (correlate (amp (ser s)) srcamp)) (dt (ser s)) (sx s) (sy s) (sz s) (nstacks (ser s)) 0%Qc) _ lo).
    - destruct (mapM _ (sensors a)); reflexivity.
    - intros s. cbn [louder_sensor louder_series ser amp dt nstacks sx sy sz]. rewrite correlate_louder, slice_louder. unfold new_sensor, new_series. destruct (_ <=? 0)%Z; [reflexivity|]. destruct (Qcltb 0 0); reflexivity.
  Qed.

  (** * Slant stack *)
  Lemma interpolate_louder row d cols : interpolate (g row) d cols = outcome_map g (interpolate row d cols).
  Proof.
    unfold interpolate. apply mapM_outcome. intros k. rewrite !pyget_louder. destruct (pyget row k) as [x|]; [|reflexivity]. cbn [outcome_map bind]. destruct (pyget row (k + 1)%Z) as [y|]; [|reflexivity].
    cbn [outcome_map bind]. f_equal. ring.
  Qed.
  Lemma amps_louder tm d cols : mapM (fun x => interpolate (fst (fst x)) (snd (fst x)) (snd x)) (combine (combine (map g tm) d) cols) =
    outcome_map (map g) (mapM (fun x => interpolate (fst (fst x)) (snd (fst x)) (snd x)) (combine (combine tm d) cols)).
  Proof.
    revert d cols. induction tm as [|r tm IH]; intros [|x d] [|k cols]; try reflexivity. cbn [map combine mapM fst snd]. rewrite interpolate_louder, IH.
    destruct (interpolate r x k); [|reflexivity]. cbn [outcome_map bind]. destruct (mapM _ (combine (combine tm d) cols)); reflexivity.
  Qed.
  Lemma trapezoid_louder d l : forall m, map2 (fun x y => Q2Qc (1 # 2) * d * (x + y))%Qc (g l) (g m) = g (map2 (fun x y => Q2Qc (1 # 2) * d * (x + y))%Qc l m).
  Proof. induction l as [|x l IH]; intros [|y m]; try reflexivity. cbn [map map2]. rewrite IH. f_equal. ring. Qed.
  Lemma integral_louder diff l : forall m, map2 (fun d ab => map2 (fun x y => Q2Qc (1 # 2) * d * (x + y))%Qc (fst ab) (snd ab)) diff (combine (map g l) (map g m)) =
    map g (map2 (fun d ab => map2 (fun x y => Q2Qc (1 # 2) * d * (x + y))%Qc (fst ab) (snd ab)) diff (combine l m)).
  Proof. revert l. induction diff as [|d diff IH]; intros [|x l] [|y m]; try reflexivity. cbn [map combine map2 fst snd]. now rewrite trapezoid_louder, IH. Qed.
  Lemma tl_map {A B} (f : A -> B) l : tl (map f l) = map f (tl l).
  Proof. destruct l; reflexivity. Qed.
  Lemma step_louder tm diff pre nt cols prev v : slant_step (map g tm) diff pre nt cols prev v =
    outcome_map (fun r => (fst r, g (snd r))) (slant_step tm diff pre nt cols prev v).
  Proof.
    unfold slant_step. rewrite amps_louder. destruct (mapM _ _) as [amps|]; [|reflexivity]. cbn [outcome_map bind fst snd]. do 2 f_equal. rewrite tl_map, integral_louder, map_map. apply map_ext. intros t.
    rewrite map_map, <- sum_louder. f_equal. apply map_ext. intros r. apply nth_louder.
  Qed.
  Lemma loop_louder tm diff pre nt vels : forall cols prev, slant_loop (map g tm) diff pre nt cols prev vels = outcome_map (map g) (slant_loop tm diff pre nt cols prev vels).
  Proof.
    induction vels as [|v vels IH]; intros cols prev; [reflexivity|]. cbn [slant_loop]. rewrite step_louder. destruct (slant_step tm diff pre nt cols prev v) as [[[cols' lower] row]|]; [|reflexivity].
    cbn [outcome_map bind fst snd]. rewrite IH. destruct (slant_loop tm diff pre nt cols' lower vels); reflexivity.
  Qed.
  Lemma npts_louder tm : List.length (nth 0 (map g tm) []) = List.length (nth 0 tm []).
  Proof. destruct tm; [reflexivity|]. apply map_length. Qed.
  Lemma slant_louder a vels : slant_stack (la a) vels = outcome_map (map g) (slant_stack a vels).
  Proof.
    unfold slant_stack. rewrite flipped_louder. cbn [louder sensors]. destruct (sensors a) as [|s l]; [reflexivity|]. cbn [map]. destruct (flipped a) as [tm offs]. cbn [fst snd].
    change (dt (ser (lo s))) with (dt (ser s)). unfold slant_stack_of. destruct (qmin offs) as [pm|]; [|reflexivity]. cbn [bind]. destruct (_ || _); [reflexivity|].
    destruct (qmax (map _ offs)) as [far|]; [|reflexivity]. cbn [bind]. destruct (qmax (map _ vels)) as [slow|]; [|reflexivity]. cbn [bind]. rewrite npts_louder. destruct (_ <? 0)%Z; [reflexivity|]. apply loop_louder.
  Qed.

  Hypothesis P : (0 < c)%Qc.
  (** * Records normalised together *)
  Lemma all_row_louder dtr s : tsm_row dtr NormAll (lo s) = Ok (map Fin (g (if dtr then detrend (amp (ser s)) else amp (ser s)))).
  Proof. unfold tsm_row. cbn [louder_sensor louder_series ser amp]. destruct dtr; [now rewrite detrend_louder|reflexivity]. Qed.
  Lemma mapM_pure {A B} (f : A -> B) l : mapM (fun x => Ok (f x)) l = Ok (map f l).
  Proof. induction l as [|x l IH]; [reflexivity|]. cbn [mapM map]. now rewrite IH. Qed.
  Lemma fins {A} (f : A -> list Qc) l : List.concat (map (map fabs) (map (fun s => map Fin (f s)) l)) = map Fin (map Qcabs (List.concat (map f l))).
  Proof. induction l as [|x l IH]; [reflexivity|]. cbn [map List.concat]. rewrite IH, !map_app. f_equal. rewrite !map_map. reflexivity. Qed.
  Lemma fmax_of l : fmax (map Fin (map Qcabs l)) = outcome_map Fin (absmax l).
  Proof. destruct l as [|x l]; [reflexivity|]. cbn [map fmax absmax outcome_map]. now rewrite fmax_fin. Qed.
  Lemma all_louder a dtr : timeseriesmatrix (la a) dtr NormAll = timeseriesmatrix a dtr NormAll.
  Proof.
    unfold timeseriesmatrix. cbn [louder sensors]. destruct (sensors a) as [|s0 l0]; [reflexivity|]. cbn [map]. change (lo s0 :: map lo l0) with (map lo (s0 :: l0)). generalize (s0 :: l0). intros l.
    set (f := fun s => if dtr then detrend (amp (ser s)) else amp (ser s)).
    replace (mapM (tsm_row dtr NormAll) (map lo l)) with (Ok (map (fun s => map Fin (g (f s))) l)) by (rewrite mapM_of_map, <- mapM_pure; apply mapM_ext; intros s; symmetry; apply all_row_louder).
    replace (mapM (tsm_row dtr NormAll) l) with (Ok (map (fun s => map Fin (f s)) l)) by (rewrite <- mapM_pure; apply mapM_ext; reflexivity).
    cbn [bind]. rewrite !fins, !fmax_of. replace (List.concat (map (fun s => g (f s)) l)) with (g (List.concat (map f l))) by (rewrite concat_map, map_map; reflexivity).
    rewrite absmax_louder by exact P. destruct (absmax (List.concat (map f l))) as [m|]; [|reflexivity]. cbn [outcome_map bind]. f_equal. rewrite !map_map. apply map_ext. intros s. rewrite !map_map. apply map_ext. intros x. now apply ratio_louder.
  Qed.

  (** * Signal-to-noise ratio *)
  Lemma take_louder l ids : take (g l) ids = outcome_map g (take l ids).
  Proof. apply mapM_outcome. apply pyget_louder. Qed.
  Lemma rows_louder a : rows_of (la a) = map g (rows_of a).
  Proof. unfold rows_of. cbn [louder sensors]. now rewrite !map_map. Qed.
  Lemma spectrum_louder spectrum m ids : magnitude spectrum -> mean_spectrum spectrum (map g m) ids = outcome_map g (mean_spectrum spectrum m ids).
  Proof.
    intros M. unfold mean_spectrum. rewrite mapM_of_map. rewrite (mapM_outcome (fun r => take (spectrum r) ids) _ g) by (intros r; rewrite M by exact P; apply take_louder).
    destruct (mapM _ m) as [rows|]; [|reflexivity]. cbn [outcome_map bind]. f_equal. rewrite map_map, map_length. apply map_ext. intros j. rewrite map_map.
    replace (map (fun r => nth j (g r) 0%Qc) rows) with (map (fun r => c * nth j r 0)%Qc rows) by (apply map_ext; intros r; now rewrite nth_louder). rewrite sum_louder. unfold Qcdiv. ring.
  Qed.
  Lemma ratios_louder l : forall m, map2 (fun x y => fdiv (Fin x) (Fin y)) (g l) (g m) = map2 (fun x y => fdiv (Fin x) (Fin y)) l m.
  Proof. induction l as [|x l IH]; intros [|y m]; try reflexivity. cbn [map map2]. now rewrite IH, ratio_louder. Qed.
  Lemma snr_core_louder spectrum s n fl fh : magnitude spectrum -> snr_core spectrum (la s) (la n) fl fh = snr_core spectrum s n fl fh.
  Proof.
    intros M. unfold snr_core. rewrite !rows_louder. cbn [louder sensors]. destruct (sensors n) as [|n0 ln]; [reflexivity|]. cbn [map]. destruct (sensors s) as [|s0 l0]; [reflexivity|]. cbn [map].
    change (ser (lo n0)) with (ls (ser n0)). change (ser (lo s0)) with (ls (ser s0)). rewrite !louder_n. destruct (negb _); [reflexivity|].
    unfold user_df. rewrite louder_df. change (multiple (ls (ser n0))) with (multiple (ser n0)). destruct (bind (internal_df (ser n0)) _) as [df|]; [|reflexivity]. cbn [bind].
    destruct (frequency_keep_ids _ _ _ _) as [ids|]; [|reflexivity]. cbn [bind]. destruct (take _ ids) as [fs|]; [|reflexivity]. cbn [bind]. rewrite !spectrum_louder by exact M.
    destruct (mean_spectrum spectrum (rows_of s) ids) as [sp|]; [|reflexivity]. cbn [outcome_map bind]. destruct (mean_spectrum spectrum (rows_of n) ids) as [np|]; [|reflexivity]. cbn [outcome_map bind]. now rewrite ratios_louder.
  Qed.
  Lemma snr_louder spectrum s n fl fh pad df : magnitude spectrum ->
    snr_from_arrays spectrum (la s) (la n) fl fh pad df = let r := snr_from_arrays spectrum s n fl fh pad df in ((la (fst (fst r)), la (snd (fst r))), snd r).
  Proof.
    intros M. unfold snr_from_arrays. destruct pad; [|cbn [fst snd]; now rewrite snr_core_louder]. rewrite !pad_opt_louder. destruct (array_zero_pad_opt n df) as [n' [[]|e]]; unfold louder_result at 1; cbn [fst snd]; [|reflexivity].
    destruct (array_zero_pad_opt s df) as [s' [[]|e]]; unfold louder_result; cbn [fst snd]; [|reflexivity]. now rewrite snr_core_louder.
  Qed.
End Gain.
