(* Proofs about surveys timed in another unit. *)
From Verif Require Import NumFacts PyFacts ArrayModel ArrayProofs TransformModel TransformNormProofs SpectrumModel BeamModel BeamProofs BeamArrayProofs GainSpec GainProofs GainPeakProofs GainImageProofs GainBeamProofs UnitSpec UnitProofs UnitImageProofs ClockSpec.
From Coq Require Import Lra.
Local Open Scope nat_scope.
Local Open Scope list_scope.

Section Clock.
  Variable w : Qc.
  Hypothesis P : (0 < w)%Qc.
  Notation p := (/ w)%Qc.
  Notation ts := (timed_series w).
  Notation to := (timed_sensor w).
  Notation ta := (timed w).
  Lemma p_pos : (0 < p)%Qc.
  Proof. now apply inverse_pos. Qed.
  Lemma w_p x : (w * (p * x))%Qc = x.
  Proof. rewrite Qcmult_assoc, Qcmult_inv_r by now apply nonzero. ring. Qed.

  Lemma inv_inv : (/ p)%Qc = w.
  Proof. transitivity (w * (p * / p))%Qc; [symmetry; apply w_p|]. rewrite Qcmult_inv_r; [ring|apply nonzero; apply p_pos]. Qed.

  (** * One record *)
  Lemma time_timed s : time (ts s) = map (Qcmult w) (time s).
  Proof. unfold time. rewrite map_map. apply map_ext. intros i. cbn [timed_series dt delay]. ring. Qed.
  Lemma nearest_scale c l x : (0 < c)%Qc -> argmin (map (fun t => Qcabs (t - c * x)) (map (Qcmult c) l)) = argmin (map (fun t => Qcabs (t - x)) l).
  Proof.
    intros C. unfold argmin. replace (map (fun t => Qcabs (t - c * x)) (map (Qcmult c) l)) with (map (Qcmult c) (map (fun t => Qcabs (t - x)) l)).
    - apply argbest_map. intros a b _ _. now apply less_louder.
    - rewrite !map_map. apply map_ext. intros t. rewrite <- abs_louder by exact C. f_equal. ring.
  Qed.
  Lemma trim_timed s b e : trim (ts s) (w * b) (w * e) = (ts (fst (trim s b e)), snd (trim s b e)).
  Proof.
    unfold trim, base_trim. rewrite time_timed. destruct (time s) as [|t0 l] eqn:T; [reflexivity|]. change (map (Qcmult w) (t0 :: l)) with (w * t0 :: map (Qcmult w) l)%Qc at 1. cbv iota.
    destruct (extremes w P t0 l) as [-> ->]. rewrite !less_louder by exact P. destruct (_ || _); [reflexivity|]. rewrite !nearest_scale by exact P.
    destruct (argmin (map (fun t => Qcabs (t - b)) _)) as [i|]; [|reflexivity]. destruct (argmin (map (fun t => Qcabs (t - e)) _)) as [j|]; reflexivity.
  Qed.
  Lemma append_timed s n : append_zeros (ts s) n = (ts (fst (append_zeros s n)), snd (append_zeros s n)).
  Proof. unfold append_zeros. destruct (n <? 0)%Z; reflexivity. Qed.
  Lemma product_timed s f : (p * f * (w * dt s))%Qc = (f * dt s)%Qc.
  Proof. replace (p * f * (w * dt s))%Qc with (w * (p * (f * dt s)))%Qc by ring. apply w_p. Qed.
  Lemma pad_timed s f : zero_pad (ts s) (p * f) = (ts (fst (zero_pad s f)), snd (zero_pad s f)).
  Proof.
    unfold zero_pad. change (nsamples (ts s)) with (nsamples s). change (dt (ts s)) with (w * dt s)%Qc. rewrite product_timed.
    replace (Qcleb (p * f) 0) with (Qcleb f 0).
    - destruct (Qcleb f 0); [reflexivity|]. destruct (Qceqb (f * dt s) 0); [reflexivity|]. cbv zeta.
      destruct (_ <? _)%Z; [apply (append_timed (set_multiple s 1))|]. destruct (_ <? _)%Z; [|reflexivity]. destruct (_ =? 0)%Z; [reflexivity|]. destruct (_ =? 0)%Z; [reflexivity|].
      apply (append_timed (set_multiple s _)).
    - pose proof (positive_louder p p_pos f) as E. destruct (Qcltb_spec 0 (p * f)) as [H|H], (Qcltb_spec 0 f) as [G|G]; try discriminate.
      + destruct (Qcleb f 0) eqn:A; [apply Qcleb_le in A; exfalso; qclra|]. destruct (Qcleb (p * f) 0) eqn:B; [apply Qcleb_le in B; exfalso; qclra|reflexivity].
      + assert (Qcleb f 0 = true) as -> by (apply Qcleb_le; qclra). symmetry. apply Qcleb_le. qclra.
  Qed.
  Lemma df_timed s : internal_df (ts s) = outcome_map (Qcmult p) (internal_df s).
  Proof.
    unfold internal_df. change (nsamples (ts s)) with (nsamples s). change (dt (ts s)) with (w * dt s)%Qc. replace (QcN (nsamples s) * (w * dt s))%Qc with (w * (QcN (nsamples s) * dt s))%Qc by ring.
    rewrite zero_louder by exact P. destruct (Qceqb (QcN (nsamples s) * dt s) 0) eqn:E; [reflexivity|]. cbn [outcome_map]. f_equal.
    assert (QcN (nsamples s) * dt s <> 0)%Qc by (intros H; apply Qceqb_eq in H; congruence). revert H. generalize (QcN (nsamples s) * dt s)%Qc. intros q H. field. split; [assumption|now apply nonzero].
  Qed.

  (** * Arrays *)
  Lemma for_each_timed (f h : sensor -> sensor * result unit) l : (forall s, h (to s) = (to (fst (f s)), snd (f s))) ->
    for_each h (map to l) = (map to (fst (for_each f l)), snd (for_each f l)).
  Proof.
    intros H. induction l as [|s l IH]; [reflexivity|]. cbn [map for_each]. rewrite H. destruct (f s) as [s' [[]|e]]; cbn [fst snd]; [|reflexivity]. rewrite IH. destruct (for_each f l); reflexivity.
  Qed.
  Lemma array_trim_timed a b e : array_trim (ta a) (w * b) (w * e) = timed_result w (array_trim a b e).
  Proof.
    unfold array_trim. cbn [timed sensors]. rewrite (for_each_timed (sensor_trim b e)); [destruct (for_each _ (sensors a)); reflexivity|].
    intros s. unfold sensor_trim. cbn [timed_sensor ser]. rewrite trim_timed. destruct (trim (ser s) b e); reflexivity.
  Qed.
  Lemma array_pad_timed a f : array_zero_pad (ta a) (p * f) = timed_result w (array_zero_pad a f).
  Proof.
    unfold array_zero_pad. cbn [timed sensors]. rewrite (for_each_timed (sensor_zero_pad f)); [destruct (for_each _ (sensors a)); reflexivity|].
    intros s. unfold sensor_zero_pad. cbn [timed_sensor ser]. rewrite pad_timed. destruct (zero_pad (ser s) f); reflexivity.
  Qed.
  Lemma pad_opt_timed o a : array_zero_pad_opt (ta a) (option_map (Qcmult p) o) = timed_result w (array_zero_pad_opt a o).
  Proof. destruct o as [f|]; [apply array_pad_timed|]. cbn [option_map]. unfold array_zero_pad_opt. cbn [timed sensors]. destruct (sensors a) as [|s l] eqn:S; [unfold timed_result, timed; cbn [fst snd]; now rewrite S|]. reflexivity. Qed.
  Lemma array_detrend_timed a : array_detrend (ta a) = ta (array_detrend a).
  Proof. unfold array_detrend, set_sensors, timed. cbn [sensors src]. f_equal. rewrite !map_map. reflexivity. Qed.
  Lemma offsets_timed a : offsets (ta a) = offsets a.
  Proof. unfold offsets. cbn [timed sensors]. rewrite map_map. reflexivity. Qed.
  Lemma position_timed a : position (ta a) = position a.
  Proof. unfold position. cbn [timed sensors]. now rewrite map_map. Qed.
  Lemma offsets_loop_timed mn mx os l : trim_offsets_loop mn mx (combine os (map to l)) = map to (trim_offsets_loop mn mx (combine os l)).
  Proof.
    revert l. induction os as [|o os IH]; intros [|s l]; try reflexivity. cbn [map combine trim_offsets_loop]. rewrite IH. destruct (Qcltb mn o && Qcltb o mx), (Qcltb mx o); reflexivity.
  Qed.
  Lemma trim_offsets_timed a mn mx : trim_offsets (ta a) mn mx = timed_result w (trim_offsets a mn mx).
  Proof. unfold trim_offsets. rewrite offsets_timed. cbn [timed sensors]. rewrite offsets_loop_timed. destruct (trim_offsets_loop _ _ _); reflexivity. Qed.
  Lemma mute_loop_timed taper n idx l : mute_loop taper n idx (map to l) = (map to (fst (mute_loop taper n idx l)), snd (mute_loop taper n idx l)).
  Proof.
    revert l. induction idx as [|[i j] idx IH]; intros [|s l]; try reflexivity. cbn [map mute_loop]. unfold mute_sensor. cbn [timed_sensor timed_series ser amp].
    destruct (bind _ _) as [x|e]; [|reflexivity]. rewrite IH. destruct (mute_loop taper n idx l); reflexivity.
  Qed.
  Lemma indices_timed l d n pos : Qceqb d 0 = false -> line_indices (timed_line w l) (w * d) n pos = line_indices l d n pos.
  Proof.
    intros D. destruct l as [[x1 t1] [x2 t2]]. unfold line_indices, timed_line. destruct (Qceqb (x2 - x1) 0); [reflexivity|].
    f_equal. apply map_ext. intros x. do 2 f_equal. unfold line_time. replace (w * t1 + (w * t2 - w * t1) / (x2 - x1) * (x - x1))%Qc with (w * (t1 + (t2 - t1) / (x2 - x1) * (x - x1)))%Qc by (unfold Qcdiv; ring). now apply ratio_units.
  Qed.
  Lemma mute_timed taper ss se a : mute (ta a) taper (option_map (timed_line w) ss) (option_map (timed_line w) se) = timed_result w (mute a taper ss se).
  Proof.
    unfold mute. rewrite position_timed. cbn [timed sensors]. destruct (sensors a) as [|s0 l] eqn:S; [unfold timed_result, timed; cbn; now rewrite S|]. cbn [map].
    change (nsamples (ser (to s0))) with (nsamples (ser s0)). change (dt (ser (to s0))) with (w * dt (ser s0))%Qc. change (delay (ser (to s0))) with (w * delay (ser s0))%Qc.
    rewrite zero_louder by exact P. destruct (Qceqb (dt (ser s0)) 0) eqn:D; [unfold timed_result, timed; cbn; now rewrite S|]. rewrite ratio_units by assumption.
    assert (L : forall o z, match option_map (timed_line w) o with Some l => line_indices l (w * dt (ser s0)) (Qcabs (delay (ser s0) / dt (ser s0))) (position a) | None => z end =
                            match o with Some l => line_indices l (dt (ser s0)) (Qcabs (delay (ser s0) / dt (ser s0))) (position a) | None => z end).
    { intros [o|] z; [|reflexivity]. cbn [option_map]. now apply indices_timed. }
    rewrite !L. destruct (bind _ _) as [idx|e]; [|unfold timed_result, timed; cbn; now rewrite S].
    change (to s0 :: map to l) with (map to (s0 :: l)). rewrite mute_loop_timed. destruct (mute_loop taper _ idx (s0 :: l)); reflexivity.
  Qed.
  Lemma flipped_timed a : flipped (ta a) = flipped a.
  Proof. unfold flipped, flip_required, last_x. rewrite offsets_timed, position_timed. cbn [timed sensors src]. now rewrite map_map. Qed.
  Lemma matrix_timed a dtr norm : timeseriesmatrix (ta a) dtr norm = timeseriesmatrix a dtr norm.
  Proof. unfold timeseriesmatrix. cbn [timed sensors]. rewrite mapM_of_map. destruct (sensors a); reflexivity. Qed.
  Lemma pyget_timed l i : pyget (map (Qcmult w) l) i = outcome_map (Qcmult w) (pyget l i).
  Proof. apply pyget_louder. Qed.
  Lemma pick_timed a thr : pick_on_threshold (ta a) thr = outcome_map (fun r => (fst r, map (Qcmult w) (snd r))) (pick_on_threshold a thr).
  Proof.
    unfold pick_on_threshold. rewrite matrix_timed, position_timed. destruct (timeseriesmatrix a true NormEach) as [m|]; [|reflexivity]. cbn [bind timed sensors].
    rewrite (mapM_outcome (fun tr => bind (pick_trace thr tr) (fun i => match sensors a with [] => Err IndexError | s0 :: _ => pyget (time (ser s0)) (Z.of_nat i) end)) _ (Qcmult w)).
    - destruct (mapM _ m); reflexivity.
    - intros tr. destruct (pick_trace thr tr) as [i|]; [|reflexivity]. cbn [bind]. destruct (sensors a) as [|s l]; [reflexivity|]. cbn [map]. change (ser (to s)) with (ts (ser s)). rewrite time_timed. apply pyget_timed.
  Qed.

  (** * Building *)
  Lemma similar_timed s t : sensor_similar [A_x; A_y; A_z] (to s) (to t) = sensor_similar [A_x; A_y; A_z] s t.
  Proof. unfold sensor_similar, series_similar. cbn [timed_sensor timed_series ser dt delay nstacks]. change (nsamples (ts (ser s))) with (nsamples (ser s)). change (nsamples (ts (ser t))) with (nsamples (ser t)). now rewrite !eqb_units. Qed.
  Lemma check_timed e l : forall ps, check_sensors (to e) ps (map to l) = check_sensors e ps l.
  Proof. induction l as [|s l IH]; intros ps; [reflexivity|]. cbn [map check_sensors]. rewrite similar_timed. destruct (sensor_similar _ e s); [|reflexivity]. cbn [negb]. change (sx (to s)) with (sx s). destruct (existsb _ ps); [reflexivity|]. apply IH. Qed.
  Lemma sort_timed l : sort_sensors (map to l) = map to (sort_sensors l).
  Proof.
    assert (I : forall s m, insert_sensor (to s) (map to m) = map to (insert_sensor s m)).
    { intros s m. induction m as [|t m IH]; [reflexivity|]. cbn [map insert_sensor]. change (sx (to t)) with (sx t). change (sx (to s)) with (sx s). destruct (Qcltb (sx t) (sx s)); cbn [map]; [now rewrite IH|reflexivity]. }
    unfold sort_sensors. induction l as [|s l IH]; [reflexivity|]. cbn [map fold_right]. rewrite IH. apply I.
  Qed.
  Lemma new_array_timed l s : new_array (map to l) s = outcome_map ta (new_array l s).
  Proof.
    unfold new_array. destruct l as [|e t]; [reflexivity|]. cbn [map]. change (sx (to e)) with (sx e). rewrite check_timed. destruct (check_sensors e [sx e] t); [|reflexivity]. cbn [bind outcome_map].
    change (to e :: map to t) with (map to (e :: t)). rewrite sort_timed. reflexivity.
  Qed.

  (** * Images *)
  Lemma frequencies_scale n c df : frequency_vector n (c * df)%Qc = map (Qcmult c) (frequency_vector n df).
  Proof. unfold frequency_vector. rewrite map_map. apply map_ext. intros i. ring. Qed.
  Lemma ids_timed frqs fl fh m : frequency_keep_ids (map (Qcmult p) frqs) (p * fl) (p * fh) m = frequency_keep_ids frqs fl fh m.
  Proof. unfold frequency_keep_ids. now rewrite !nearest_scale by apply p_pos. Qed.
  Lemma step_timed tm diff pre nt cols prev v : Qceqb v 0 = false -> slant_step tm diff (map (Qcmult p) pre) nt cols prev (p * v)%Qc = slant_step tm diff pre nt cols prev v.
  Proof.
    intros V. unfold slant_step. replace (map (fun q => q / (p * v))%Qc (map (Qcmult p) pre)) with (map (fun q => q / v)%Qc pre) by (rewrite map_map; apply map_ext; intros q; symmetry; apply ratio_units; [apply p_pos|exact V]). reflexivity.
  Qed.
  Lemma loop_timed tm diff pre nt vels : existsb (fun v => Qceqb v 0) vels = false -> forall cols prev,
    slant_loop tm diff (map (Qcmult p) pre) nt cols prev (map (Qcmult p) vels) = slant_loop tm diff pre nt cols prev vels.
  Proof.
    induction vels as [|v vels IH]; intros V cols prev; [reflexivity|]. cbn [existsb] in V. apply Bool.orb_false_iff in V as [V W]. cbn [map slant_loop]. rewrite step_timed by exact V.
    destruct (slant_step tm diff pre nt cols prev v) as [[[cols' lower] row]|]; [|reflexivity]. cbn [bind]. now rewrite IH.
  Qed.
  Lemma slant_timed a vels : slant_stack (ta a) (map (Qcmult p) vels) = slant_stack a vels.
  Proof.
    unfold slant_stack. rewrite flipped_timed. cbn [timed sensors]. destruct (sensors a) as [|s l]; [reflexivity|]. cbn [map timed_sensor timed_series ser dt]. destruct (flipped a) as [tm offs].
    unfold slant_stack_of. destruct (qmin offs) as [pm|]; [|reflexivity]. cbn [bind]. rewrite zero_units by apply p_pos. rewrite zero_louder by exact P.
    destruct (existsb (fun v => Qceqb v 0) vels) eqn:V; [reflexivity|]. cbn [orb]. destruct (Qceqb (dt (ser s)) 0) eqn:D; [reflexivity|]. generalize (map (fun x => x - pm)%Qc offs). intros pos.
    destruct (qmax pos) as [far|]; [|reflexivity]. cbn [bind]. rewrite (slownesses p p_pos) by exact V. rewrite qmax_scale by (apply inverse_pos; apply p_pos). destruct (qmax (map _ vels)) as [slow|]; [|reflexivity]. cbn [outcome_map bind].
    replace (far * (/ p * slow))%Qc with (w * (far * slow))%Qc by (rewrite inv_inv; ring). rewrite ratio_units by assumption.
    destruct (_ <? 0)%Z; [reflexivity|]. rewrite <- (loop_timed tm (diffs pos) (map (fun x => x / dt (ser s))%Qc pos) _ vels V).
    replace (map (fun x => x / (w * dt (ser s)))%Qc pos) with (map (Qcmult p) (map (fun x => x / dt (ser s))%Qc pos)); [reflexivity|]. rewrite map_map. apply map_ext. intros x.
    assert (dt (ser s) <> 0)%Qc by (intros H; apply Qceqb_eq in H; congruence). field. split; [assumption|now apply nonzero].
  Qed.
  Lemma take_timed l ids : take (map (Qcmult p) l) ids = outcome_map (map (Qcmult p)) (take l ids).
  Proof. apply take_louder. Qed.
  Lemma image_timed a vels fl fh : slant_transform (ta a) (map (Qcmult p) vels) (p * fl) (p * fh) = outcome_map (fun r => (map (Qcmult p) (fst r), snd r)) (slant_transform a vels fl fh).
  Proof.
    unfold slant_transform. rewrite slant_timed. cbn [timed sensors]. destruct (sensors a) as [|s l]; [reflexivity|]. cbn [map]. change (ser (to s)) with (ts (ser s)). rewrite df_timed.
    change (nsamples (ts (ser s))) with (nsamples (ser s)). change (multiple (ts (ser s))) with (multiple (ser s)).
    destruct (slant_stack a vels) as [rows|]; [|reflexivity]. cbn [bind]. destruct (internal_df (ser s)) as [df|]; [|reflexivity]. cbn [outcome_map bind]. rewrite frequencies_scale, ids_timed.
    destruct (frequency_keep_ids _ _ _ _) as [ids|]; [|reflexivity]. cbn [bind]. rewrite take_timed. destruct (take _ ids) as [fs|]; reflexivity.
  Qed.
  Lemma kept_timed a fl fh : BeamModel.kept (ta a) (p * fl) (p * fh) = outcome_map (fun r => (fst r, map (Qcmult p) (snd r))) (BeamModel.kept a fl fh).
  Proof.
    unfold BeamModel.kept. cbn [timed sensors]. destruct (sensors a) as [|s l]; [reflexivity|]. cbn [map]. change (ser (to s)) with (ts (ser s)). rewrite df_timed.
    change (nsamples (ts (ser s))) with (nsamples (ser s)). change (multiple (ts (ser s))) with (multiple (ser s)).
    destruct (internal_df (ser s)) as [df|]; [|reflexivity]. cbn [outcome_map bind]. rewrite frequencies_scale, ids_timed.
    destruct (frequency_keep_ids _ _ _ _) as [ids|]; [|reflexivity]. cbn [bind]. rewrite take_timed. destruct (take _ ids) as [fs|]; reflexivity.
  Qed.
  Notation q := (toR p).
  Lemma q_pos : (0 < q)%R.
  Proof. apply real_pos. apply p_pos. Qed.
  Lemma phase_cell_timed xs sp v f : phase_shift_cell xs sp (q * v) (q * f) = phase_shift_cell xs sp v f.
  Proof.
    pose proof q_pos as H. unfold phase_shift_cell. destruct (Req_EM_T (q * v) 0) as [E|E], (Req_EM_T v 0) as [V|V]; [reflexivity| | |].
    - exfalso. apply Rmult_integral in E as [E|E]; lra.
    - exfalso. apply E. rewrite V. ring.
    - do 2 f_equal. revert sp. clear - V H. induction xs as [|x xs IH]; intros [|z sp]; try reflexivity. cbn [map2]. rewrite IH. f_equal. unfold inner. do 3 f_equal. field. split; lra.
  Qed.
  Lemma beam_cell_timed angle wt st xs t v f : fdbf_cell angle wt st xs t (q * v) (q * f) = fdbf_cell angle wt st xs t v f.
  Proof.
    pose proof q_pos as H. unfold fdbf_cell. destruct (Req_EM_T (q * v) 0) as [E|E], (Req_EM_T v 0) as [V|V]; [reflexivity| | |].
    - exfalso. apply Rmult_integral in E as [E|E]; lra.
    - exfalso. apply E. rewrite V. ring.
    - destruct (weighted_spectra wt t) as [t'|]; [|reflexivity]. do 2 f_equal. unfold steer_vector. apply map_ext. intros x. do 3 f_equal. field. split; lra.
  Qed.
  Lemma pairs_timed {A} (f : Z * Qc -> A) ids fs : map f (combine ids (map (Qcmult p) fs)) = map (fun jf => f (fst jf, (p * snd jf)%Qc)) (combine ids fs).
  Proof. revert fs. induction ids as [|i ids IH]; intros [|x fs]; try reflexivity. cbn [map combine fst snd]. now rewrite IH. Qed.
  Lemma phase_timed a vels fl fh : phase_shift (ta a) (map (Qcmult p) vels) (p * fl) (p * fh) = outcome_map (fun r => (map (Qcmult p) (fst r), snd r)) (phase_shift a vels fl fh).
  Proof.
    unfold phase_shift. rewrite kept_timed, flipped_timed. destruct (BeamModel.kept a fl fh) as [[ids fs]|]; [|reflexivity]. cbn [outcome_map bind fst snd]. destruct (flipped a) as [tm offs]. cbn [outcome_map fst snd]. do 2 f_equal.
    rewrite map_map. apply map_ext. intros v. rewrite pairs_timed. apply map_ext. intros jf. cbn [fst snd]. rewrite !toR_mul. apply phase_cell_timed.
  Qed.
  Lemma beam_timed angle wt st a vels fl fh : fdbf angle wt st (ta a) (map (Qcmult p) vels) (p * fl) (p * fh) = outcome_map (fun r => (map (Qcmult p) (fst r), snd r)) (fdbf angle wt st a vels fl fh).
  Proof.
    unfold fdbf. rewrite kept_timed, flipped_timed. destruct (BeamModel.kept a fl fh) as [[ids fs]|]; [|reflexivity]. cbn [outcome_map bind fst snd]. destruct (flipped a) as [tm offs]. cbn [outcome_map fst snd]. do 2 f_equal.
    rewrite map_map. apply map_ext. intros v. rewrite pairs_timed. apply map_ext. intros jf. cbn [fst snd]. rewrite !toR_mul. apply beam_cell_timed.
  Qed.

  (** * Signal-to-noise ratio *)
  Lemma rows_timed a : rows_of (ta a) = rows_of a.
  Proof. unfold rows_of. cbn [timed sensors]. now rewrite map_map. Qed.
  Lemma core_timed sp s n fl fh : snr_core sp (ta s) (ta n) (p * fl) (p * fh) = outcome_map (fun r => (map (Qcmult p) (fst r), snd r)) (snr_core sp s n fl fh).
  Proof.
    unfold snr_core. rewrite !rows_timed. cbn [timed sensors]. destruct (sensors n) as [|n0 ln]; [reflexivity|]. cbn [map]. destruct (sensors s) as [|s0 l0]; [reflexivity|]. cbn [map].
    change (ser (to n0)) with (ts (ser n0)). change (ser (to s0)) with (ts (ser s0)). change (nsamples (ts (ser n0))) with (nsamples (ser n0)). change (nsamples (ts (ser s0))) with (nsamples (ser s0)). destruct (negb _); [reflexivity|].
    unfold user_df. rewrite df_timed. change (multiple (ts (ser n0))) with (multiple (ser n0)). destruct (internal_df (ser n0)) as [df|]; [|reflexivity]. cbn [outcome_map bind].
    replace (p * df * QcZ (multiple (ser n0)))%Qc with (p * (df * QcZ (multiple (ser n0))))%Qc by ring. rewrite frequencies_scale, ids_timed.
    destruct (frequency_keep_ids _ _ _ _) as [ids|]; [|reflexivity]. cbn [bind]. rewrite take_timed. destruct (take _ ids) as [fs|]; [|reflexivity]. cbn [outcome_map bind].
    destruct (mean_spectrum sp (rows_of s) ids) as [x|]; [|reflexivity]. cbn [bind]. destruct (mean_spectrum sp (rows_of n) ids) as [y|]; reflexivity.
  Qed.
  Lemma snr_timed sp s n fl fh pad df : snd (snr_from_arrays sp (ta s) (ta n) (p * fl) (p * fh) pad (option_map (Qcmult p) df)) =
    outcome_map (fun r => (map (Qcmult p) (fst r), snd r)) (snd (snr_from_arrays sp s n fl fh pad df)).
  Proof.
    unfold snr_from_arrays. destruct pad; [|cbn [snd]; apply core_timed]. rewrite !pad_opt_timed. destruct (array_zero_pad_opt n df) as [n' [[]|e]]; unfold timed_result at 1; cbn [fst snd]; [|reflexivity].
    destruct (array_zero_pad_opt s df) as [s' [[]|e]]; unfold timed_result; cbn [fst snd]; [|reflexivity]. apply core_timed.
  Qed.
End Clock.
