(* Proofs about surveys recorded with another gain. *)
From Verif Require Import NumFacts PyFacts SeriesProofs ArrayModel ArraySpec ArrayProofs ArrayMatrixProofs TransformModel GainSpec.
Local Open Scope nat_scope.
Local Open Scope list_scope.

Section Gain.
  Variable c : Qc.
  Hypothesis P : (0 < c)%Qc.
  Notation g := (map (Qcmult c)).
  Notation ls := (louder_series c).
  Notation lo := (louder_sensor c).
  Notation la := (louder c).
  Lemma nonzero : c <> 0%Qc.
  Proof. intros E. rewrite E in P. qclra. Qed.
  Lemma louder_n s : nsamples (ls s) = nsamples s.
  Proof. apply map_length. Qed.
  Lemma louder_time s : time (ls s) = time s.
  Proof. unfold time. now rewrite louder_n. Qed.
  Lemma louder_df s : internal_df (ls s) = internal_df s.
  Proof. unfold internal_df. now rewrite louder_n. Qed.
  Lemma zeros_louder n : g (repeat 0%Qc n) = repeat 0%Qc n.
  Proof. induction n as [|n IH]; [reflexivity|]. cbn [repeat map]. rewrite IH. f_equal. ring. Qed.

  (** * One record *)
  Lemma trim_louder s b e : trim (ls s) b e = (ls (fst (trim s b e)), snd (trim s b e)).
  Proof.
    unfold trim, base_trim. rewrite louder_time. destruct (time s) as [|t0 ts] eqn:T; [reflexivity|]. destruct (_ || _); [reflexivity|].
    destruct (argmin (map (fun t => Qcabs (t - b)) _)) as [i|]; [|reflexivity]. destruct (argmin (map (fun t => Qcabs (t - e)) _)) as [j|]; [|reflexivity].
    cbn [fst snd]. unfold set_amp, louder_series. cbn [amp dt nstacks delay multiple]. now rewrite firstn_map, skipn_map.
  Qed.
  Lemma append_louder s p : append_zeros (ls s) p = (ls (fst (append_zeros s p)), snd (append_zeros s p)).
  Proof. unfold append_zeros. destruct (p <? 0)%Z; [reflexivity|]. cbn [fst snd]. unfold set_amp, louder_series. cbn [amp dt nstacks delay multiple]. now rewrite map_app, zeros_louder. Qed.
  Lemma multiple_louder s m : set_multiple (ls s) m = ls (set_multiple s m).
  Proof. reflexivity. Qed.
  Lemma pad_louder s f : zero_pad (ls s) f = (ls (fst (zero_pad s f)), snd (zero_pad s f)).
  Proof.
    unfold zero_pad. rewrite louder_n. change (dt (ls s)) with (dt s). destruct (Qcleb f 0); [reflexivity|]. destruct (Qceqb (f * dt s) 0); [reflexivity|].
    destruct (_ <? _)%Z; [rewrite multiple_louder; apply append_louder|]. destruct (_ <? _)%Z; [|reflexivity]. destruct (_ =? 0)%Z; [reflexivity|].
    destruct (_ =? 0)%Z; [reflexivity|]. rewrite multiple_louder. apply append_louder.
  Qed.
  Lemma mean_louder l : mean (g l) = (c * mean l)%Qc.
  Proof. unfold mean. rewrite Qcsum_scale, map_length. unfold Qcdiv. ring. Qed.
  Lemma dot_louder r l : dot r (g l) = (c * dot r l)%Qc.
  Proof.
    unfold dot. rewrite <- Qcsum_scale. f_equal. revert l. induction r as [|x r IH]; intros [|y l]; try reflexivity. cbn [map map2]. rewrite IH. f_equal. ring.
  Qed.
  Lemma slope_louder l : slope (g l) = (c * slope l)%Qc.
  Proof. unfold slope. rewrite map_length, dot_louder. destruct (Qceqb _ _); [ring|]. unfold Qcdiv. ring. Qed.
  Lemma detrend_louder l : detrend (g l) = g (detrend l).
  Proof.
    unfold detrend. rewrite mean_louder, slope_louder, map_length. generalize (ramp (List.length l)). intros r. generalize (mean l) (slope l). intros m b.
    revert r. induction l as [|y l IH]; intros [|x r]; try reflexivity. cbn [map map2]. rewrite IH. f_equal. ring.
  Qed.
  Lemma copy_louder s : copy_series (ls s) = outcome_map ls (copy_series s).
  Proof. unfold copy_series, new_series. cbn [louder_series amp dt nstacks delay]. destruct (_ <=? 0)%Z; [reflexivity|]. destruct (Qcltb 0 (delay s)); reflexivity. Qed.
  Lemma stack_louder s t : List.length (amp s) = List.length (amp t) -> stack_data (ls s) (ls t) = ls (stack_data s t).
  Proof.
    intros _. unfold stack_data, louder_series. cbn [amp dt nstacks delay multiple]. f_equal. generalize (amp s) (amp t). intros l. induction l as [|x l IH]; intros [|y m]; try reflexivity.
    cbn [map map2]. rewrite IH. f_equal. unfold Qcdiv. ring.
  Qed.

  (** * Arrays *)
  Lemma for_each_louder (f : sensor -> sensor * result unit) l : (forall s, f (lo s) = (lo (fst (f s)), snd (f s))) ->
    for_each f (map lo l) = (map lo (fst (for_each f l)), snd (for_each f l)).
  Proof.
    intros H. induction l as [|s l IH]; [reflexivity|]. cbn [map for_each]. rewrite H. destruct (f s) as [s' [[]|e]]; cbn [fst snd]; [|reflexivity]. rewrite IH. destruct (for_each f l); reflexivity.
  Qed.
  Lemma array_trim_louder a b e : array_trim (la a) b e = louder_result c (array_trim a b e).
  Proof.
    unfold array_trim. cbn [louder sensors]. rewrite for_each_louder; [destruct (for_each _ (sensors a)); reflexivity|].
    intros s. unfold sensor_trim. cbn [louder_sensor ser]. rewrite trim_louder. destruct (trim (ser s) b e); reflexivity.
  Qed.
  Lemma array_pad_louder a f : array_zero_pad (la a) f = louder_result c (array_zero_pad a f).
  Proof.
    unfold array_zero_pad. cbn [louder sensors]. rewrite for_each_louder; [destruct (for_each _ (sensors a)); reflexivity|].
    intros s. unfold sensor_zero_pad. cbn [louder_sensor ser]. rewrite pad_louder. destruct (zero_pad (ser s) f); reflexivity.
  Qed.
  Lemma pad_opt_louder o a : array_zero_pad_opt (la a) o = louder_result c (array_zero_pad_opt a o).
  Proof. destruct o as [f|]; [apply array_pad_louder|]. unfold array_zero_pad_opt. cbn [louder sensors]. destruct (sensors a) as [|s l] eqn:S; [unfold louder_result, louder; cbn [fst snd]; now rewrite S|]. reflexivity. Qed.
  Lemma array_detrend_louder a : array_detrend (la a) = la (array_detrend a).
  Proof.
    unfold array_detrend, set_sensors, louder. cbn [sensors src]. f_equal. rewrite !map_map. apply map_ext. intros s. unfold detrend_sensor, set_ser, set_amp, louder_sensor, louder_series.
    cbn [ser amp dt nstacks delay multiple sx sy sz]. now rewrite detrend_louder.
  Qed.
  Lemma offsets_louder a : offsets (la a) = offsets a.
  Proof. unfold offsets. cbn [louder sensors]. rewrite map_map. reflexivity. Qed.
  Lemma position_louder a : position (la a) = position a.
  Proof. unfold position. cbn [louder sensors]. now rewrite map_map. Qed.
  Lemma offsets_loop_louder mn mx os l : trim_offsets_loop mn mx (combine os (map lo l)) = map lo (trim_offsets_loop mn mx (combine os l)).
  Proof.
    revert l. induction os as [|o os IH]; intros [|s l]; try reflexivity. cbn [map combine trim_offsets_loop]. rewrite IH. destruct (Qcltb mn o && Qcltb o mx), (Qcltb mx o); reflexivity.
  Qed.
  Lemma trim_offsets_louder a mn mx : trim_offsets (la a) mn mx = louder_result c (trim_offsets a mn mx).
  Proof.
    unfold trim_offsets. rewrite offsets_louder. cbn [louder sensors]. rewrite offsets_loop_louder. destruct (trim_offsets_loop _ _ _); reflexivity.
  Qed.
  Lemma scale_louder l w : scale_by (g l) w = outcome_map g (scale_by l w).
  Proof.
    unfold scale_by. rewrite map_length. destruct (Nat.eqb _ _).
    - cbn [outcome_map]. f_equal. revert w. induction l as [|x l IH]; intros [|y w]; try reflexivity. cbn [map map2]. rewrite IH. f_equal. ring.
    - destruct w as [|v [|]]; try reflexivity. cbn [outcome_map]. rewrite !map_map. f_equal. apply map_ext. intros x. ring.
  Qed.
  Lemma mute_sensor_louder taper n i j s : mute_sensor taper n i j (lo s) = (lo (fst (mute_sensor taper n i j s)), snd (mute_sensor taper n i j s)).
  Proof.
    unfold mute_sensor. cbn [louder_sensor louder_series ser amp]. destruct (bind (tukey taper (j - i)) _) as [w|]; [|reflexivity]. cbn [bind]. rewrite scale_louder.
    destruct (scale_by (amp (ser s)) w); reflexivity.
  Qed.
  Lemma mute_loop_louder taper n idx l : mute_loop taper n idx (map lo l) = (map lo (fst (mute_loop taper n idx l)), snd (mute_loop taper n idx l)).
  Proof.
    revert l. induction idx as [|[i j] idx IH]; intros [|s l]; try reflexivity. cbn [map mute_loop]. rewrite mute_sensor_louder.
    destruct (mute_sensor taper n i j s) as [s' [[]|e]]; cbn [fst snd]; [|reflexivity]. rewrite IH. destruct (mute_loop taper n idx l); reflexivity.
  Qed.
  Lemma mute_louder a taper ss se : mute (la a) taper ss se = louder_result c (mute a taper ss se).
  Proof.
    unfold mute. rewrite position_louder. cbn [louder sensors]. destruct (sensors a) as [|s0 l] eqn:S; [unfold louder_result, louder; cbn; now rewrite S|]. cbn [map].
    change (ser (lo s0)) with (ls (ser s0)). rewrite louder_n. change (dt (ls (ser s0))) with (dt (ser s0)). change (delay (ls (ser s0))) with (delay (ser s0)).
    destruct (Qceqb (dt (ser s0)) 0); [unfold louder_result, louder; cbn; now rewrite S|]. destruct (bind _ _) as [idx|e]; [|unfold louder_result, louder; cbn; now rewrite S].
    change (lo s0 :: map lo l) with (map lo (s0 :: l)). rewrite mute_loop_louder. destruct (mute_loop taper _ idx (s0 :: l)); reflexivity.
  Qed.
  Lemma flipped_louder a : flipped (la a) = (map g (fst (flipped a)), snd (flipped a)).
  Proof.
    unfold flipped, flip_required, last_x. rewrite offsets_louder, position_louder. cbn [louder sensors src]. rewrite map_map. cbn [louder_sensor louder_series ser amp].
    replace (map (fun s => g (amp (ser s))) (sensors a)) with (map g (map (fun s => amp (ser s)) (sensors a))) by apply map_map.
    destruct (Qcltb _ _); cbn [fst snd]; [now rewrite <- map_rev|reflexivity].
  Qed.

  (** * Normalised records *)
  Lemma abs_louder x : Qcabs (c * x) = (c * Qcabs x)%Qc.
  Proof. rewrite Qcabs_mult. f_equal. apply Qcabs_pos. qclra. Qed.
  Lemma lmax_louder l : forall a, lmax (c * a) (g l) = (c * lmax a l)%Qc.
  Proof.
    unfold lmax. induction l as [|x l IH]; intros a; [reflexivity|]. cbn [map fold_left]. rewrite <- IH. f_equal. unfold Qcmax2.
    replace (Qcltb (c * a) (c * x)) with (Qcltb a x); [now destruct (Qcltb a x)|].
    destruct (Qcltb a x) eqn:H, (Qcltb (c * a) (c * x)) eqn:G; try reflexivity.
    - apply Qcltb_lt in H. assert (K : (c * a < c * x)%Qc) by (rewrite (Qcmult_comm c a), (Qcmult_comm c x); now apply Qcmult_lt_compat_r). apply Qcltb_lt in K. congruence.
    - apply Qcltb_lt in G. destruct (Qclt_le_dec a x) as [K|K]; [apply Qcltb_lt in K; congruence|]. exfalso.
      assert (c * x <= c * a)%Qc by (rewrite (Qcmult_comm c a), (Qcmult_comm c x); apply Qcmult_le_compat_r; [exact K|qclra]). qclra.
  Qed.
  Lemma absmax_louder l : absmax (g l) = outcome_map (Qcmult c) (absmax l).
  Proof.
    destruct l as [|x l]; [reflexivity|]. cbn [map absmax outcome_map]. f_equal. rewrite abs_louder, map_map.
    rewrite <- lmax_louder, map_map. f_equal. apply map_ext. apply abs_louder.
  Qed.
  Lemma positive_louder x : Qcltb 0 (c * x) = Qcltb 0 x.
  Proof.
    destruct (Qcltb 0 x) eqn:H, (Qcltb 0 (c * x)) eqn:G; try reflexivity.
    - apply Qcltb_lt in H. assert (K : (0 < c * x)%Qc) by (replace 0%Qc with (0 * x)%Qc by ring; now apply Qcmult_lt_compat_r). apply Qcltb_lt in K. congruence.
    - apply Qcltb_lt in G. destruct (Qclt_le_dec 0 x) as [K|K]; [apply Qcltb_lt in K; congruence|]. exfalso.
      assert (x * c <= 0 * c)%Qc by (apply Qcmult_le_compat_r; [exact K|qclra]). replace (0 * c)%Qc with 0%Qc in H0 by ring. rewrite Qcmult_comm in H0. qclra.
  Qed.
  Lemma zero_louder x : Qceqb (c * x) 0 = Qceqb x 0.
  Proof.
    destruct (Qceqb x 0) eqn:H; [apply Qceqb_eq in H; rewrite H; apply Qceqb_eq; ring|]. destruct (Qceqb (c * x) 0) eqn:G; [|reflexivity]. apply Qceqb_eq in G.
    apply Qcmult_integral in G as [G|G]; [now apply nonzero in G|]. apply Qceqb_eq in G. congruence.
  Qed.
  Lemma ratio_louder x m : fdiv (Fin (c * x)) (Fin (c * m)) = fdiv (Fin x) (Fin m).
  Proof.
    unfold fdiv. rewrite zero_louder. destruct (Qceqb m 0) eqn:M; [unfold sgn_inf; now rewrite zero_louder, positive_louder|]. f_equal.
    assert (m <> 0)%Qc by (intros E; apply Qceqb_eq in E; congruence). field. split; [assumption|apply nonzero].
  Qed.
  Lemma row_louder m l : normalize_row (c * m) (g l) = normalize_row m l.
  Proof. unfold normalize_row. rewrite map_map. apply map_ext. intros x. apply ratio_louder. Qed.
  Lemma tsm_each_louder dtr s : tsm_row dtr NormEach (lo s) = tsm_row dtr NormEach s.
  Proof.
    unfold tsm_row. cbn [louder_sensor louder_series ser amp]. replace (if dtr then detrend (g (amp (ser s))) else g (amp (ser s))) with (g (if dtr then detrend (amp (ser s)) else amp (ser s))) by (destruct dtr; [now rewrite detrend_louder|reflexivity]).
    generalize (if dtr then detrend (amp (ser s)) else amp (ser s)). intros l. rewrite absmax_louder. destruct (absmax l) as [m|]; [|reflexivity]. cbn [outcome_map bind]. now rewrite row_louder.
  Qed.
  Lemma mapM_louder {A} (f : sensor -> result A) l : (forall s, f (lo s) = f s) -> mapM f (map lo l) = mapM f l.
  Proof. intros H. induction l as [|s l IH]; [reflexivity|]. cbn [map mapM]. now rewrite H, IH. Qed.
  Lemma each_louder a dtr : timeseriesmatrix (la a) dtr NormEach = timeseriesmatrix a dtr NormEach.
  Proof. unfold timeseriesmatrix. cbn [louder sensors]. destruct (sensors a) as [|s l]; [reflexivity|]. cbn [map]. change (lo s :: map lo l) with (map lo (s :: l)). now rewrite (mapM_louder _ _ (tsm_each_louder dtr)). Qed.
  Lemma pick_louder a thr : pick_on_threshold (la a) thr = pick_on_threshold a thr.
  Proof.
    unfold pick_on_threshold. rewrite each_louder, position_louder. destruct (timeseriesmatrix a true NormEach) as [m|]; [|reflexivity]. cbn [bind louder sensors].
    destruct (sensors a) as [|s l]; [reflexivity|]. cbn [map]. change (ser (lo s)) with (ls (ser s)). now rewrite louder_time.
  Qed.
End Gain.
