(* Proofs: the image of a survey recorded with another gain, and its peaks. *)
From Verif Require Import NumFacts PyFacts ArrayModel TransformModel TransformNormProofs SpectrumModel BeamProofs GainSpec GainProofs GainImageProofs.
Local Open Scope nat_scope.
Local Open Scope list_scope.

Section Gain.
  Variable c : Qc.
  Lemma fft_louder r n k : fft_n (map (Qcmult c) r) n k = Cmul (RtoC (toR c)) (fft_n r n k).
  Proof. unfold fft_n. rewrite firstn_map, map_length, <- dft_scale. f_equal. rewrite map_app, zeros_louder. reflexivity. Qed.
  Lemma image_louder a vels fl fh : slant_transform (louder c a) vels fl fh =
    outcome_map (fun r => (fst r, map (map (Cmul (RtoC (toR c)))) (snd r))) (slant_transform a vels fl fh).
  Proof.
    unfold slant_transform. rewrite slant_louder. cbn [louder sensors]. destruct (sensors a) as [|s l]; [reflexivity|]. cbn [map]. change (ser (louder_sensor c s)) with (louder_series c (ser s)).
    rewrite louder_n, louder_df. change (multiple (louder_series c (ser s))) with (multiple (ser s)). destruct (slant_stack a vels) as [rows|]; [|reflexivity]. cbn [outcome_map bind].
    destruct (internal_df (ser s)) as [df|]; [|reflexivity]. cbn [bind]. destruct (frequency_keep_ids _ _ _ _) as [ids|]; [|reflexivity]. cbn [bind]. destruct (take _ ids) as [fs|]; [|reflexivity]. cbn [bind outcome_map fst snd].
    do 2 f_equal. rewrite !map_map. apply map_ext. intros r. rewrite map_map. apply map_ext. intros i. apply fft_louder.
  Qed.

  Hypothesis P : (0 < c)%Qc.
  Lemma less_louder x y : Qcltb (c * x) (c * y) = Qcltb x y.
  Proof.
    replace (Qcltb x y) with (Qcltb 0 (y - x)) by (destruct (Qcltb 0 (y - x)) eqn:H, (Qcltb x y) eqn:G; try reflexivity; exfalso;
      [apply Qcltb_lt in H; assert (K : (x < y)%Qc) by qclra; apply Qcltb_lt in K|apply Qcltb_lt in G; assert (K : (0 < y - x)%Qc) by qclra; apply Qcltb_lt in K]; congruence).
    rewrite <- (positive_louder c P (y - x)). replace (c * (y - x))%Qc with (c * y - c * x)%Qc by ring.
    generalize (c * x)%Qc (c * y)%Qc. intros u v. destruct (Qcltb 0 (v - u)) eqn:H, (Qcltb u v) eqn:G; try reflexivity; exfalso;
      [apply Qcltb_lt in H; assert (K : (u < v)%Qc) by qclra; apply Qcltb_lt in K|apply Qcltb_lt in G; assert (K : (0 < v - u)%Qc) by qclra; apply Qcltb_lt in K]; congruence.
  Qed.
  Lemma pos_c : Qcltb 0 c = true.
  Proof. now apply Qcltb_lt. Qed.
  Lemma c_not_0 : Qceqb c 0 = false.
  Proof. destruct (Qceqb c 0) eqn:E; [|reflexivity]. apply Qceqb_eq in E. now apply nonzero in E. Qed.
  Lemma fmul_louder x : fmul (Fin c) x = match x with Fin a => Fin (c * a) | y => y end.
  Proof. destruct x; cbn [fmul]; unfold sgn_inf; rewrite ?c_not_0, ?pos_c; reflexivity. Qed.
  Lemma better_louder x y : better_real (fmul (Fin c) x) (fmul (Fin c) y) = better_real x y.
  Proof. rewrite !fmul_louder. destruct x, y; try reflexivity. unfold better_real. cbn [is_nan flt_lt negb andb orb]. apply less_louder. Qed.
  Lemma column_louder p j : flat_map (fun r : list flt => match nth_error r j with Some k => [k] | None => [] end) (map (map (fmul (Fin c))) p) =
    map (fmul (Fin c)) (flat_map (fun r => match nth_error r j with Some k => [k] | None => [] end) p).
  Proof. induction p as [|r p IH]; [reflexivity|]. cbn [map flat_map]. rewrite IH, map_app, nth_error_map. f_equal. destruct (nth_error r j); reflexivity. Qed.
  Lemma peaks_louder w by_ : find_peak_real (set_power w (map (map (fmul (Fin c))) (power w)) (to_abs w)) by_ = find_peak_real w by_.
  Proof.
    unfold find_peak_real, find_peak_power. destruct (String.eqb _ _); [|reflexivity]. cbn [set_power power wvel]. destruct (power w) as [|r p]; [reflexivity|]. cbn [map]. rewrite map_length.
    change (map (fmul (Fin c)) r :: map (map (fmul (Fin c))) p) with (map (map (fmul (Fin c))) (r :: p)). apply mapM_ext. intros j. rewrite column_louder.
    rewrite (argbest_map (fmul (Fin c)) better_real better_real); [reflexivity|]. intros x y _ _. apply better_louder.
  Qed.

  (** * Normalised images *)
  Notation L := (fmul (Fin c)).
  Lemma sgn_louder a b : sgn_inf (c * a) b = sgn_inf a b.
  Proof. unfold sgn_inf. now rewrite zero_louder, positive_louder. Qed.
  Lemma times_louder x f : fmul (L x) f = L (fmul x f).
  Proof.
    rewrite !fmul_louder. destruct x as [a| | |], f as [b| | |]; cbn [fmul]; rewrite ?sgn_louder; try reflexivity; [f_equal; ring| | | |]; unfold sgn_inf;
      repeat match goal with |- context [if ?t then _ else _] => destruct t end; reflexivity.
  Qed.
  Lemma fabs_louder x : fabs (L x) = L (fabs x).
  Proof. rewrite !fmul_louder. destruct x; cbn [fabs]; try reflexivity. now rewrite abs_louder. Qed.
  Lemma larger_louder x y : fmax2 (L x) (L y) = L (fmax2 x y).
  Proof.
    assert (N : forall z, is_nan (L z) = is_nan z) by (intros z; rewrite fmul_louder; now destruct z). unfold fmax2. rewrite !N.
    assert (E : flt_lt (L x) (L y) = flt_lt x y) by (rewrite !fmul_louder; destruct x, y; try reflexivity; apply less_louder). rewrite E. destruct (is_nan x); [reflexivity|]. destruct (is_nan y); [reflexivity|]. now destruct (flt_lt x y).
  Qed.
  Lemma fmax_louder l : fmax (map L l) = outcome_map L (fmax l).
  Proof. destruct l as [|x l]; [reflexivity|]. cbn [map fmax outcome_map]. f_equal. revert x. induction l as [|y l IH]; intros x; [reflexivity|]. cbn [map fold_left]. now rewrite larger_louder, IH. Qed.
  Lemma quotient_louder x y : fdiv (L x) (L y) = fdiv x y.
  Proof. rewrite !fmul_louder. destruct x as [a| | |], y as [b| | |]; try reflexivity; [now apply ratio_louder| |]; cbn [fdiv]; rewrite ?positive_louder, ?zero_louder, ?less_louder by exact P; try reflexivity;
    unfold sgn_inf; rewrite ?zero_louder, ?positive_louder by exact P; try reflexivity.
    all: replace (Qcltb (c * b) 0) with (Qcltb b 0); [reflexivity|]; rewrite <- (less_louder b 0); f_equal; ring. Qed.
  Lemma scale_image p f : scale fmul (map (map L) p) f = map (map L) (scale fmul p f).
  Proof.
    destruct f as [x|l]; cbn [scale]; rewrite !map_map; apply map_ext; intros r.
    - rewrite !map_map. apply map_ext. intros k. apply times_louder.
    - revert l. induction r as [|k r IH]; intros [|y l]; try reflexivity. cbn [map map2]. now rewrite IH, times_louder.
  Qed.
  Lemma magnitudes_louder p : magnitudes fabs (map (map L) p) = map (map L) (magnitudes fabs p).
  Proof. unfold magnitudes. rewrite !map_map. apply map_ext. intros r. rewrite !map_map. apply map_ext. apply fabs_louder. Qed.
  Lemma nth_nan j r : nth j (map L r) NaN = L (nth j r NaN).
  Proof. rewrite <- (map_nth L). reflexivity. Qed.
  Lemma column_max_louder m : column_max (map (map L) m) = outcome_map (map L) (column_max m).
  Proof.
    destruct m as [|r m]; [reflexivity|]. cbn [map column_max]. rewrite map_length. change (map L r :: map (map L) m) with (map (map L) (r :: m)). apply mapM_outcome. intros j.
    rewrite <- fmax_louder. f_equal. cbn [map]. rewrite nth_nan. f_equal. rewrite !map_map. apply map_ext. intros x. apply nth_nan.
  Qed.
  Lemma column_ratio r : forall l, map2 fdiv (map L r) (map L l) = map2 fdiv r l.
  Proof. induction r as [|x r IH]; intros [|y l]; try reflexivity. cbn [map map2]. now rewrite IH, quotient_louder. Qed.
  Lemma normalize_louder w by_ : by_ <> "none"%string ->
    snd (normalize_real (set_power w (map (map L) (power w)) (to_abs w)) by_) = snd (normalize_real w by_) /\
    (snd (normalize_real w by_) = Ok tt -> power (fst (normalize_real (set_power w (map (map L) (power w)) (to_abs w)) by_)) = power (fst (normalize_real w by_))).
  Proof.
    intros N. unfold normalize_real, normalize. cbn [set_power power to_abs]. rewrite scale_image, magnitudes_louder. generalize (scale fmul (power w) (to_abs w)). intros p. generalize (magnitudes fabs p). intros m.
    destruct (String.eqb_spec by_ "none") as [E|_]; [congruence|]. destruct (String.eqb by_ "absolute-maximum").
    - rewrite <- concat_map, fmax_louder. destruct (fmax (List.concat m)) as [x|e]; cbn [outcome_map fst snd]; [|split; [reflexivity|discriminate]]. split; [reflexivity|intros _]. cbn [set_power power]. unfold reals. f_equal.
      rewrite map_map. apply map_ext. intros r. rewrite map_map. apply map_ext. intros y. apply quotient_louder.
    - destruct (String.eqb by_ "frequency-maximum"); [|split; [reflexivity|discriminate]]. rewrite column_max_louder. destruct (column_max m) as [l|e]; cbn [outcome_map fst snd]; [|split; [reflexivity|discriminate]].
      split; [reflexivity|intros _]. cbn [set_power power]. unfold reals. f_equal. rewrite map_map. apply map_ext. intros r. apply column_ratio.
  Qed.
End Gain.
