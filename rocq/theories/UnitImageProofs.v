(* Proofs: images of surveys measured in another unit of length. *)
From Verif Require Import NumFacts PyFacts ArrayModel ArrayProofs TransformModel SpectrumModel BeamModel BeamSpec BeamProofs BeamArrayProofs GainSpec GainProofs GainImageProofs GainPeakProofs GainBeamProofs UnitSpec UnitProofs.
From Coq Require Import Lra.
Local Open Scope nat_scope.
Local Open Scope list_scope.

Section Units.
  Variable u : Qc.
  Hypothesis P : (0 < u)%Qc.
  Notation g := (map (Qcmult u)).
  Notation mu := (measured u).

  (** * Slant stack *)
  Lemma panels_units diff l : map2 (fun d ab => map2 (fun x y => Q2Qc (1 # 2) * d * (x + y))%Qc (fst ab) (snd ab)) (g diff) l =
    map g (map2 (fun d ab => map2 (fun x y => Q2Qc (1 # 2) * d * (x + y))%Qc (fst ab) (snd ab)) diff l).
  Proof.
    revert l. induction diff as [|d diff IH]; intros [|[r s] l]; try reflexivity. cbn [map map2 fst snd]. rewrite IH. f_equal. clear. revert s. induction r as [|x r IH]; intros [|y s]; try reflexivity. cbn [map map2]. rewrite IH. f_equal. ring.
  Qed.
  Lemma step_units tm diff pre nt cols prev v : Qceqb v 0 = false -> slant_step tm (g diff) (g pre) nt cols prev (u * v)%Qc =
    outcome_map (fun r => (fst r, g (snd r))) (slant_step tm diff pre nt cols prev v).
  Proof.
    intros V. unfold slant_step. replace (map (fun p => p / (u * v))%Qc (g pre)) with (map (fun p => p / v)%Qc pre) by (rewrite map_map; apply map_ext; intros p; symmetry; now apply ratio_units).
    destruct (mapM _ _) as [amps|]; [|reflexivity]. cbn [outcome_map bind fst snd]. do 2 f_equal. rewrite panels_units, map_map. apply map_ext. intros t.
    rewrite map_map, <- sum_louder. f_equal. apply map_ext. intros r. apply nth_louder.
  Qed.
  Lemma loop_image_units tm diff pre nt vels : existsb (fun v => Qceqb v 0) vels = false -> forall cols prev,
    slant_loop tm (g diff) (g pre) nt cols prev (g vels) = outcome_map (map g) (slant_loop tm diff pre nt cols prev vels).
  Proof.
    induction vels as [|v vels IH]; intros V cols prev; [reflexivity|]. cbn [existsb] in V. apply Bool.orb_false_iff in V as [V W]. cbn [map slant_loop]. rewrite step_units by exact V.
    destruct (slant_step tm diff pre nt cols prev v) as [[[cols' lower] row]|]; [|reflexivity]. cbn [outcome_map bind fst snd]. rewrite IH by exact W. destruct (slant_loop tm diff pre nt cols' lower vels); reflexivity.
  Qed.
  Lemma qmax_scale c l : (0 < c)%Qc -> qmax (map (Qcmult c) l) = outcome_map (Qcmult c) (qmax l).
  Proof. intros C. destruct l as [|x l]; [reflexivity|]. cbn [map qmax outcome_map]. now rewrite lmax_louder. Qed.
  Lemma qmin_units l : qmin (g l) = outcome_map (Qcmult u) (qmin l).
  Proof. destruct l as [|x l]; [reflexivity|]. cbn [map qmin outcome_map]. now destruct (extremes u P x l) as [_ ->]. Qed.
  Lemma inverse_pos : (0 < / u)%Qc.
  Proof.
    pose proof (nonzero u P) as N. destruct (Qclt_le_dec 0 (/ u)) as [H|H]; [exact H|exfalso]. assert (E : (/ u * u <= 0 * u)%Qc) by (apply Qcmult_le_compat_r; [exact H|now apply Qclt_le_weak]).
    rewrite Qcmult_inv_l in E by exact N. replace (0 * u)%Qc with 0%Qc in E by ring. apply (Qcle_not_lt _ _ E). reflexivity.
  Qed.
  Lemma slownesses vels : existsb (fun v => Qceqb v 0) vels = false -> map (fun v => 1 / v)%Qc (g vels) = map (Qcmult (/ u)) (map (fun v => 1 / v)%Qc vels).
  Proof.
    intros E. induction vels as [|v vels IH]; [reflexivity|]. cbn [existsb] in E. apply Bool.orb_false_iff in E as [V W]. cbn [map]. rewrite IH by exact W. f_equal.
    assert (v <> 0)%Qc by (intros H; apply Qceqb_eq in H; congruence). field. split; [assumption|apply (nonzero u P)].
  Qed.
  Lemma zero_units vels : existsb (fun v => Qceqb v 0) (g vels) = existsb (fun v => Qceqb v 0) vels.
  Proof. induction vels as [|v vels IH]; [reflexivity|]. cbn [map existsb]. now rewrite IH, zero_louder. Qed.
  Lemma slant_units a vels : slant_stack (mu a) (g vels) = outcome_map (map g) (slant_stack a vels).
  Proof.
    unfold slant_stack. destruct (sensors a) as [|s l] eqn:S; [cbn [measured sensors]; rewrite S; reflexivity|]. rewrite flipped_units by (exact P || (rewrite S; discriminate)). cbn [measured sensors]. rewrite S. cbn [map measured_sensor ser].
    destruct (flipped a) as [tm offs]. cbn [fst snd]. unfold slant_stack_of. rewrite qmin_units. destruct (qmin offs) as [pm|]; [|reflexivity]. cbn [outcome_map bind]. rewrite zero_units.
    destruct (existsb (fun v => Qceqb v 0) vels) eqn:V; [reflexivity|]. cbn [orb]. destruct (Qceqb (dt (ser s)) 0); [reflexivity|].
    assert (E : map (fun x => x - u * pm)%Qc (g offs) = g (map (fun x => x - pm)%Qc offs)) by (rewrite !map_map; apply map_ext; intros x; ring). rewrite E. generalize (map (fun x => x - pm)%Qc offs). intros pos.
    rewrite qmax_scale by exact P. destruct (qmax pos) as [far|]; [|reflexivity]. cbn [outcome_map bind]. rewrite slownesses by exact V. rewrite qmax_scale by exact inverse_pos. destruct (qmax (map _ vels)) as [slow|]; [|reflexivity]. cbn [outcome_map bind].
    replace (u * far * (/ u * slow) / dt (ser s))%Qc with (far * slow / dt (ser s))%Qc by (replace (u * far * (/ u * slow))%Qc with ((u * / u) * (far * slow))%Qc by ring; rewrite Qcmult_inv_r by apply (nonzero u P); f_equal; ring).
    destruct (_ <? 0)%Z; [reflexivity|]. rewrite diffs_units, <- loop_image_units by exact V.
    replace (map (fun x => x / dt (ser s))%Qc (g pos)) with (g (map (fun x => x / dt (ser s))%Qc pos)) by (rewrite !map_map; apply map_ext; intros x; unfold Qcdiv; ring). now rewrite !map_map.
  Qed.
  Lemma image_units a vels fl fh : slant_transform (mu a) (g vels) fl fh =
    outcome_map (fun r => (fst r, map (map (Cmul (RtoC (toR u)))) (snd r))) (slant_transform a vels fl fh).
  Proof.
    unfold slant_transform. rewrite slant_units. cbn [measured sensors]. destruct (sensors a) as [|s l]; [reflexivity|]. cbn [map measured_sensor ser].
    destruct (slant_stack a vels) as [rows|]; [|reflexivity]. cbn [outcome_map bind].
    destruct (internal_df (ser s)) as [df|]; [|reflexivity]. cbn [bind]. destruct (frequency_keep_ids _ _ _ _) as [ids|]; [|reflexivity]. cbn [bind]. destruct (take _ ids) as [fs|]; [|reflexivity]. cbn [bind outcome_map fst snd].
    do 2 f_equal. rewrite !map_map. apply map_ext. intros r. rewrite map_map. apply map_ext. intros i. apply fft_louder.
  Qed.

  (** * Phase shift *)
  Notation U := (toR u).
  Lemma kept_units a fl fh : BeamModel.kept (mu a) fl fh = BeamModel.kept a fl fh.
  Proof. unfold BeamModel.kept. cbn [measured sensors]. destruct (sensors a); reflexivity. Qed.
  Lemma reals_units l : map toR (g l) = map (Rmult U) (map toR l).
  Proof. rewrite !map_map. apply map_ext. intros x. apply toR_mul. Qed.
  Lemma U_pos : (0 < U)%R.
  Proof. now apply real_pos. Qed.
  Lemma trapezoid_units xs : forall l, trapezoid (map (Rmult U) xs) l = option_map (Cmul (RtoC U)) (trapezoid xs l).
  Proof.
    assert (Z : Some C0 = option_map (Cmul (RtoC U)) (Some C0)) by (cbn [option_map]; f_equal; ring).
    induction xs as [|x [|y t] IH]; intros l; [exact Z|exact Z|]. destruct l as [|a [|b m]]; [exact Z|exact Z|]. cbn [map trapezoid] in *. rewrite (IH (b :: m)). clear IH.
    destruct (match t with [] => _ | _ => _ end) as [w|]; destruct a as [p|], b as [q|]; cbn [panel option_map]; try reflexivity. f_equal.
    replace (/ 2 * (U * y - U * x))%R with (U * (/ 2 * (y - x)))%R by ring. rewrite RtoC_mul. ring.
  Qed.
  Lemma inner_units v f x w : v <> 0%R -> inner (U * v) f (U * x) w = inner v f x w.
  Proof. intros V. unfold inner. do 3 f_equal. pose proof U_pos. field. split; lra. Qed.
  Lemma cell_units xs sp v f : phase_shift_cell (map (Rmult U) xs) sp (U * v) f = option_map (Rmult U) (phase_shift_cell xs sp v f).
  Proof.
    pose proof U_pos as H. unfold phase_shift_cell. destruct (Req_EM_T (U * v) 0) as [E|E], (Req_EM_T v 0) as [V|V].
    - destruct xs as [|x [|y t]]; cbn [map option_map]; try reflexivity; f_equal; ring.
    - exfalso. apply Rmult_integral in E as [E|E]; lra.
    - exfalso. apply E. rewrite V. ring.
    - rewrite trapezoid_units. replace (map2 (inner (U * v) f) (map (Rmult U) xs) sp) with (map2 (inner v f) xs sp).
      + destruct (trapezoid xs _) as [z|]; [|reflexivity]. cbn [option_map]. f_equal. rewrite Cmod_mul, Cmod_real by lra. reflexivity.
      + revert sp. clear - V H. induction xs as [|x xs IH]; intros [|w sp]; try reflexivity. cbn [map map2]. rewrite IH. f_equal. unfold inner. do 3 f_equal. field. split; lra.
  Qed.
  Lemma phase_units a vels fl fh : phase_shift (mu a) (g vels) fl fh = outcome_map (fun r => (fst r, map (map (option_map (Rmult U))) (snd r))) (phase_shift a vels fl fh).
  Proof.
    unfold phase_shift. rewrite kept_units. destruct (BeamModel.kept a fl fh) as [kk|] eqn:K; [|reflexivity]. cbn [bind].
    assert (N : sensors a <> []) by (intros E; unfold BeamModel.kept in K; rewrite E in K; discriminate). rewrite flipped_units by assumption. destruct (flipped a) as [tm offs]. cbn [fst snd outcome_map]. do 2 f_equal.
    rewrite !map_map. apply map_ext. intros v. rewrite map_map. apply map_ext. intros jf. rewrite toR_mul, <- cell_units. f_equal. rewrite map_map. apply map_ext. intros x. apply toR_mul.
  Qed.

  (** * Beamforming *)
  Lemma steer_units angle st f v xs : v <> 0%R -> steer_vector angle st f (U * v) (map (Rmult U) xs) = steer_vector angle st f v xs.
  Proof. intros V. unfold steer_vector. rewrite map_map. apply map_ext. intros x. do 3 f_equal. pose proof U_pos. field. split; lra. Qed.
  Lemma weigh_by z m : forall w, weigh m (map (map (Rmult z)) w) = map (map (Cmul (RtoC z))) (weigh m w).
  Proof.
    unfold weigh. induction m as [|r m IH]; intros [|x w]; try reflexivity. cbn [map map2]. rewrite IH. f_equal. clear. revert x. induction r as [|p r IH]; intros [|y x]; try reflexivity.
    cbn [map map2]. rewrite IH, RtoC_mul. f_equal. ring.
  Qed.
  Definition sqrt_weighting (wt : option string) : bool := match wt with Some w => String.eqb w "sqrt" | None => false end.
  Lemma geometric_units wt xs : geometric wt (map (Rmult U) xs) = if sqrt_weighting wt then map (map (Rmult (U * U))) (geometric wt xs) else geometric wt xs.
  Proof.
    unfold geometric, sqrt_weighting. destruct wt as [w|]; [destruct (String.eqb w "sqrt")|]; rewrite !map_map; apply map_ext; intros x; rewrite ?map_map; [|reflexivity|reflexivity].
    apply map_ext. intros y. ring.
  Qed.
  Lemma beam_cell_units angle wt st xs t v f : fdbf_cell angle wt st (map (Rmult U) xs) t (U * v) f =
    if sqrt_weighting wt then option_map (Cmul (RtoC (U * U))) (fdbf_cell angle wt st xs t v f) else fdbf_cell angle wt st xs t v f.
  Proof.
    pose proof U_pos as H. unfold fdbf_cell. destruct (Req_EM_T (U * v) 0) as [E|E], (Req_EM_T v 0) as [V|V].
    - now destruct (sqrt_weighting wt).
    - exfalso. apply Rmult_integral in E as [E|E]; lra.
    - exfalso. apply E. rewrite V. ring.
    - destruct (weighted_spectra wt t) as [t'|]; [|now destruct (sqrt_weighting wt)]. rewrite steer_units by exact V. rewrite geometric_units. destruct (sqrt_weighting wt); [|reflexivity].
      cbn [option_map]. now rewrite weigh_by, quadratic_times.
  Qed.
  Lemma beam_units angle wt st a vels fl fh : fdbf angle wt st (mu a) (g vels) fl fh =
    outcome_map (fun r => (fst r, if sqrt_weighting wt then map (map (option_map (Cmul (RtoC (U * U))))) (snd r) else snd r)) (fdbf angle wt st a vels fl fh).
  Proof.
    unfold fdbf. rewrite kept_units. destruct (BeamModel.kept a fl fh) as [kk|] eqn:K; [|reflexivity]. cbn [bind].
    assert (N : sensors a <> []) by (intros E; unfold BeamModel.kept in K; rewrite E in K; discriminate). rewrite flipped_units by assumption. destruct (flipped a) as [tm offs]. cbn [fst snd outcome_map]. do 2 f_equal.
    rewrite reals_units. generalize (map toR offs). intros xs. destruct (sqrt_weighting wt) eqn:W; rewrite !map_map; apply map_ext; intros v; rewrite ?map_map; apply map_ext; intros jf; rewrite toR_mul, beam_cell_units, W; reflexivity.
  Qed.

  (** * Peaks *)
  Lemma peaks_units {K} (better : K -> K -> bool) w by_ : find_peak_power better (mkTransform (wn w) (wfrq w) (g (wvel w)) (power w) (to_abs w)) by_ = outcome_map g (find_peak_power better w by_).
  Proof.
    unfold find_peak_power. destruct (String.eqb _ _); [|reflexivity]. cbn [power wvel]. destruct (power w) as [|r p]; [reflexivity|]. apply mapM_outcome. intros j.
    destruct (argbest _ _) as [i|]; [|reflexivity]. cbn [bind]. apply pyget_louder.
  Qed.
End Units.
