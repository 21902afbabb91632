(* Proofs: phase-shift and beamforming images of a survey recorded with another gain. *)
From Verif Require Import NumFacts PyFacts ArrayModel TransformModel BeamModel BeamSpec BeamProofs BeamArrayProofs GainSpec GainProofs.
From Coq Require Import Lra.
Local Open Scope nat_scope.
Local Open Scope list_scope.

Section Scale.
  Variable k : C.
  Notation G := (map (map (Cmul k))).
  Lemma sum_times l : Csum (map (Cmul k) l) = Cmul k (Csum l).
  Proof. rewrite (Csum_map_mul k (fun x => x)). now rewrite map_id. Qed.
  Lemma nth_times i l : nth i (map (Cmul k) l) C0 = Cmul k (nth i l C0).
  Proof. rewrite <- (map_nth (Cmul k)). f_equal. ring. Qed.
  Lemma weigh_times m : forall w, weigh (G m) w = G (weigh m w).
  Proof.
    unfold weigh. induction m as [|r m IH]; intros [|x w]; try reflexivity. cbn [map map2]. rewrite IH. f_equal. clear. revert x. induction r as [|u r IH]; intros [|y x]; try reflexivity.
    cbn [map map2]. rewrite IH. f_equal. ring.
  Qed.
  Lemma left_times st i : forall m, Csum (map2 (fun s row => Cmul (Cconj s) (nth i row C0)) st (G m)) = Cmul k (Csum (map2 (fun s row => Cmul (Cconj s) (nth i row C0)) st m)).
  Proof. induction st as [|s st IH]; intros [|r m]; cbn [map map2]; rewrite ?Csum_nil, ?Csum_cons; try ring. rewrite IH, nth_times. ring. Qed.
  Lemma pair_times l : forall m, Csum (map2 Cmul (map (Cmul k) l) m) = Cmul k (Csum (map2 Cmul l m)).
  Proof. induction l as [|x l IH]; intros [|y m]; cbn [map map2]; rewrite ?Csum_nil, ?Csum_cons; try ring. rewrite IH. ring. Qed.
  Lemma quadratic_times st m : quadratic st (G m) = Cmul k (quadratic st m).
  Proof. unfold quadratic. rewrite <- pair_times. f_equal. f_equal. rewrite map_map. apply map_ext. intros i. apply left_times. Qed.
End Scale.

Section Gain.
  Variable c : Qc.
  Notation k := (RtoC (toR c)).
  Notation K := (RtoC (toR c * toR c)).
  Lemma K_k u v : Cmul (Cmul k u) (Cconj (Cmul k v)) = Cmul K (Cmul u (Cconj v)).
  Proof. rewrite Cconj_mul, Cconj_real, RtoC_mul. ring. Qed.
  Lemma cross_louder l : forall m, Csum (map2 (fun u v => Cmul u (Cconj v)) (map (Cmul k) l) (map (Cmul k) m)) = Cmul K (Csum (map2 (fun u v => Cmul u (Cconj v)) l m)).
  Proof. induction l as [|x l IH]; intros [|y m]; cbn [map map2]; rewrite ?Csum_nil, ?Csum_cons; try ring. rewrite IH, K_k. ring. Qed.
  Lemma sscm_louder t : sscm (map (map (Cmul k)) t) = map (map (Cmul K)) (sscm t).
  Proof. unfold sscm. rewrite !map_map. apply map_ext. intros l. rewrite !map_map. apply map_ext. intros m. rewrite cross_louder, map_length. ring. Qed.
  Lemma kept_louder a fl fh : BeamModel.kept (louder c a) fl fh = BeamModel.kept a fl fh.
  Proof.
    unfold BeamModel.kept. cbn [louder sensors]. destruct (sensors a) as [|s l]; [reflexivity|]. cbn [map]. change (ser (louder_sensor c s)) with (louder_series c (ser s)). now rewrite louder_n, louder_df.
  Qed.
  Lemma spectra_louder tm i : map (fun r => [dft r i]) (map (map (Qcmult c)) tm) = map (map (Cmul k)) (map (fun r => [dft r i]) tm).
  Proof. rewrite !map_map. apply map_ext. intros r. cbn [map]. now rewrite dft_scale. Qed.

  Hypothesis P : (0 < c)%Qc.
  Lemma real_pos : (0 < toR c)%R.
  Proof. rewrite <- toR_0. now apply toR_lt. Qed.
  Lemma phase_louder a vels fl fh : phase_shift (louder c a) vels fl fh = phase_shift a vels fl fh.
  Proof.
    apply phase_shift_rescaled; [|reflexivity]. cbn [louder sensors]. induction (sensors a) as [|s l IH]; constructor; [|exact IH]. exists c. repeat split; assumption.
  Qed.
  Lemma invamp_louder row : invamp_row (map (Cmul k) row) = invamp_row row.
  Proof.
    unfold invamp_row. rewrite map_length, sum_times. set (n := RtoC (/ INR (List.length row))).
    pose proof real_pos as RP. assert (M : Cmod k = toR c) by (apply Cmod_real; apply Rlt_le; exact RP).
    assert (E : Cmod (Cmul (Cmul k (Csum row)) n) = (toR c * Cmod (Cmul (Csum row) n))%R) by (rewrite !Cmod_mul, M; apply Rmult_assoc).
    rewrite E. set (z := Cmod (Cmul (Csum row) n)). destruct (Req_EM_T z 0%R) as [Z|Z], (Req_EM_T (toR c * z)%R 0%R) as [Y|Y]; try reflexivity.
    - exfalso. apply Y. rewrite Z. ring.
    - exfalso. apply Rmult_integral in Y as [Y|Y]; [lra|contradiction].
    - f_equal. rewrite map_map. apply map_ext. intros u. replace (/ (toR c * z))%R with (/ toR c * / z)%R by (field; lra). rewrite RtoC_mul.
      replace (Cmul (Cmul k u) (Cmul (RtoC (/ toR c)) (RtoC (/ z)))) with (Cmul (Cmul k (RtoC (/ toR c))) (Cmul u (RtoC (/ z)))) by ring.
      rewrite <- RtoC_mul, Rinv_r by lra. change (RtoC 1) with C1. ring.
  Qed.
  Lemma cell_invamp angle st xs t v f : fdbf_cell angle (Some "invamp"%string) st xs (map (map (Cmul k)) t) v f = fdbf_cell angle (Some "invamp"%string) st xs t v f.
  Proof.
    unfold fdbf_cell, weighted_spectra. destruct (Req_EM_T v 0); [reflexivity|]. change (String.eqb "invamp" "invamp") with true. cbv iota. rewrite map_map.
    rewrite (map_ext _ invamp_row invamp_louder). reflexivity.
  Qed.
  Lemma cell_louder angle wt st xs t v f : wt <> Some "invamp"%string -> fdbf_cell angle wt st xs (map (map (Cmul k)) t) v f = option_map (Cmul K) (fdbf_cell angle wt st xs t v f).
  Proof.
    intros N. unfold fdbf_cell. destruct (Req_EM_T v 0); [reflexivity|]. assert (W : forall s, weighted_spectra wt s = Some s).
    { intros s. destruct wt as [w|]; [|reflexivity]. cbn [weighted_spectra]. destruct (String.eqb_spec w "invamp") as [E|_]; [|reflexivity]. subst w. congruence. }
    rewrite !W. cbn [option_map]. f_equal. now rewrite sscm_louder, weigh_times, quadratic_times.
  Qed.
  Lemma invamp_image angle st a vels fl fh : fdbf angle (Some "invamp"%string) st (louder c a) vels fl fh = fdbf angle (Some "invamp"%string) st a vels fl fh.
  Proof.
    unfold fdbf. rewrite kept_louder, flipped_louder. destruct (BeamModel.kept a fl fh) as [kk|]; [|reflexivity]. cbn [bind]. destruct (flipped a) as [tm offs]. cbn [fst snd]. do 2 f_equal.
    apply map_ext. intros v. apply map_ext. intros jf. rewrite spectra_louder. apply cell_invamp.
  Qed.
  Lemma beam_image angle wt st a vels fl fh : wt <> Some "invamp"%string ->
    fdbf angle wt st (louder c a) vels fl fh = outcome_map (fun r => (fst r, map (map (option_map (Cmul K))) (snd r))) (fdbf angle wt st a vels fl fh).
  Proof.
    intros N. unfold fdbf. rewrite kept_louder, flipped_louder. destruct (BeamModel.kept a fl fh) as [kk|]; [|reflexivity]. cbn [bind]. destruct (flipped a) as [tm offs]. cbn [outcome_map fst snd]. do 2 f_equal.
    rewrite map_map. apply map_ext. intros v. rewrite map_map. apply map_ext. intros jf. rewrite spectra_louder. now apply cell_louder.
  Qed.
End Gain.
