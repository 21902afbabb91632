(* Proofs: the slant-stack image of a survey seen from the other side, and reading with a negative map_x. *)
From Verif Require Import NumFacts PyFacts HeaderModel HeaderSpec HeaderFileProofs ArrayModel ArraySpec ArrayProofs TransformModel SpectrumModel BeamProofs BeamArrayProofs MirrorSpec MirrorProofs MirrorSlantProofs.
Local Open Scope list_scope.

Lemma opp_scale l : map Qcopp l = map (Qcmult (- (1)))%Qc l.
Proof. apply map_ext. intros x. ring. Qed.
Lemma fft_opp r n k : Cmod (fft_n (map Qcopp r) n k) = Cmod (fft_n r n k).
Proof.
  unfold fft_n. rewrite firstn_map, map_length. replace (map Qcopp (firstn n r) ++ repeat 0%Qc (n - List.length r)) with (map (Qcmult (- (1)))%Qc (firstn n r ++ repeat 0%Qc (n - List.length r))).
  - rewrite dft_scale. unfold Cmod, Cmul, RtoC. cbn [fst snd]. rewrite toR_opp, toR_1. f_equal. ring.
  - rewrite map_app. f_equal. generalize (n - List.length r)%nat. clear. intros m. induction m as [|m IH]; [reflexivity|]. cbn [repeat map]. rewrite IH. f_equal.
Qed.
Lemma image_mirror a vels fl fh fs p : consistent a -> (forall s t, In s (sensors a) -> In t (sensors a) -> multiple (ser s) = multiple (ser t)) ->
  slant_transform a vels fl fh = Ok (fs, p) -> exists p', slant_transform (mirrored a) vels fl fh = Ok (fs, p') /\ map (map Cmod) p' = map (map Cmod) p.
Proof.
  intros C MU. pose proof C as (N & _ & G). unfold slant_transform. change (sensors (mirrored a)) with (rev (map mirrored_sensor (sensors a))).
  destruct (sensors a) as [|s l] eqn:S; [congruence|]. destruct (rev (map mirrored_sensor (s :: l))) as [|t m] eqn:R; [apply (f_equal (@List.length sensor)) in R; rewrite rev_length in R; discriminate|].
  assert (J : In t (map mirrored_sensor (s :: l))) by (apply in_rev; rewrite R; now left). apply in_map_iff in J as (u & <- & J). cbn [mirrored_sensor ser].
  destruct (G u s J (or_introl eq_refl)) as (D & _ & _ & L). rewrite (MU u s J (or_introl eq_refl)). unfold internal_df, nsamples. rewrite D, L.
  destruct (slant_stack a vels) as [rows|] eqn:E; [|discriminate]. cbn [bind]. intros H. destruct (slant_any a vels rows C E) as [-> | ->]; cbn [bind].
  - eexists. split; [exact H|reflexivity].
  - revert H. destruct (Qceqb _ _); [discriminate|]. cbn [bind]. destruct (frequency_keep_ids _ _ _ _) as [ids|]; [|discriminate]. cbn [bind]. destruct (take _ ids) as [fs'|]; [|discriminate]. cbn [bind].
    intros H. injection H as <- <-. eexists. split; [reflexivity|]. rewrite !map_map. apply map_ext. intros r. rewrite !map_map. apply map_ext. intros i. apply fft_opp.
Qed.

Section Map.
  Context {F K : Type} (read : option K -> F -> result (list trace)).
  Lemma from_files_mirror mx my kw f : from_files read (fun x => (- mx x)%Qc) my kw [f] =
    match from_files read mx my kw [f] with Ok a => Ok (mirrored a) | Err e => Err e end.
  Proof.
    unfold from_files. destruct (read kw f) as [st|]; [|reflexivity]. cbn [bind].
    rewrite (mapM_from_trace (fun x => (- mx x)%Qc) my), (mapM_from_trace mx my). destruct (mapM _ st) as [ss|]; [|reflexivity]. cbn [bind].
    destruct (rev st) as [|tr r]; [reflexivity|]. destruct (fmt_of (t_header tr)) as [ff|]; [|reflexivity].
    assert (P : parse_source ff (fun x => (- mx x)%Qc) my tr = match parse_source ff mx my tr with Ok s => Ok (mirrored_source s) | Err e => Err e end).
    { destruct ff; [rewrite !(parse_source_seg2 _ my)| |]; try (rewrite (parse_source_mapped _ (fun x => (- mx x)%Qc)), (parse_source_mapped _ mx) by discriminate);
        destruct (parse_source _ (fun x => x) (fun y => y) tr); reflexivity. }
    rewrite P. destruct (parse_source ff mx my tr) as [s|]; [|reflexivity]. cbn [bind].
    replace (map (map_sensor (fun x => (- mx x)%Qc) my) ss) with (map mirrored_sensor (map (map_sensor mx my) ss)) by (rewrite map_map; reflexivity).
    destruct (new_array (map (map_sensor mx my) ss) s) as [a|e] eqn:A; cbn [bind stack_files]; [now rewrite (new_array_mirror_ok _ _ _ A)|now rewrite (new_array_mirror_err _ _ _ A)].
  Qed.
End Map.

(** * Phase shift and beamforming *)
Lemma kept_mirror a fl fh : consistent a -> (forall s t, In s (sensors a) -> In t (sensors a) -> multiple (ser s) = multiple (ser t)) ->
  BeamModel.kept (mirrored a) fl fh = BeamModel.kept a fl fh.
Proof.
  intros C MU. pose proof C as (N & _ & G). unfold BeamModel.kept. change (sensors (mirrored a)) with (rev (map mirrored_sensor (sensors a))).
  destruct (sensors a) as [|s l] eqn:S; [congruence|]. destruct (rev (map mirrored_sensor (s :: l))) as [|t m] eqn:R; [apply (f_equal (@List.length sensor)) in R; rewrite rev_length in R; discriminate|].
  assert (J : In t (map mirrored_sensor (s :: l))) by (apply in_rev; rewrite R; now left). apply in_map_iff in J as (u & <- & J). cbn [mirrored_sensor ser].
  destruct (G u s J (or_introl eq_refl)) as (D & _ & _ & L). rewrite (MU u s J (or_introl eq_refl)). unfold internal_df, nsamples. now rewrite D, L.
Qed.
Lemma phase_mirror a vels fl fh : consistent a -> (forall s t, In s (sensors a) -> In t (sensors a) -> multiple (ser s) = multiple (ser t)) -> off_end a ->
  BeamModel.phase_shift (mirrored a) vels fl fh = BeamModel.phase_shift a vels fl fh.
Proof. intros C MU O. unfold BeamModel.phase_shift. rewrite kept_mirror by assumption. rewrite flipped_mirror; [reflexivity| |exact O]. now destruct C. Qed.
Lemma beam_mirror angle wt st a vels fl fh : consistent a -> (forall s t, In s (sensors a) -> In t (sensors a) -> multiple (ser s) = multiple (ser t)) -> off_end a ->
  BeamModel.fdbf angle wt st (mirrored a) vels fl fh = BeamModel.fdbf angle wt st a vels fl fh.
Proof. intros C MU O. unfold BeamModel.fdbf. rewrite kept_mirror by assumption. rewrite flipped_mirror; [reflexivity| |exact O]. now destruct C. Qed.
