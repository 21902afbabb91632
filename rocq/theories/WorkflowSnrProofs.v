(* Proofs about the signal-to-noise ratio in workflows and about the settings left by "fk". *)
From Verif Require Import HeaderFileProofs WorkflowModel WorkflowSpec WorkflowProofs WorkflowGridProofs WorkflowRunProofs WorkflowEffectProofs
  ArraySpec ArrayProofs SeriesSpec SeriesProofs PyFacts NumFacts.
Local Open Scope string_scope.
Local Open Scope nat_scope.
Local Open Scope list_scope.
Local Open Scope py_scope.

(** * Which actions touch noise, signal and ratio *)
Definition array_only (o : action) : Prop :=
  match o with SelectNoise _ _ | SelectSignal _ _ | SignalToNoise _ _ _ _ => False | _ => True end.
Lemma act_array_only E o w w' : array_only o -> act E o w = Ok w' ->
  w_noise w' = w_noise w /\ w_signal w' = w_signal w /\ w_snr w' = w_snr w.
Proof.
  destruct o; cbn [array_only act]; try contradiction; intros _ H.
  - destruct (source_inside _); inversion H; subst; auto.
  - apply on_array_ok in H as (a & _ & ->). auto.
  - inversion H; subst; auto.
  - apply on_array_ok in H as (a & _ & ->). auto.
  - destruct (w_lines w); [apply on_array_ok in H as (a & _ & ->); auto|]. destruct (String.eqb method _); [|discriminate].
    apply bind_ok in H as (l & _ & H). apply bind_ok in H as (a & _ & H). inversion H; subst; auto.
  - apply on_array_ok in H as (a & _ & ->). auto.
  - apply on_array_ok in H as (a & _ & ->). auto.
Qed.
Lemma perform_array_only E l : forall w w', Forall array_only l -> perform E l w = Ok w' ->
  w_noise w' = w_noise w /\ w_signal w' = w_signal w /\ w_snr w' = w_snr w.
Proof.
  induction l as [|o l IH]; intros w w' F H; cbn [perform] in H; [inversion H; auto|]. apply bind_ok in H as (w1 & H1 & H). inversion F; subst.
  destruct (act_array_only E o w w1) as (A & B & C); auto. destruct (IH w1 w') as (A' & B' & C'); auto. repeat split; congruence.
Qed.
Lemma act_keeps_snr E o w w' : (forall fl fh pad df, o <> SignalToNoise fl fh pad df) -> act E o w = Ok w' -> w_snr w' = w_snr w.
Proof.
  intros N H. destruct o; try (now destruct (fun A => act_array_only E _ w w' A H) as (_ & _ & S)); cbn [act] in H.
  - destruct (w_noise w); [inversion H; auto|]. apply bind_ok in H as (c & _ & H). apply bind_ok in H as (c' & _ & H). inversion H; auto.
  - destruct (w_signal w); [inversion H; auto|]. apply bind_ok in H as (c & _ & H). apply bind_ok in H as (c' & _ & H). inversion H; auto.
  - now destruct (N fl fh pad df).
Qed.
Lemma perform_keeps_snr E l : forall w w', (forall fl fh pad df, ~ In (SignalToNoise fl fh pad df) l) -> perform E l w = Ok w' -> w_snr w' = w_snr w.
Proof.
  induction l as [|o l IH]; intros w w' N H; cbn [perform] in H; [inversion H; auto|]. apply bind_ok in H as (w1 & H1 & H).
  rewrite (IH w1 w'); auto; [|intros; intros Q; eapply N; right; eauto]. eapply act_keeps_snr; eauto. intros fl fh pad df ->. eapply N. left; eauto.
Qed.
Lemma preparation_no_ratio p fl fh pad df : ~ In (SignalToNoise fl fh pad df) (preparation p).
Proof.
  unfold preparation. rewrite !in_app_iff. cbn.
  destruct (given false (a_snr p)), (given false (a_trim p)), (given false (a_mute p)); cbn; intuition discriminate.
Qed.
Lemma padding_array_only p : Forall array_only (padding p).
Proof. unfold padding. destruct (given false (a_pad p)); cbn; repeat constructor. Qed.

(** After all steps, the object has a ratio exactly if one was asked for. *)
Lemma plan_ratio E p a w : perform E (plan p) (started a) = Ok w ->
  if given false (a_snr p) then exists r, w_snr w = Some r else w_snr w = None.
Proof.
  unfold plan. rewrite perform_app. intros H. apply bind_ok in H as (w1 & H1 & H). rewrite perform_app in H. apply bind_ok in H as (w2 & H2 & H).
  destruct (perform_array_only E _ _ _ (padding_array_only p) H) as (_ & _ & ->).
  apply perform_keeps_snr in H1; [|apply preparation_no_ratio]. unfold ratio in H2. destruct (given false (a_snr p)); cbn [when perform] in H2.
  - rewrite bind_id in H2. cbn [act] in H2. destruct (w_signal w1), (w_noise w1); try discriminate.
    destruct (snr_from_arrays _ _ _ _ _ _ _) as [[s' n'] [r|]]; inversion H2. cbn. eauto.
  - inversion H2; subst. rewrite H1. reflexivity.
Qed.
(** The whole time-domain workflow. *)
Lemma time_domain_result E f p : run_time_domain E f (create_settings_dict p) =
  match (do a <- load E f; perform E (plan p) (started a)) with
  | Err e => (create_settings_dict p, Err e)
  | Ok w =>
      match lookup (given "fdbf" (a_transform p)) (e_transforms E) with
      | None => (create_settings_dict p, Err KeyError)
      | Some c => let (proc', r) := c (w_array w) (processing p) in
                  (replace_entry (create_settings_dict p) ["processing"] proc', do t <- r; Ok (mkOutcome t (w_array w) (w_snr w)))
      end
  end.
Proof.
  rewrite time_domain_act. destruct (bind (load E f) _) as [w|e] eqn:P; cbn [or_stop]; [|reflexivity].
  apply bind_ok in P as (a & _ & P). pose proof (plan_ratio E p a w P) as R. unfold finish. rewrite !settings_created, item_processing. cbn [bind].
  replace (item (processing p) "transform") with (Ok (JStr (given "fdbf" (a_transform p)))) by reflexivity. cbn [bind str].
  destruct (lookup _ (e_transforms E)) as [c|]; [|reflexivity]. destruct (c (w_array w) (processing p)) as [proc' r]. rewrite put_settings.
  replace (replace_entry (settings p (processing p)) ["processing"] proc') with (settings p proc') by reflexivity.
  f_equal. apply bind_ext; intros t. unfold reported_snr.
  replace (item (settings p proc') "signal-to-noise") with (item (create_settings_dict p) "signal-to-noise") by reflexivity.
  cbn [create_settings_dict item lookup String.eqb Ascii.eqb Bool.eqb bind jbool truth].
  destruct (given false (a_snr p)); [destruct R as [x ->]|rewrite R]; reflexivity.
Qed.

(** * The ratio of the frequency-domain workflow is that of its first file *)
Lemma act_kept E o w w' n s : w_noise w = Some n -> w_signal w = Some s -> (forall fl fh pad df, o <> SignalToNoise fl fh pad df) ->
  act E o w = Ok w' -> w_noise w' = Some n /\ w_signal w' = Some s.
Proof.
  intros Hn Hs N H. destruct o; try (destruct (fun A => act_array_only E _ w w' A H) as (-> & -> & _); [exact I|now auto]); cbn [act] in H.
  - rewrite Hn in H. inversion H; subst; auto.
  - rewrite Hs in H. inversion H; subst; auto.
  - now destruct (N fl fh pad df).
Qed.
Lemma perform_kept E l : forall w w' n s, w_noise w = Some n -> w_signal w = Some s -> (forall fl fh pad df, ~ In (SignalToNoise fl fh pad df) l) ->
  perform E l w = Ok w' -> w_noise w' = Some n /\ w_signal w' = Some s.
Proof.
  induction l as [|o l IH]; intros w w' n s Hn Hs N H; cbn [perform] in H; [inversion H; subst; auto|]. apply bind_ok in H as (w1 & H1 & H).
  destruct (act_kept E o w w1 n s) as [A B]; auto; [intros fl fh pad df ->; eapply N; left; eauto|].
  apply (IH w1 w'); auto. intros fl fh pad df Q. eapply N; right; eauto.
Qed.
Lemma files_no_ratio p fl fh pad df : ~ In (SignalToNoise fl fh pad df) (preparation p ++ padding p).
Proof.
  rewrite in_app_iff. intros [H|H]; [now apply preparation_no_ratio in H|].
  pose proof (padding_array_only p) as F. rewrite Forall_forall in F. now apply F in H.
Qed.
Lemma perform_one E o w : perform E [o] w = act E o w.
Proof. cbn [perform]. now rewrite bind_id. Qed.
Lemma preparation_selects E p w w' : given false (a_snr p) = true -> perform E (preparation p) w = Ok w' ->
  exists n s, w_noise w' = Some n /\ w_signal w' = Some s.
Proof.
  intros Sn H. unfold preparation in H. rewrite Sn in H. cbn [when] in H.
  rewrite perform_app in H. apply bind_ok in H as (w1 & _ & H). rewrite perform_app in H. apply bind_ok in H as (w2 & H2 & H).
  rewrite perform_app in H. apply bind_ok in H as (w3 & H3 & H). rewrite perform_app in H. apply bind_ok in H as (w4 & H4 & H).
  rewrite perform_one in H2, H. cbn [act] in H2, H.
  assert (N2 : exists n, w_noise w2 = Some n).
  { destruct (w_noise w1) as [n|] eqn:Wn; [inversion H2; subst; eauto|]. apply bind_ok in H2 as (c & _ & H2). apply bind_ok in H2 as (c' & _ & H2).
    inversion H2; cbn; eauto. }
  destruct N2 as [n N2].
  assert (N3 : w_noise w3 = Some n).
  { destruct (perform_array_only E (when (given false (a_trim p)) [TrimTime (given 0%Qc (a_trim_begin p)) (given 1%Qc (a_trim_end p))]) w2 w3) as (A & _); auto; [|congruence].
    destruct (given false (a_trim p)); cbn; repeat constructor. }
  assert (N4 : w_noise w4 = Some n).
  { destruct (perform_array_only E (when (given false (a_mute p)) [MutePicked (given "interactive" (a_method p))]) w3 w4) as (A & _); auto; [|congruence].
    destruct (given false (a_mute p)); cbn; repeat constructor. }
  exists n. destruct (w_signal w4) as [s|] eqn:Ws; [inversion H; subst; eauto|]. apply bind_ok in H as (c & _ & H). apply bind_ok in H as (c' & _ & H).
  inversion H; cbn; eauto.
Qed.
Lemma ratio_depends E p w v : w_noise v = w_noise w -> w_signal v = w_signal w -> given false (a_snr p) = true ->
  forall w', perform E (ratio p) w = Ok w' -> exists v', perform E (ratio p) v = Ok v' /\ w_snr v' = w_snr w'.
Proof.
  intros N S Sn w' H. unfold ratio in *. rewrite Sn in *. cbn [when] in *. rewrite perform_one in *. cbn [act] in *. rewrite N, S.
  destruct (w_signal w), (w_noise w); try discriminate. destruct (snr_from_arrays _ _ _ _ _ _ _) as [[s' n'] [r|]]; [|discriminate].
  inversion H. eexists; split; eauto.
Qed.
Lemma successive_kept E p : forall l w ws n s, successive E p w l ws -> w_noise w = Some n -> w_signal w = Some s ->
  w_noise (last ws w) = Some n /\ w_signal (last ws w) = Some s.
Proof.
  induction l as [|x l IH]; intros w [|w1 ws] n s H Hn Hs; try (now destruct H); auto. destruct H as [(a & _ & P) H]. rewrite last_shift.
  destruct (perform_kept E _ _ w1 n s (Hn : w_noise (set_array w a) = Some n) Hs (files_no_ratio p) P). eapply IH; eauto.
Qed.
Lemma frequency_ratio E geomspace g p f st' o x l :
  lookup "empty" (e_transforms E) = Some (empty_class geomspace) -> lookup (given "fdbf" (a_transform p)) (e_transforms E) = Some (reading g) ->
  run_frequency_domain E f (create_settings_dict p) = (st', Ok o) -> iterate f = x :: l -> given false (a_snr p) = true ->
  exists a w, load E (Name x) = Ok a /\ perform E (preparation p ++ ratio p) (started a) = Ok w /\ r_snr o = w_snr w.
Proof.
  intros He Hc H If Sn. destruct (frequency_ok E geomspace g p He Hc f st' o H) as (_ & f0 & rest & ex & st & e & ws & ts & Ef & _ & _ & _ & _ & S & _ & _ & _ & R).
  rewrite If in Ef. inversion Ef; subst f0 rest. rewrite If in S. destruct ws as [|w1 ws]; [destruct S|]. destruct S as [(a & La & P) S].
  rewrite Sn in R. destruct R as (w & R & Rs). exists a. change (set_array (started ex) a) with (started a) in P.
  rewrite perform_app in P. apply bind_ok in P as (w0 & P0 & P1).
  destruct (preparation_selects E p _ _ Sn P0) as (n & s & Hn & Hs).
  destruct (perform_array_only E _ _ _ (padding_array_only p) P1) as (A & B & _).
  rewrite last_shift in R. destruct (successive_kept E p _ _ _ n s S) as [C D]; [congruence..|].
  destruct (ratio_depends E p (last ws w1) w0) with (w' := w) as (v & V & Vs); auto; [congruence..|].
  exists v. split; auto. split; [|congruence]. rewrite perform_app, P0. exact V.
Qed.

(** * Trimming the beginning and asking for a ratio exclude each other *)
Definition delayed (b : Qc) (a : array) : Prop := sensors a <> [] /\ forall s, In s (sensors a) -> delay (ser s) = b.
Lemma copy_refuses b a : (0 < b)%Qc -> delayed b a -> copy_array a = Err ValueError.
Proof.
  intros Hb (N & D). unfold copy_array. destruct (sensors a) as [|s l]; [congruence|]. cbn [mapM].
  replace (copy_sensor s) with (@Err sensor ValueError); [reflexivity|]. unfold copy_sensor, new_sensor, new_series. destruct (_ <=? 0)%Z; auto.
  rewrite (D s (or_introl eq_refl)). apply Qcltb_lt in Hb. now rewrite Hb.
Qed.
Lemma trim_delayed a b e a' : sensors a <> [] -> array_trim a b e = (a', Ok tt) -> delayed b a'.
Proof.
  intros N H. unfold array_trim in H. destruct (for_each _ _) as [l r] eqn:F. inversion H; subst. apply for_each_ok in F.
  split; cbn; [intros ->; inversion F; congruence|]. intros s' I. clear N H. induction F as [|x y l1 l2 Q F IH]; [destruct I|].
  destruct I as [<-|I]; auto. clear -Q. unfold sensor_trim in Q. destruct (trim (ser x) b e) as [t r] eqn:T. inversion Q; subst. cbn.
  unfold trim in T. destruct (base_trim (ser x) b e) as [t' [u|]]; [|discriminate]. now inversion T.
Qed.
Lemma mute_loop_delay taper n b : forall idx l, (forall s, In s l -> delay (ser s) = b) -> forall s, In s (fst (mute_loop taper n idx l)) -> delay (ser s) = b.
Proof.
  induction idx as [|[i j] idx IH]; intros [|x l] H s I; cbn [mute_loop fst] in I; try (now destruct I); auto.
  unfold mute_sensor in I. destruct (bind _ _) as [w|].
  - destruct (mute_loop taper n idx l) as [t' r] eqn:M. cbn [fst] in I. destruct I as [<-|I]; [cbn; apply H; now left|].
    apply (IH l); [intros; apply H; now right|]. now rewrite M.
  - cbn [fst] in I. apply H. exact I.
Qed.
Lemma mute_loop_length taper n : forall idx l, List.length (fst (mute_loop taper n idx l)) = List.length l.
Proof.
  induction idx as [|[i j] idx IH]; intros [|x l]; cbn [mute_loop fst]; auto. unfold mute_sensor. destruct (bind _ _) as [w|]; auto.
  specialize (IH l). destruct (mute_loop taper n idx l). cbn in *. now rewrite IH.
Qed.
Lemma mute_delayed b a taper ss se : delayed b a -> delayed b (fst (mute a taper ss se)).
Proof.
  intros (N & D). unfold mute. destruct (sensors a) as [|s0 l] eqn:Es; [congruence|]. rewrite <- Es in *.
  destruct (Qceqb _ 0); [now split|]. destruct (bind _ _) as [idx|]; [|now split].
  pose proof (mute_loop_length taper (nsamples (ser s0)) idx (sensors a)) as L. pose proof (mute_loop_delay taper (nsamples (ser s0)) b idx (sensors a) D) as X.
  destruct (mute_loop _ _ _ _) as [l' r]. cbn [fst] in *. split; cbn; auto. intros ->. destruct (sensors a); [congruence|discriminate].
Qed.
Lemma nonempty_kept E o w w' : act E o w = Ok w' ->
  (match o with KeepOffsets _ _ | RemoveTrend | RefuseInside | SelectNoise _ _ => True | _ => False end) ->
  sensors (w_array w) <> [] -> sensors (w_array w') <> [].
Proof.
  destruct o; try contradiction; intros H C N; try contradiction; clear C; cbn [act] in H.
  - destruct (source_inside _); inversion H; subst; auto.
  - apply on_array_ok in H as (a & L & ->). unfold limit_offsets in L. cbn. destruct (offsets_loop _ _ _) eqn:O; inversion L; subst. cbn. discriminate.
  - inversion H; subst. cbn. destruct (sensors (w_array w)); [congruence|discriminate].
  - destruct (w_noise w); [inversion H; subst; auto|]. apply bind_ok in H as (c & _ & H). apply bind_ok in H as (c' & _ & H). inversion H; subst; auto.
Qed.
Lemma preparation_impossible E p w w' : given false (a_snr p) = true -> given false (a_trim p) = true -> (0 < given 0%Qc (a_trim_begin p))%Qc ->
  sensors (w_array w) <> [] -> w_signal w = None -> perform E (preparation p) w <> Ok w'.
Proof.
  intros Sn Tr Pos N Ws H. unfold preparation in H. rewrite Sn, Tr in H. cbn [when] in H.
  rewrite perform_app in H. apply bind_ok in H as (w1 & H1 & H).
  cbn [perform] in H1. apply bind_ok in H1 as (wa & Ha & H1). apply bind_ok in H1 as (wb & Hb & H1). apply bind_ok in H1 as (wc & Hc & H1). inversion H1; subst wc.
  pose proof (nonempty_kept E _ _ _ Ha I N) as Na. pose proof (nonempty_kept E _ _ _ Hb I Na) as Nb. pose proof (nonempty_kept E _ _ _ Hc I Nb) as Nc.
  destruct (act_array_only E RefuseInside w wa I Ha) as (_ & Sa & _). destruct (act_array_only E _ wa wb (I : array_only (KeepOffsets _ _)) Hb) as (_ & Sb & _).
  destruct (act_array_only E _ wb w1 (I : array_only RemoveTrend) Hc) as (_ & Sc & _).
  rewrite perform_app in H. apply bind_ok in H as (w2 & H2 & H). rewrite perform_one in H2.
  pose proof (nonempty_kept E _ _ _ H2 I Nc) as N2.
  assert (S2 : w_signal w2 = None).
  { cbn [act] in H2. destruct (w_noise w1); [inversion H2; subst; congruence|]. apply bind_ok in H2 as (c & _ & H2). apply bind_ok in H2 as (c' & _ & H2).
    inversion H2; subst; cbn. congruence. }
  rewrite perform_app in H. apply bind_ok in H as (w3 & H3 & H). rewrite perform_one in H3.
  destruct (act_array_only E _ w2 w3 (I : array_only (TrimTime _ _)) H3) as (_ & S3 & _).
  cbn [act] in H3. apply on_array_ok in H3 as (a3 & T3 & E3). apply trim_delayed in T3; auto.
  rewrite perform_app in H. apply bind_ok in H as (w4 & H4 & H).
  assert (X : delayed (given 0%Qc (a_trim_begin p)) (w_array w4) /\ w_signal w4 = None).
  { destruct (given false (a_mute p)); cbn [when perform] in H4; [|inversion H4; subst w4; split; [now rewrite E3|congruence]].
    rewrite bind_id in H4. destruct (act_array_only E _ w3 w4 (I : array_only (MutePicked _)) H4) as (_ & S4 & _). split; [|congruence].
    cbn [act] in H4. rewrite E3 in H4. cbn [set_array w_lines w_array] in H4. destruct (w_lines w2) as [ln|].
    - apply on_array_ok in H4 as (a4 & M & ->). cbn. pose proof (mute_delayed _ a3 (e_taper E default_window) (Some (fst ln)) (Some (snd ln)) T3) as Q.
      now rewrite M in Q.
    - destruct (String.eqb _ _); [|discriminate]. apply bind_ok in H4 as (ln & _ & H4). apply bind_ok in H4 as (a4 & M & H4). inversion H4; subst; cbn.
      apply changed_ok in M. pose proof (mute_delayed _ a3 (e_taper E default_window) (Some (fst ln)) (Some (snd ln)) T3) as Q. now rewrite M in Q. }
  destruct X as [D S4]. rewrite perform_one in H. cbn [act] in H. rewrite S4, (copy_refuses _ _ Pos D) in H. discriminate.
Qed.
Lemma time_domain_impossible E f p o : given false (a_snr p) = true -> given false (a_trim p) = true -> (0 < given 0%Qc (a_trim_begin p))%Qc ->
  snd (run_time_domain E f (create_settings_dict p)) <> Ok o.
Proof.
  intros Sn Tr Pos H. rewrite time_domain_act in H. destruct (bind (load E f) _) as [w|e] eqn:P; cbn [or_stop] in H; [|discriminate].
  apply bind_ok in P as (a & L & P). unfold plan in P. rewrite perform_app in P. apply bind_ok in P as (w1 & P1 & _).
  apply (preparation_impossible E p (started a) w1) in P1; auto. now destruct (load_sorted E f a L).
Qed.
Lemma frequency_impossible E f p o : given false (a_snr p) = true -> given false (a_trim p) = true -> (0 < given 0%Qc (a_trim_begin p))%Qc ->
  snd (run_frequency_domain E f (create_settings_dict p)) <> Ok o.
Proof.
  intros Sn Tr Pos H. unfold run_frequency_domain in H. destruct (iterate f) as [|x l]; [discriminate|].
  change (pyget (x :: l) 0) with (Ok x) in H. cbn [bind] in H.
  destruct (example_array E (create_settings_dict p) x) as [ex|] eqn:Ex; cbn [bind or_stop snd] in H; [|discriminate].
  destruct (lookup "empty" (e_transforms E)) as [c|]; cbn [or_stop snd] in H; [|discriminate].
  rewrite settings_created, item_processing in H. cbn [bind or_stop] in H.
  destruct (c ex (processing p)) as [proc' r]. rewrite put_settings in H. destruct (bind r _) as [[run c']|]; cbn [or_stop snd] in H; [|discriminate].
  cbn [file_loop] in H. rewrite file_act in H. destruct (load E (Name x)) as [a|] eqn:L; cbn [bind or_stop snd] in H; [|discriminate].
  destruct (negb _); cbn [bind or_stop snd] in H; [discriminate|].
  destruct (perform E (preparation p ++ padding p) (set_array (started ex) a)) as [w|] eqn:P; cbn [bind or_stop snd] in H; [|discriminate].
  rewrite perform_app in P. apply bind_ok in P as (w1 & P1 & _). apply (preparation_impossible E p _ w1) in P1; auto. now destruct (load_sorted E _ a L).
Qed.
Lemma masw_impossible E f p o : given false (a_snr p) = true -> given false (a_trim p) = true -> (0 < given 0%Qc (a_trim_begin p))%Qc ->
  snd (masw_run E f (create_settings_dict p)) <> Ok o.
Proof.
  intros Sn Tr Pos. unfold masw_run. destruct (bind (item (create_settings_dict p) "workflow") _) as [[]|]; cbn [or_stop]; try discriminate.
  - unfold run_single. destruct f as [s|[|s [|s' l]]]; try (now apply time_domain_impossible). discriminate.
  - now apply time_domain_impossible.
  - now apply frequency_impossible.
Qed.

(** * The settings after "fk" *)
Lemma fk_settings E geomspace ss ps fd f p a w :
  e_transforms E = swprocess_transforms geomspace ss ps fd -> a_transform p = Some "fk" ->
  load E f = Ok a -> perform E (plan p) (started a) = Ok w ->
  fst (run_time_domain E f (create_settings_dict p)) = create_settings_dict (with_fk p).
Proof.
  intros Et Ht L P. rewrite time_domain_result, L. cbn [bind]. rewrite P, Et, Ht.
  change (lookup (given "fdbf" (Some "fk")) (swprocess_transforms geomspace ss ps fd)) with (Some (fk_class fd)). cbv iota. unfold fk_class.
  reflexivity.
Qed.
