(* Proofs about stacking in the frequency domain. *)
From Verif Require Import HeaderFileProofs DetrendProofs WorkflowModel WorkflowSpec WorkflowProofs ArraySpec ArrayProofs TransformSpec TransformProofs PyFacts NumFacts.
Local Open Scope string_scope.
Local Open Scope nat_scope.
Local Open Scope list_scope.
Local Open Scope py_scope.

(** * Time grids *)
Lemma alike_refl s : alike s s. Proof. repeat split. Qed.
Lemma alike_sym s t : alike s t -> alike t s.
Proof. unfold alike. intuition congruence. Qed.
Lemma alike_trans s t u : alike s t -> alike t u -> alike s u.
Proof. unfold alike. intuition congruence. Qed.
Lemma trim_alike st en s t : alike s t ->
  snd (sensor_trim st en s) = snd (sensor_trim st en t) /\ alike (fst (sensor_trim st en s)) (fst (sensor_trim st en t)).
Proof.
  intros (D & De & L & M). unfold sensor_trim, trim, base_trim.
  assert (T : time (ser s) = time (ser t)) by (unfold time, nsamples; now rewrite D, De, L).
  rewrite <- T. destruct (time (ser s)) as [|t0 ts]; [cbn; repeat split; auto|].
  destruct (_ || _ || _); [cbn; repeat split; auto|].
  destruct (argmin _) as [i|]; [|cbn; repeat split; auto].
  destruct (argmin _) as [j|]; [|cbn; repeat split; auto].
  cbn. repeat split; auto. cbn. rewrite !skipn_length, !firstn_length. lia.
Qed.
Lemma pad_alike df s t : alike s t ->
  snd (sensor_zero_pad df s) = snd (sensor_zero_pad df t) /\ alike (fst (sensor_zero_pad df s)) (fst (sensor_zero_pad df t)).
Proof.
  intros (D & De & L & M). unfold sensor_zero_pad, zero_pad, append_zeros, nsamples. rewrite D, L.
  destruct (Qcleb df 0); [cbn; repeat split; auto|].
  destruct (Qceqb _ 0); [cbn; repeat split; auto|].
  set (N := round_half_even _). set (n := Z.of_nat _).
  destruct (n <? N)%Z.
  - destruct (N - n <? 0)%Z; cbn; repeat split; auto. cbn. rewrite !app_length. lia.
  - destruct (N <? n)%Z; [|cbn; repeat split; auto].
    destruct (N =? 0)%Z; [cbn; repeat split; auto|].
    destruct (n mod N =? 0)%Z; [cbn; repeat split; auto|].
    destruct (N - n mod N <? 0)%Z; cbn; repeat split; auto. cbn. rewrite !app_length. lia.
Qed.
Lemma for_each_like (f : sensor -> sensor * result unit) m a l :
  (forall s t, alike s t -> snd (f s) = snd (f t) /\ alike (fst (f s)) (fst (f t))) ->
  like m a -> for_each f (sensors a) = (l, Ok tt) -> like (fst (f m)) (set_sensors a l).
Proof.
  intros H (N & G) E. apply for_each_ok in E. split; cbn.
  - intros ->. inversion E; congruence.
  - intros s' I. assert (X : exists s, In s (sensors a) /\ f s = (s', Ok tt)).
    { clear -E I. induction E as [|x y l1 l2 Q F IH]; [destruct I|]. destruct I as [<-|I]; [exists x; split; [now left|auto]|].
      destruct (IH I) as (s & J & K). exists s; split; [now right|auto]. }
    destruct X as (s & J & K). replace s' with (fst (f s)) by now rewrite K. apply H, G, J.
Qed.
Lemma array_trim_like m a b e a' : like m a -> array_trim a b e = (a', Ok tt) -> like (fst (sensor_trim b e m)) a'.
Proof.
  intros L H. unfold array_trim in H. destruct (for_each _ _) as [l r] eqn:E. inversion H; subst.
  eapply for_each_like; eauto. intros; now apply trim_alike.
Qed.
Lemma array_pad_like m a df a' : like m a -> array_zero_pad a df = (a', Ok tt) -> like (fst (sensor_zero_pad df m)) a'.
Proof.
  intros L H. unfold array_zero_pad in H. destruct (for_each _ _) as [l r] eqn:E. inversion H; subst.
  eapply for_each_like; eauto. intros; now apply pad_alike.
Qed.
Lemma detrend_like m a : like m a -> like m (array_detrend a).
Proof.
  intros (N & G). split; cbn; [destruct (sensors a); [congruence|discriminate]|].
  intros s' I. apply in_map_iff in I as (s & <- & I). eapply alike_trans; [apply G, I|].
  repeat split. cbn. symmetry. apply DetrendProofs.length_detrend.
Qed.
Lemma offsets_loop_sub mn mx l s : In s (offsets_loop mn mx l) -> In s (map snd l).
Proof.
  induction l as [|[o x] l IH]; cbn [offsets_loop map snd]; auto.
  destruct (flt_lt mn (Fin o) && flt_lt (Fin o) mx), (flt_lt mx (Fin o)); cbn [app In]; intros H; try destruct H as [H|H]; auto; try contradiction.
Qed.
Lemma map_snd_combine {A B} (l : list A) (k : list B) x : In x (map snd (combine l k)) -> In x k.
Proof. intros I. apply in_map_iff in I as ([a b] & <- & I). eapply in_combine_r; eauto. Qed.
Lemma limit_offsets_like m a mn mx a' : like m a -> limit_offsets a mn mx = (a', Ok tt) -> like m a'.
Proof.
  intros (N & G) H. unfold limit_offsets in H.
  assert (S : forall s, In s (offsets_loop mn mx (combine (offsets a) (sensors a))) -> In s (sensors a)).
  { intros s I. apply offsets_loop_sub in I. eapply map_snd_combine; eauto. }
  destruct (offsets_loop _ _ _) as [|s l] eqn:E; inversion H; subst. split; cbn; [discriminate|]. intros; apply G, S; auto.
Qed.
Lemma mute_like m a taper ss se a' : like m a -> mute a taper ss se = (a', Ok tt) -> like m a'.
Proof.
  intros (N & G) H. unfold mute in H. destruct (sensors a) as [|s0 l] eqn:Es; [congruence|].
  destruct (Qceqb _ 0); [discriminate|]. destruct (bind _ _) as [idx|]; [|discriminate].
  destruct (mute_loop taper (nsamples (ser s0)) idx (s0 :: l)) as [l' r] eqn:E. inversion H; subst.
  assert (K : Forall2 only_samples_change (s0 :: l) l').
  { replace l' with (fst (mute_loop taper (nsamples (ser s0)) idx (s0 :: l))) by now rewrite E. apply mute_loop_keeps.
    apply Forall_forall. intros s I. unfold nsamples. destruct (G s I) as (_ & _ & L1 & _), (G s0 (or_introl eq_refl)) as (_ & _ & L2 & _). lia. }
  split; cbn; [intros ->; inversion K|]. intros s' I. clear -K I G.
  revert G. induction K as [|x y l1 l2 Q F IH]; [destruct I|]. intros G. destruct I as [<-|I]; [|apply IH; auto; intros; apply G; now right].
  eapply alike_trans; [apply G; now left|]. destruct Q as (_ & _ & _ & A & _ & B & C & D). repeat split; congruence.
Qed.

(** * One file *)
Definition act_effect (o : action) (m : sensor) : sensor :=
  match o with
  | TrimTime b e => fst (sensor_trim b e m)
  | PadRecords df => fst (sensor_zero_pad df m)
  | _ => m
  end.
Definition effect (l : list action) (m : sensor) : sensor := fold_left (fun m o => act_effect o m) l m.
Definition no_correlation (l : list action) : Prop := forall sa sd vl vh, ~ In (Correlate sa sd vl vh) l.
Lemma changed_ok r a : changed r = Ok a -> r = (a, Ok tt).
Proof. destruct r as [x [[]|e]]; cbn; intros H; inversion H; auto. Qed.
Lemma on_array_ok w r w' : on_array w r = Ok w' -> exists a, r = (a, Ok tt) /\ w' = set_array w a.
Proof. unfold on_array. intros H. apply bind_ok in H as (a & E & H). apply changed_ok in E. inversion H. eauto. Qed.
Lemma act_like E o w w' m : (forall sa sd vl vh, o <> Correlate sa sd vl vh) ->
  like m (w_array w) -> act E o w = Ok w' -> like (act_effect o m) (w_array w').
Proof.
  intros NC L H. destruct o; cbn [act act_effect] in *.
  - destruct (source_inside _); inversion H; subst; auto.
  - apply on_array_ok in H as (a & Ea & ->). eapply limit_offsets_like; eauto.
  - inversion H; subst. now apply detrend_like.
  - destruct (w_noise w); [inversion H; subst; auto|]. apply bind_ok in H as (c & _ & H). apply bind_ok in H as (d & _ & H). inversion H; subst; auto.
  - apply on_array_ok in H as (a & Ea & ->). eapply array_trim_like; eauto.
  - destruct (w_lines w) as [l|].
    + apply on_array_ok in H as (a & Ea & ->). eapply mute_like; eauto.
    + destruct (String.eqb _ _); [|discriminate]. apply bind_ok in H as (l & _ & H). apply bind_ok in H as (a & Ea & H).
      inversion H; subst. apply changed_ok in Ea. cbn. eapply mute_like; eauto.
  - destruct (w_signal w); [inversion H; subst; auto|]. apply bind_ok in H as (c & _ & H). apply bind_ok in H as (d & _ & H). inversion H; subst; auto.
  - destruct (w_signal w), (w_noise w); try discriminate. destruct (snr_from_arrays _ _ _ _ _ _ _) as [[s' n'] [r|e]]; inversion H; subst; auto.
  - exfalso. eapply NC; eauto.
  - apply on_array_ok in H as (a' & Ea & ->). eapply array_pad_like; eauto.
Qed.
Lemma perform_like E l : forall w w' m, no_correlation l -> like m (w_array w) -> perform E l w = Ok w' -> like (effect l m) (w_array w').
Proof.
  induction l as [|o l IH]; intros w w' m NC L H; cbn [perform effect fold_left] in *; [inversion H; subst; auto|].
  apply bind_ok in H as (w1 & H1 & H). apply (IH w1); auto; [intros sa sd vl vh I; eapply NC; right; eauto|].
  eapply act_like; eauto. intros sa sd vl vh ->. eapply NC. left; eauto.
Qed.
Lemma preparation_nc p : no_correlation (preparation p ++ padding p).
Proof.
  intros sa sd vl vh I. unfold preparation, padding in I. rewrite !in_app_iff in I. cbn in I.
  destruct (given false (a_snr p)), (given false (a_trim p)), (given false (a_mute p)), (given false (a_pad p)); cbn in I; intuition discriminate.
Qed.
Lemma preparation_effect p m : effect (preparation p ++ padding p) m =
  effect (when (given false (a_trim p)) [TrimTime (given 0%Qc (a_trim_begin p)) (given 1%Qc (a_trim_end p))] ++ padding p) m.
Proof.
  unfold preparation, padding.
  destruct (given false (a_snr p)), (given false (a_trim p)), (given false (a_mute p)), (given false (a_pad p)); reflexivity.
Qed.
Lemma example_like E p proc f0 ex a m : example_array E (settings p proc) f0 = Ok ex -> load E (Name f0) = Ok a -> like m a ->
  like (effect (preparation p ++ padding p) m) ex.
Proof.
  intros H L K. rewrite preparation_effect. unfold example_array in H. rewrite L in H. cbn [bind] in H.
  replace (item (settings p proc) "pre-processing") with (item (create_settings_dict p) "pre-processing") in H by reflexivity.
  cbn [create_settings_dict item lookup String.eqb Ascii.eqb Bool.eqb bind jbool truth jnum num] in H.
  apply detrend_like in K. unfold padding.
  destruct (given false (a_trim p)); cbn [when app].
  - apply bind_ok in H as (a1 & H1 & H). apply changed_ok in H1. eapply array_trim_like in H1; [|exact K].
    destruct (given false (a_pad p)); cbn [when effect fold_left act_effect].
    + apply changed_ok in H. eapply array_pad_like in H; eauto.
    + inversion H; subst; auto.
  - cbn [bind] in H. destruct (given false (a_pad p)); cbn [when effect fold_left act_effect].
    + apply changed_ok in H. eapply array_pad_like in H; eauto.
    + inversion H; subst; auto.
Qed.
Lemma empty_like geomspace m a b st : like m a -> like m b -> empty_from_array geomspace a st = empty_from_array geomspace b st.
Proof.
  intros (Na & Ga) (Nb & Gb). unfold empty_from_array. destruct (sensors a) as [|s l]; [congruence|]. destruct (sensors b) as [|t k]; [congruence|].
  assert (A : alike s t) by (eapply alike_trans; [apply alike_sym, Ga|apply Gb]; now left). destruct A as (D & _ & L & M).
  unfold internal_df, nsamples. now rewrite D, L, M.
Qed.

(** * The loop *)
Lemma stack_many_cons w o os w' : stack w o = (w', Ok tt) -> stack_many w (o :: os) = stack_many w' os.
Proof. intros H. cbn. now rewrite H. Qed.
Lemma last_shift {A} (l : list A) x d : last (x :: l) d = last l x.
Proof. revert x d. induction l as [|y l IH]; intros x d; auto. change (last (x :: y :: l) d) with (last (y :: l) d). now rewrite IH, (IH y x). Qed.
Lemma file_loop_ok E g p proc ex l : forall w run st' w' t', file_loop E (reading g) ex (settings p proc) w run l = (st', Ok (w', t')) ->
  st' = settings p proc /\
  (forall f, In f l -> exists a, load E (Name f) = Ok a /\ array_similar a ex = true) /\
  exists ws ts, successive E p w l ws /\ Forall2 (fun w t => g (w_array w) proc = Ok t) ws ts /\
    stack_many run (map of_transform ts) = (t', Ok tt) /\ w' = last ws w.
Proof.
  induction l as [|f l IH]; intros w run st' w' t' H; cbn [file_loop] in H.
  - inversion H; subst. split; auto. split; [intros ? []|]. exists [], []. repeat split; constructor.
  - rewrite file_act in H. destruct (load E (Name f)) as [a|] eqn:Ea; cbn [bind or_stop] in H; [|discriminate].
    destruct (array_similar a ex) eqn:Es; cbn [negb bind or_stop] in H; [|discriminate].
    destruct (perform E _ (set_array w a)) as [w1|] eqn:Ew; cbn [bind or_stop] in H; [|discriminate].
    rewrite item_processing in H. cbn [bind or_stop reading] in H. destruct (g (w_array w1) proc) as [t|] eqn:Eg; cbn [bind or_stop] in H; [|discriminate].
    destruct (stack run (of_transform t)) as [s [[]|]] eqn:Est; cbn [or_stop] in H; [|discriminate].
    rewrite put_settings in H. destruct (IH w1 s st' w' t' H) as (I1 & I2 & ws & ts & J1 & J2 & J3 & J4). split; auto. split.
    + intros f' [<-|I]; eauto.
    + exists (w1 :: ws), (t :: ts). split; [split; eauto|]. split; [now constructor|]. split; [cbn [map]; now rewrite (stack_many_cons _ _ _ _ Est)|].
      rewrite J4. symmetry. apply last_shift.
Qed.
Lemma successive_each E p m : forall l w ws, successive E p w l ws ->
  (forall f a, In f l -> load E (Name f) = Ok a -> like m a) ->
  forall w', In w' ws -> like (effect (preparation p ++ padding p) m) (w_array w').
Proof.
  induction l as [|f l IH]; intros w [|w1 ws] S H w' I; try (now destruct S); destruct I as [<-|I].
  - destruct S as ((a & L & P) & S). eapply perform_like; eauto; [apply preparation_nc|]. cbn. apply (H f); auto. now left.
  - destruct S as (_ & S). eapply IH; eauto. intros; eapply H; eauto. now right.
Qed.
