From Verif Require Import NumFacts PyFacts HeaderFileProofs WorkflowModel WorkflowSpec WorkflowProofs WorkflowGridProofs WorkflowRunProofs WorkflowEffectProofs WorkflowSnrProofs SettingsSpec SettingsProofs.
Local Open Scope string_scope.
Local Open Scope nat_scope.
Local Open Scope list_scope.
Local Open Scope py_scope.

(** ** Settings in which only "processing" differs *)
Lemma lookup_update_same {A} k (v : A) d : lookup k (update k v d) = Some v.
Proof.
  induction d as [|[k1 v1] d IH]; cbn; [now rewrite String.eqb_refl|].
  destruct (String.eqb k k1) eqn:Q; cbn; rewrite Q; auto.
Qed.
Lemma lookup_update_other {A} k k' (v : A) d : k <> k' -> lookup k (update k' v d) = lookup k d.
Proof.
  intros N. induction d as [|[k1 v1] d IH]; cbn.
  - destruct (String.eqb_spec k k'); [contradiction|reflexivity].
  - destruct (String.eqb_spec k' k1) as [->|N1]; cbn; [destruct (String.eqb_spec k k1); [contradiction|reflexivity]|].
    destruct (String.eqb k k1); auto.
Qed.
Lemma put_other st p k t : k <> "processing" -> at_path (put_processing st p) (k :: t) = at_path st (k :: t).
Proof. intros N. destruct st; try reflexivity. cbn. now rewrite lookup_update_other. Qed.
Lemma put_item st p k : k <> "processing" -> item (put_processing st p) k = item st k.
Proof. intros N. destruct st; try reflexivity. cbn. now rewrite lookup_update_other. Qed.
Lemma put_self st p p0 : at_path st ["processing"] = Some p0 -> at_path (put_processing st p) ["processing"] = Some p.
Proof. destruct st; try discriminate. intros _. cbn. now rewrite lookup_update_same. Qed.
Lemma put_replace st p p0 : at_path st ["processing"] = Some p0 -> put_processing st p = replace_entry st ["processing"] p.
Proof. destruct st; try discriminate. cbn. destruct (lookup "processing" d); [reflexivity|discriminate]. Qed.

Lemma asks_alike st st' q :
  (forall t, at_path st' ("pre-processing" :: t) = at_path st ("pre-processing" :: t)) ->
  (forall t, at_path st' ("signal-to-noise" :: t) = at_path st ("signal-to-noise" :: t)) -> asks st q -> asks st' q.
Proof.
  intros P S (A & B & C & D & F & G). unfold asks. repeat split.
  - unfold bound in *. now rewrite P.
  - unfold bound in *. now rewrite P.
  - unfold asks_snr in *. destruct (q_snr q) as [n|]; [|unfold off in *; now rewrite S].
    unfold times, number, switched, on, off in *. cbn [app] in *. destruct (n_pad n), (n_df n); rewrite !S; exact C.
  - unfold asks_trim in *. destruct (q_trim q); unfold times, number, on, off in *; cbn [app] in *; rewrite !P; exact D.
  - unfold asks_mute in *. destruct (q_mute q) as [[m w]|]; unfold on, off in *; rewrite !P; exact F.
  - unfold asks_pad in *. destruct (q_pad q); unfold number, on, off in *; rewrite !P; exact G.
Qed.
Lemma asks_put st p q : asks st q -> asks (put_processing st p) q.
Proof. apply asks_alike; intros t; now apply put_other. Qed.

(** ** The time-domain workflow *)
Lemma carry_app E l l' w : carry_out E (l ++ l') w = do w1 <- carry_out E l w; carry_out E l' w1.
Proof.
  revert w. induction l as [|s l IH]; intros w; cbn [app carry_out bind]; [reflexivity|].
  destruct (carry E s w) as [w1|]; cbn [bind]; [apply IH|reflexivity].
Qed.
Lemma bind_eq {A B} (r r' : result A) (f g : A -> result B) : r = r' -> (forall a, f a = g a) -> bind r f = bind r' g.
Proof. intros -> H. destruct r'; cbn; auto. Qed.
Lemma preparation_asked E st q w : asks st q ->
  (do w <- check w; do w <- offsets_step st w; do w <- detrend_step w;
   do w <- noise_step st w; do w <- time_step st w; do w <- mute_step E st w; signal_step st w) = carry_out E (first_stages q) w.
Proof.
  intros (A & B & C & D & F & _). unfold first_stages. cbn [app carry_out]. apply bind_eq; [reflexivity|]. intros w1.
  apply bind_eq; [now apply offsets_asked|]. intros w2. apply bind_eq; [reflexivity|]. intros w3. rewrite !carry_app.
  rewrite (noise_asked E st w3 _ C). apply bind_eq; [reflexivity|]. intros w4. rewrite carry_app, (trim_asked E st w4 _ D).
  apply bind_eq; [reflexivity|]. intros w5. rewrite carry_app, (mute_asked E st w5 _ F). apply bind_eq; [reflexivity|]. intros w6.
  now apply signal_asked.
Qed.
Lemma bind_assoc' {A B C} (r : result A) (f : A -> result B) (g : B -> result C) :
  bind (bind r f) g = bind r (fun a => bind (f a) g).
Proof. destruct r; reflexivity. Qed.
Lemma steps_asked E st q proc fl fh w : asks st q -> at_path st ["processing"] = Some proc ->
  (q_snr q <> None -> number proc ["fmin"] fl /\ number proc ["fmax"] fh) ->
  (do w <- check w; do w <- offsets_step st w; do w <- detrend_step w;
   do w <- noise_step st w; do w <- time_step st w; do w <- mute_step E st w;
   do w <- signal_step st w; do w <- snr_step E st w; pad_step st w) = carry_out E (stages q fl fh) w.
Proof.
  intros A P N. unfold stages. rewrite carry_app, <- (preparation_asked E st q w A). rewrite !bind_assoc'.
  apply bind_eq; [reflexivity|]. intros w1. rewrite !bind_assoc'. apply bind_eq; [reflexivity|]. intros w2.
  rewrite !bind_assoc'. apply bind_eq; [reflexivity|]. intros w3. rewrite !bind_assoc'. apply bind_eq; [reflexivity|]. intros w4.
  rewrite !bind_assoc'. apply bind_eq; [reflexivity|]. intros w5. rewrite !bind_assoc'. apply bind_eq; [reflexivity|]. intros w6.
  apply bind_eq; [reflexivity|]. intros w7. destruct A as (_ & _ & C & _ & _ & G). rewrite carry_app.
  rewrite (snr_asked E st w7 _ proc fl fh C P N). apply bind_eq; [reflexivity|]. intros w8. now apply pad_asked.
Qed.
(** A ratio is there exactly if it was asked for. *)
Definition no_ratio_stage (s : stage) : Prop :=
  match s with Plain (SignalToNoise _ _ _ _) | Ratio _ _ _ _ => False | _ => True end.
Lemma carry_keeps_snr E s w w' : no_ratio_stage s -> carry E s w = Ok w' -> w_snr w' = w_snr w.
Proof.
  destruct s as [o|m k|]; cbn [no_ratio_stage]; [| |contradiction].
  - intros N H. apply (act_keeps_snr E o w w'); [|exact H]. intros fl fh pad df ->. exact N.
  - intros _ H. cbn [carry] in H. destruct (w_lines w) as [l|].
    + apply on_array_ok in H as (a & _ & ->). reflexivity.
    + destruct m as [| | | |s|]; try discriminate.
      assert (G : (do l <- e_user E (w_array w); do a <- changed (mute (w_array w) (e_taper E default_window) (Some (fst l)) (Some (snd l))); Ok (set_lines (set_array w a) l)) = Ok w' \/ Err KeyError = Ok w').
      { repeat (destruct s as [|[[] [] [] [] [] [] [] []] s]; try (right; exact H)). left. exact H. }
      destruct G as [G|G]; [|discriminate]. apply bind_ok in G as (l & _ & G). apply bind_ok in G as (a & _ & G). now injection G as <-.
Qed.
Lemma carry_out_keeps_snr E l : forall w w', Forall no_ratio_stage l -> carry_out E l w = Ok w' -> w_snr w' = w_snr w.
Proof.
  induction l as [|s l IH]; intros w w' F H; cbn [carry_out] in H; [now injection H as <-|]. apply bind_ok in H as (w1 & H1 & H).
  inversion F; subst. rewrite (IH w1 w'); auto. eapply carry_keeps_snr; eauto.
Qed.
Lemma first_no_ratio q : Forall no_ratio_stage (first_stages q).
Proof. unfold first_stages. destruct (q_snr q), (q_trim q), (q_mute q); cbn; repeat constructor. Qed.
Lemma last_no_ratio q : Forall no_ratio_stage (last_stages q).
Proof. unfold last_stages. destruct (q_pad q); cbn; repeat constructor. Qed.
Lemma stages_ratio E q fl fh a w : carry_out E (stages q fl fh) (started a) = Ok w ->
  match q_snr q with Some _ => exists r, w_snr w = Some r | None => w_snr w = None end.
Proof.
  unfold stages. rewrite !carry_app. intros H. apply bind_ok in H as (w1 & H1 & H). rewrite carry_app in H. apply bind_ok in H as (w2 & H2 & H).
  rewrite (carry_out_keeps_snr E _ _ _ (last_no_ratio q) H). apply (carry_out_keeps_snr E _ _ _ (first_no_ratio q)) in H1.
  destruct (q_snr q) as [n|]; cbn [if_asked] in H2.
  - rewrite carry_one in H2. cbn [carry] in H2. destruct (w_signal w1), (w_noise w1); try discriminate.
    destruct (snr_from_arrays _ _ _ _ _ _ _) as [[s' n'] [r|]]; inversion H2. cbn. eauto.
  - injection H2 as <-. now rewrite H1.
Qed.
Lemma reported_asked st q w : asks st q ->
  match q_snr q with Some _ => exists r, w_snr w = Some r | None => w_snr w = None end -> reported_snr st w = Ok (w_snr w).
Proof.
  intros (_ & _ & C & _) R. unfold reported_snr, asks_snr in *. destruct (q_snr q) as [n|].
  - destruct C as (A & _). do 2 look. here. use. destruct R as [r ->]. reflexivity.
  - do 2 look. here. use. reflexivity.
Qed.
Lemma time_domain_asked E f st q proc name fl fh : asks st q -> at_path st ["processing"] = Some proc ->
  at_path proc ["transform"] = Some (JStr name) -> (q_snr q <> None -> number proc ["fmin"] fl /\ number proc ["fmax"] fh) ->
  run_time_domain E f st =
  match (do a <- load E f; carry_out E (stages q fl fh) (started a)) with
  | Err e => (st, Err e)
  | Ok w =>
      match lookup name (e_transforms E) with
      | None => (st, Err KeyError)
      | Some c => let (proc', r) := c (w_array w) proc in
                  (replace_entry st ["processing"] proc', do t <- r; Ok (mkOutcome t (w_array w) (w_snr w)))
      end
  end.
Proof.
  intros A P T N. unfold run_time_domain. destruct (load E f) as [a|]; [|reflexivity]. cbn [bind].
  rewrite (steps_asked E st q proc fl fh (started a) A P N). destruct (carry_out E (stages q fl fh) (started a)) as [w|] eqn:W; [|reflexivity].
  cbn [or_stop]. unfold finish. rewrite (at_1 _ _ _ P). cbn [bind]. rewrite (at_1 _ _ _ T). cbn [bind str].
  destruct (lookup name (e_transforms E)) as [c|]; [|reflexivity]. destruct (c (w_array w) proc) as [proc' r].
  rewrite <- (put_replace st proc' proc P). apply f_equal. destruct r as [t|]; [|reflexivity]. cbn [bind].
  rewrite (reported_asked (put_processing st proc') q w); [reflexivity|now apply asks_put|]. exact (stages_ratio E q fl fh a w W).
Qed.
