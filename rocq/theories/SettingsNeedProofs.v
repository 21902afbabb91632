From Verif Require Import NumFacts PyFacts HeaderFileProofs WorkflowModel WorkflowSpec WorkflowProofs WorkflowGridProofs WorkflowRunProofs WorkflowEffectProofs WorkflowSnrProofs SettingsSpec SettingsProofs SettingsRunProofs SettingsSameProofs.
Local Open Scope string_scope.
Local Open Scope nat_scope.
Local Open Scope list_scope.
Local Open Scope py_scope.

(** ** A step that succeeds found what it needs in the settings *)
Ltac open H := apply bind_ok in H; let j := fresh "j" in let I := fresh "I" in destruct H as [j [I H]].
Ltac reach :=
  repeat match goal with
  | I : item ?j ?k = Ok _ |- number ?j (?k :: ?t) ?q => apply (proj2 (item_number _ _ _ t q I))
  | I : item ?j ?k = Ok _ |- bound ?j (?k :: ?t) ?q => apply (proj2 (item_bound _ _ _ t q I))
  | I : item ?j ?k = Ok _ |- on ?j (?k :: ?t) => apply (proj2 (item_on _ _ _ t I))
  | I : item ?j ?k = Ok _ |- off ?j (?k :: ?t) => apply (proj2 (item_off _ _ _ t I))
  | I : item ?j ?k = Ok _ |- switched ?b ?j (?k :: ?t) => apply (proj2 (item_switched b _ _ _ t I))
  | I : item ?j ?k = Ok _ |- at_path ?j (?k :: ?t) = Some _ => rewrite (item_at _ _ _ t I)
  end;
  try match goal with
  | |- number _ [] _ => now apply num_number
  | |- bound _ [] _ => now apply real_bound
  | |- on _ [] => now apply on_here
  | |- off _ [] => now apply off_here
  | |- switched _ _ [] => now apply switched_here
  | |- at_path _ [] = Some _ => reflexivity
  end.
Lemma offsets_need st w w' : offsets_step st w = Ok w' ->
  exists mn mx, bound st ["pre-processing"; "offsets"; "min"] mn /\ bound st ["pre-processing"; "offsets"; "max"] mx.
Proof. unfold offsets_step. intros H. do 6 open H. exists j3, j4. split; reach. Qed.
Lemma window_need d a a' : window_of d a = Ok a' -> exists b e, number d ["begin"] b /\ number d ["end"] e.
Proof. unfold window_of. intros H. do 5 open H. exists j2, j3. split; reach. Qed.
Lemma noise_need st w w' : w_noise w = None -> noise_step st w = Ok w' ->
  off st ["signal-to-noise"; "perform"] \/
  (on st ["signal-to-noise"; "perform"] /\ exists be, times st ["signal-to-noise"; "noise"] be).
Proof.
  unfold noise_step. intros N H. do 2 open H. rewrite N in H. destruct (truth j0) eqn:T.
  - right. split; [reach|]. do 2 open H. apply window_need in I2. destruct I2 as (b & e & B & F). exists (b, e). split; cbn [app fst snd]; reach; assumption.
  - left. reach.
Qed.
Lemma signal_need st w w' : w_signal w = None -> signal_step st w = Ok w' ->
  off st ["signal-to-noise"; "perform"] \/
  (on st ["signal-to-noise"; "perform"] /\ exists be, times st ["signal-to-noise"; "signal"] be).
Proof.
  unfold signal_step. intros N H. do 2 open H. rewrite N in H. destruct (truth j0) eqn:T.
  - right. split; [reach|]. do 2 open H. apply window_need in I2. destruct I2 as (b & e & B & F). exists (b, e). split; cbn [app fst snd]; reach; assumption.
  - left. reach.
Qed.
Lemma trim_need st w w' : time_step st w = Ok w' -> exists o, asks_trim st o.
Proof.
  unfold time_step. intros H. do 3 open H. destruct (truth j1) eqn:T.
  - do 4 open H. exists (Some (j4, j5)). split; [reach|]. split; cbn [app fst snd]; reach.
  - exists None. cbn [asks_trim]. reach.
Qed.
Lemma pad_need st w w' : pad_step st w = Ok w' -> exists o, asks_pad st o.
Proof.
  unfold pad_step. intros H. do 3 open H. destruct (truth j1) eqn:T.
  - do 2 open H. exists (Some j3). split; reach.
  - exists None. cbn [asks_pad]. reach.
Qed.
Lemma mute_need E st w w' : w_lines w = None -> mute_step E st w = Ok w' -> exists o, asks_mute st o.
Proof.
  unfold mute_step. intros N H. do 3 open H. rewrite N in H. destruct (truth j1) eqn:T.
  - open H. eexists (Some (j2, _)). split; [reach|]. split; [reach|reflexivity].
  - exists None. cbn [asks_mute]. reach.
Qed.
Lemma opt_num_some j q : opt_num j = Ok (Some q) -> num j = Ok q.
Proof. unfold opt_num. destruct j; try discriminate; intros H; open H; congruence. Qed.
Lemma opt_num_none j : opt_num j = Ok None -> j = JNull.
Proof. unfold opt_num. destruct j; try discriminate; try reflexivity; intros H; open H; congruence. Qed.
Lemma snr_need E st w w' : on st ["signal-to-noise"; "perform"] -> snr_step E st w = Ok w' ->
  exists proc fl fh pad df, at_path st ["processing"] = Some proc /\ number proc ["fmin"] fl /\ number proc ["fmax"] fh /\
    switched pad st ["signal-to-noise"; "pad"; "apply"] /\
    match df with Some q => number st ["signal-to-noise"; "pad"; "df"] q | None => at_path st ["signal-to-noise"; "pad"; "df"] = Some JNull end.
Proof.
  unfold snr_step. intros O H. do 3 open H.
  assert (T : truth j1 = true).
  { destruct (on_item _ _ _ O) as (x & X & O'). assert (x = j) by congruence. subst x.
    destruct (on_item _ _ _ O') as (y & Y & O2). assert (y = j1) by congruence. subst y. now apply on_here. }
  rewrite T in H. do 8 open H. exists j0, j7, j8, (truth j5), j9.
  split; [reach|]. split; [reach|]. split; [reach|]. split; [reach|].
  destruct j9 as [q|].
  - apply opt_num_some in I9. reach.
  - apply opt_num_none in I9. subst j6. reach.
Qed.

(** ** Whole runs *)
Definition blank (w : wf) : Prop := w_noise w = None /\ w_signal w = None /\ w_lines w = None.
Lemma preparation_need E st w w' : blank w ->
  (do w <- check w; do w <- offsets_step st w; do w <- detrend_step w;
   do w <- noise_step st w; do w <- time_step st w; do w <- mute_step E st w; signal_step st w) = Ok w' ->
  (exists mn mx, bound st ["pre-processing"; "offsets"; "min"] mn /\ bound st ["pre-processing"; "offsets"; "max"] mx) /\
  (off st ["signal-to-noise"; "perform"] \/ (on st ["signal-to-noise"; "perform"] /\
     (exists be, times st ["signal-to-noise"; "noise"] be) /\ (exists be, times st ["signal-to-noise"; "signal"] be))) /\
  (exists o, asks_trim st o) /\ (exists o, asks_mute st o).
Proof.
  intros (Bn & Bs & Bl) H. do 6 open H.
  assert (B0 : blank j). { unfold check in I. destruct (source_inside _); [discriminate|]. injection I as <-. now repeat split. }
  assert (B1 : blank j0).
  { clear H. pose proof I0 as K. unfold offsets_step in K. do 6 open K. apply on_array_ok in K as (a & _ & ->). destruct B0 as (? & ? & ?). now repeat split. }
  assert (B2 : blank j1). { injection I1 as <-. destruct B1 as (? & ? & ?). now repeat split. }
  assert (B3 : w_signal j2 = None /\ w_lines j2 = None).
  { destruct B2 as (Cn & Cs & Cl). pose proof I2 as K. unfold noise_step in K. do 2 open K. rewrite Cn in K.
    destruct (truth j6); [do 2 open K|]; injection K as <-; now split. }
  assert (B4 : w_signal j3 = None /\ w_lines j3 = None).
  { pose proof I3 as K. unfold time_step in K. do 3 open K. destruct (truth j7); [do 4 open K; apply on_array_ok in K as (a & _ & ->)|injection K as <-]; exact B3. }
  assert (B5 : w_signal j4 = None).
  { destruct B4 as (Cs & Cl). pose proof I4 as K. unfold mute_step in K. do 3 open K. rewrite Cl in K. destruct (truth j7); [|injection K as <-; exact Cs].
    open K. destruct j8 as [| | | |s|]; try discriminate.
    assert (G : (do l <- e_user E (w_array j3); do a <- changed (mute (w_array j3) (e_taper E (window_kwargs_or_default JNull)) (Some (fst l)) (Some (snd l))); Ok (set_lines (set_array j3 a) l)) = Ok j4 \/ Err KeyError = Ok j4).
    { repeat (destruct s as [|[[] [] [] [] [] [] [] []] s]; try (right; exact K)). left. exact K. }
    destruct G as [G|G]; [|discriminate]. do 2 open G. now injection G as <-. }
  split; [exact (offsets_need st j j0 I0)|]. split; [|split; [exact (trim_need st j2 j3 I3)|exact (mute_need E st j3 j4 (proj2 B4) I4)]].
  destruct (noise_need st j1 j2 (proj1 B2) I2) as [F|[O N]]; [now left|]. right. split; [exact O|]. split; [exact N|].
  destruct (signal_need st j4 w' B5 H) as [F|[_ S]]; [|exact S]. exfalso. destruct F as (v & A & F), O as (v' & A' & F'). congruence.
Qed.
(** Everything found: the settings ask for something. *)
Lemma all_need E st w w1 w2 w3 w4 w5 : blank w ->
  (do w <- check w; do w <- offsets_step st w; do w <- detrend_step w;
   do w <- noise_step st w; do w <- time_step st w; do w <- mute_step E st w; signal_step st w) = Ok w1 ->
  (on st ["signal-to-noise"; "perform"] -> snr_step E st w2 = Ok w3) -> pad_step st w4 = Ok w5 ->
  exists q, asks st q /\ (q_snr q <> None -> exists proc fl fh, at_path st ["processing"] = Some proc /\ number proc ["fmin"] fl /\ number proc ["fmax"] fh).
Proof.
  intros B P S D. destruct (preparation_need E st w w1 B P) as ((mn & mx & A1 & A2) & N & (t & T) & (m & M)). destruct (pad_need st w4 w5 D) as [d Dd].
  destruct N as [F|(O & (n & Nn) & (s & Ss))].
  - exists (mkRequest (mn, mx) None t m d). split; [repeat split; assumption|]. intros Q. now destruct Q.
  - specialize (S O). destruct (snr_need E st w2 w3 O S) as (proc & fl & fh & pad & df & Pr & L & H & Sw & Df).
    exists (mkRequest (mn, mx) (Some (mkSnrRequest n s pad df)) t m d).
    split; [|intros _; now exists proc, fl, fh]. split; [exact A1|]. split; [exact A2|]. split; [|split; [exact T|split; [exact M|exact Dd]]].
    cbn [q_snr asks_snr n_noise n_signal n_pad n_df]. tauto.
Qed.
Lemma started_blank a : blank (started a).
Proof. repeat split. Qed.
Lemma time_domain_need E f st st' o : run_time_domain E f st = (st', Ok o) ->
  exists q proc name, asks st q /\ at_path st ["processing"] = Some proc /\ at_path proc ["transform"] = Some (JStr name) /\
    In name (map fst (e_transforms E)) /\ (q_snr q <> None -> exists fl fh, number proc ["fmin"] fl /\ number proc ["fmax"] fh).
Proof.
  unfold run_time_domain. intros H. destruct (bind (load E f) _) as [w|] eqn:W; [|discriminate]. cbn [or_stop] in H.
  open W. rewrite continue in W. open W. open W.
  destruct (all_need E st (started j) j0 j0 j1 j1 w (started_blank j) I0 (fun _ => I1) W) as (q & A & N).
  unfold finish in H. destruct (item st "processing") as [proc|] eqn:P; [|discriminate]. cbn [bind] in H.
  destruct (item proc "transform") as [jn|] eqn:T; [|discriminate]. cbn [bind] in H. destruct jn as [| | | |name|]; try discriminate. cbn [str bind] in H.
  destruct (lookup name (e_transforms E)) as [c|] eqn:L; [|discriminate]. exists q, proc, name. split; [exact A|]. split; [now apply item_1|].
  split; [now apply item_1|]. split.
  - clear -L. induction (e_transforms E) as [|[k v] l IH]; [discriminate|]. cbn in *. destruct (String.eqb_spec name k) as [->|]; [now left|right; auto].
  - intros Q. destruct (N Q) as (proc' & fl & fh & P' & X & Y). apply at_1 in P'. assert (proc' = proc) by congruence. subst proc'. now exists fl, fh.
Qed.
