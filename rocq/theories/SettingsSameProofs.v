From Verif Require Import NumFacts PyFacts HeaderFileProofs WorkflowModel WorkflowSpec WorkflowProofs WorkflowGridProofs WorkflowRunProofs WorkflowEffectProofs WorkflowSnrProofs SettingsSpec SettingsProofs SettingsRunProofs.
Local Open Scope string_scope.
Local Open Scope nat_scope.
Local Open Scope list_scope.
Local Open Scope py_scope.

(** ** Settings that ask for the same *)
Definition same (st st' : json) : Prop :=
  exists q proc, asks st q /\ asks st' q /\ at_path st ["processing"] = Some proc /\ at_path st' ["processing"] = Some proc.
Lemma same_put st st' p : same st st' -> same (put_processing st p) (put_processing st' p).
Proof.
  intros (q & proc & A & A' & P & P'). exists q, p. repeat split; try now apply asks_put.
  - exact (put_self st p proc P).
  - exact (put_self st' p proc P').
Qed.
Lemma same_processing st st' : same st st' -> item st "processing" = item st' "processing".
Proof. intros (q & proc & _ & _ & P & P'). now rewrite (at_1 _ _ _ P), (at_1 _ _ _ P'). Qed.
Lemma snr_same E st st' w : same st st' -> snr_step E st w = snr_step E st' w.
Proof.
  intros (q & proc & (_ & _ & C & _) & (_ & _ & C' & _) & P & P'). apply at_1 in P. apply at_1 in P'.
  unfold snr_step, asks_snr in *. destruct (q_snr q) as [n|].
  - destruct C as (A & _ & _ & B & D), C' as (A' & _ & _ & B' & D'). rewrite P, P'. cbn [bind].
    destruct (n_df n) as [x|], (item proc "fmin") as [jl|], (item proc "fmax") as [jh|]; repeat (look; here; use); subst;
      repeat match goal with H : num ?j = Ok x |- _ => rewrite (opt_num_number j x H); clear H end; reflexivity.
  - rewrite P, P'. repeat (look; here; use). reflexivity.
Qed.
Lemma preparation_same E st st' w : same st st' ->
  (do w <- check w; do w <- offsets_step st w; do w <- detrend_step w;
   do w <- noise_step st w; do w <- time_step st w; do w <- mute_step E st w; signal_step st w) =
  (do w <- check w; do w <- offsets_step st' w; do w <- detrend_step w;
   do w <- noise_step st' w; do w <- time_step st' w; do w <- mute_step E st' w; signal_step st' w).
Proof. intros (q & proc & A & A' & _). now rewrite (preparation_asked E st q w A), (preparation_asked E st' q w A'). Qed.
(** Steps followed by something. *)
Lemma continue {B} E st w (k : wf -> result B) :
  (do w <- check w; do w <- offsets_step st w; do w <- detrend_step w;
   do w <- noise_step st w; do w <- time_step st w; do w <- mute_step E st w; do w <- signal_step st w; k w) =
  bind (do w <- check w; do w <- offsets_step st w; do w <- detrend_step w;
   do w <- noise_step st w; do w <- time_step st w; do w <- mute_step E st w; signal_step st w) k.
Proof.
  rewrite bind_assoc. apply bind_ext. intros w1. rewrite bind_assoc. apply bind_ext. intros w2. rewrite bind_assoc. apply bind_ext. intros w3.
  rewrite bind_assoc. apply bind_ext. intros w4. rewrite bind_assoc. apply bind_ext. intros w5. rewrite bind_assoc. reflexivity.
Qed.
Lemma pad_same (E : environment) st st' w : same st st' -> pad_step st w = pad_step st' w.
Proof.
  intros (q & proc & (_ & _ & _ & _ & _ & G) & (_ & _ & _ & _ & _ & G') & _). now rewrite (pad_asked E st w _ G), (pad_asked E st' w _ G').
Qed.
Lemma reported_same st st' w : same st st' -> reported_snr st w = reported_snr st' w.
Proof.
  intros (q & proc & (_ & _ & C & _) & (_ & _ & C' & _) & _). unfold reported_snr, asks_snr in *. destruct (q_snr q).
  - destruct C as (A & _), C' as (A' & _). do 4 look. here. use. reflexivity.
  - do 4 look. here. use. reflexivity.
Qed.
Lemma finish_same E st st' w : same st st' -> snd (finish E st w) = snd (finish E st' w).
Proof.
  intros S. unfold finish. rewrite (same_processing st st' S). destruct (bind (item st' "processing") _) as [[proc c]|]; [|reflexivity].
  destruct (c (w_array w) proc) as [proc' r]. cbn [snd]. apply bind_ext. intros t. now rewrite (reported_same _ _ w (same_put st st' proc' S)).
Qed.
Lemma or_stop_same {A B} st st' (r r' : result A) (f g : A -> json * result B) :
  r = r' -> (forall a, snd (f a) = snd (g a)) -> snd (or_stop st r f) = snd (or_stop st' r' g).
Proof. intros -> H. destruct r'; cbn; auto. Qed.
Lemma time_domain_same E f st st' : same st st' -> snd (run_time_domain E f st) = snd (run_time_domain E f st').
Proof.
  intros S. unfold run_time_domain. apply or_stop_same; [|intros w; now apply finish_same].
  apply bind_ext. intros a. rewrite !continue, (preparation_same E st st' _ S). apply bind_ext. intros w. rewrite (snr_same E st st' w S).
  apply bind_ext. intros w'. exact (pad_same E st st' w' S).
Qed.
Lemma single_same E f st st' : same st st' -> snd (run_single E f st) = snd (run_single E f st').
Proof.
  intros S. destruct f as [s|[|s [|]]]; cbn [run_single]; try reflexivity; now apply time_domain_same.
Qed.
Lemma xcorr_same E f fsrc ch st st' : same st st' -> snd (run_xcorr E f fsrc ch st) = snd (run_xcorr E f fsrc ch st').
Proof.
  intros S. unfold run_xcorr. apply or_stop_same; [|intros w; now apply finish_same].
  do 8 (apply bind_ext; intros ?). rewrite !continue, (preparation_same E st st' _ S). apply bind_ext. intros w.
  rewrite (snr_same E st st' w S), (same_processing st st' S). do 7 (apply bind_ext; intros ?). exact (pad_same E st st' _ S).
Qed.
Lemma example_same E st st' x : same st st' -> example_array E st x = example_array E st' x.
Proof.
  intros (q & proc & (_ & _ & _ & D & _ & G) & (_ & _ & _ & D' & _ & G') & _). unfold example_array. apply bind_ext. intros a.
  unfold asks_trim, asks_pad in *. destruct (q_trim q) as [be|], (q_pad q) as [d|];
    repeat match goal with H : _ /\ _ |- _ => destruct H end; unfold times in *; cbn [app] in *;
    repeat match goal with H : _ /\ _ |- _ => destruct H end; repeat (look; here; use); reflexivity.
Qed.
Lemma one_file_same E st st' ex w x : same st st' -> one_file E st ex w x = one_file E st' ex w x.
Proof.
  intros S. unfold one_file. apply bind_ext. intros a. destruct (negb (array_similar a ex)); [reflexivity|].
  rewrite !continue, (preparation_same E st st' _ S). apply bind_ext. intros w'. exact (pad_same E st st' w' S).
Qed.
Lemma loop_same E c ex l : forall st st' w running, same st st' ->
  snd (file_loop E c ex st w running l) = snd (file_loop E c ex st' w running l) /\
  same (fst (file_loop E c ex st w running l)) (fst (file_loop E c ex st' w running l)).
Proof.
  induction l as [|x l IH]; intros st st' w running S; cbn [file_loop]; [split; [reflexivity|exact S]|].
  rewrite (one_file_same E st st' ex w x S), (same_processing st st' S).
  destruct (bind (one_file E st' ex w x) _) as [[w' proc]|]; cbn [or_stop]; [|split; [reflexivity|exact S]].
  destruct (c (w_array w') proc) as [proc' r]. pose proof (same_put st st' proc' S) as S'.
  destruct (bind r _) as [running'|]; cbn [or_stop]; [|split; [reflexivity|exact S']]. now apply IH.
Qed.
Lemma frequency_same E f st st' : same st st' -> snd (run_frequency_domain E f st) = snd (run_frequency_domain E f st').
Proof.
  intros S. unfold run_frequency_domain. apply or_stop_same.
  - apply bind_ext. intros x. rewrite (example_same E st st' x S). apply bind_ext. intros ex.
    destruct (lookup "empty" (e_transforms E)); [|reflexivity]. now rewrite (same_processing st st' S).
  - intros [[ex empty] proc]. destruct (empty ex proc) as [proc' r]. pose proof (same_put st st' proc' S) as S'.
    apply or_stop_same.
    + apply bind_ext. intros running. now rewrite (same_processing _ _ S').
    + intros [running c]. destruct (loop_same E c ex (iterate f) _ _ (started ex) running S') as [Q S2].
      destruct (file_loop E c ex (put_processing st proc') _ _ _) as [s1 r1], (file_loop E c ex (put_processing st' proc') _ _ _) as [s2 r2].
      cbn [fst snd] in Q, S2. subst r2. destruct r1 as [[w t]|]; [|reflexivity]. cbn [snd].
      pose proof S2 as (q & pr & (_ & _ & C & _) & (_ & _ & C' & _) & _). unfold asks_snr in C, C'. destruct (q_snr q).
      * destruct C as (A & _), C' as (A' & _). do 4 look. here. use. rewrite (snr_same E s1 s2 w S2). apply bind_ext. intros w'.
        now rewrite (reported_same s1 s2 w' S2).
      * do 4 look. here. use. reflexivity.
Qed.
Lemma masw_same E f st st' : same st st' -> item st "workflow" = item st' "workflow" ->
  snd (masw_run E f st) = snd (masw_run E f st').
Proof.
  intros S W. unfold masw_run. apply or_stop_same; [now rewrite W|].
  intros []; [now apply single_same|now apply time_domain_same|reflexivity|now apply frequency_same].
Qed.
Lemma xcorr_run_same E f fsrc ch st st' : same st st' -> item st "workflow" = item st' "workflow" ->
  snd (xcorr_run E f fsrc ch st) = snd (xcorr_run E f fsrc ch st').
Proof. intros S W. unfold xcorr_run. apply or_stop_same; [now rewrite W|]. intros u. now apply xcorr_same. Qed.

(** ** Settings of arguments *)
Lemma created_asks p : asks (create_settings_dict p) (requested p).
Proof.
  unfold asks, requested. cbn [q_offsets q_snr q_trim q_mute q_pad fst snd]. unfold if_set.
  split; [now left|]. split; [now left|]. split; [|split; [|split]].
  - destruct (given false (a_snr p)) eqn:Q.
    + cbn [asks_snr n_noise n_signal n_pad n_df]. split; [exists (JBool (given false (a_snr p))); split; [reflexivity|rewrite Q; intros H; inversion H]|].
      split; [split; now left|]. split; [split; now left|]. split; [|now left]. destruct (given true (a_pad_snr p)) eqn:R; cbn [switched];
        exists (JBool (given true (a_pad_snr p))); (split; [reflexivity|rewrite R]); [intros H; inversion H|constructor].
    + exists (JBool (given false (a_snr p))). split; [reflexivity|rewrite Q; constructor].
  - destruct (given false (a_trim p)) eqn:Q.
    + split; [exists (JBool (given false (a_trim p))); split; [reflexivity|rewrite Q; intros H; inversion H]|]. split; now left.
    + exists (JBool (given false (a_trim p))). split; [reflexivity|rewrite Q; constructor].
  - destruct (given false (a_mute p)) eqn:Q.
    + split; [exists (JBool (given false (a_mute p))); split; [reflexivity|rewrite Q; intros H; inversion H]|]. split; reflexivity.
    + exists (JBool (given false (a_mute p))). split; [reflexivity|rewrite Q; constructor].
  - destruct (given false (a_pad p)) eqn:Q.
    + split; [exists (JBool (given false (a_pad p))); split; [reflexivity|rewrite Q; intros H; inversion H]|]. now left.
    + exists (JBool (given false (a_pad p))). split; [reflexivity|rewrite Q; constructor].
Qed.
