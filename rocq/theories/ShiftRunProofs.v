(* The workflows on surveys moved along their line. *)
From Verif Require Import HeaderModel HeaderSpec HeaderFileProofs NumFacts PyFacts ArrayModel ArrayProofs TransformModel WorkflowModel ShiftSpec ShiftProofs.
Local Open Scope string_scope.
Local Open Scope nat_scope.
Local Open Scope list_scope.
Local Open Scope py_scope.

Section Run.
  Variables (d : Qc) (E E' : environment).
  Hypothesis S : same_lab d E E'.
  Notation mv := (moved d).
  Definition ml (l : line * line) : line * line := (moved_line d (fst l), moved_line d (snd l)).
  Definition mw (w : wf) : wf := mkWf (mv (w_array w)) (option_map ml (w_lines w)) (option_map mv (w_noise w)) (option_map mv (w_signal w)) (w_snr w).
  (** The step does the same to the moved records, exceptions included. *)
  Definition follows (f f' : wf -> result wf) : Prop := forall w, f' (mw w) = after mw (f w).
  Lemma after_bind {A B} (h : B -> B) (r : result A) (f g : A -> result B) : (forall a, g a = after h (f a)) -> bind r g = after h (bind r f).
  Proof. intros H. destruct r; [apply H|reflexivity]. Qed.
  Lemma on_array_follows w r r' : r' = moved_result d r -> on_array (mw w) r' = after mw (on_array w r).
  Proof. intros ->. destruct r as [a [[]|e]]; reflexivity. Qed.
  Lemma check_follows : follows check check.
  Proof. intros w. unfold check. cbn [mw w_array]. rewrite inside_moved. destruct (source_inside _); reflexivity. Qed.
  Lemma offsets_follows st : follows (offsets_step st) (offsets_step st).
  Proof. intros w. unfold offsets_step. repeat (apply after_bind; intros ?). apply on_array_follows, limit_moved. Qed.
  Lemma detrend_follows : follows detrend_step detrend_step.
  Proof. intros w. unfold detrend_step. cbn [mw w_array after]. now rewrite detrend_moved. Qed.
  Lemma window_moved j a : window_of j (mv a) = after mv (window_of j a).
  Proof.
    unfold window_of. rewrite copy_moved. destruct (copy_array a) as [c|]; [|reflexivity]. cbn [after bind]. repeat (apply after_bind; intros ?). rewrite trim_moved.
    destruct (array_trim c _ _) as [x [[]|]]; reflexivity.
  Qed.
  Lemma noise_follows st : follows (noise_step st) (noise_step st).
  Proof.
    intros w. unfold noise_step. do 2 (apply after_bind; intros ?). cbn [mw w_noise]. destruct (truth _); [|reflexivity]. destruct (w_noise w) as [n|]; [reflexivity|]. cbn [option_map].
    apply after_bind. intros j. change (w_array (mw w)) with (mv (w_array w)). rewrite window_moved. destruct (window_of j (w_array w)); reflexivity.
  Qed.
  Lemma signal_follows st : follows (signal_step st) (signal_step st).
  Proof.
    intros w. unfold signal_step. do 2 (apply after_bind; intros ?). cbn [mw w_signal]. destruct (truth _); [|reflexivity]. destruct (w_signal w) as [n|]; [reflexivity|]. cbn [option_map].
    apply after_bind. intros j. change (w_array (mw w)) with (mv (w_array w)). rewrite window_moved. destruct (window_of j (w_array w)); reflexivity.
  Qed.
  Lemma time_follows st : follows (time_step st) (time_step st).
  Proof. intros w. unfold time_step. do 3 (apply after_bind; intros ?). destruct (truth _); [|reflexivity]. repeat (apply after_bind; intros ?). apply on_array_follows, trim_moved. Qed.
  Lemma pad_follows st : follows (pad_step st) (pad_step st).
  Proof. intros w. unfold pad_step. do 3 (apply after_bind; intros ?). destruct (truth _); [|reflexivity]. repeat (apply after_bind; intros ?). apply on_array_follows, pad_moved. Qed.
  Lemma mute_follows st : follows (mute_step E st) (mute_step E' st).
  Proof.
    intros w. unfold mute_step. do 3 (apply after_bind; intros ?). destruct (truth _); [|reflexivity]. cbn [mw w_lines]. rewrite (same_taper _ _ _ S).
    destruct (w_lines w) as [l|]; cbn [option_map].
    - apply after_bind. intros k. apply on_array_follows. cbn [mw w_array]. rewrite <- mute_moved. reflexivity.
    - apply after_bind. intros m. destruct m as [| | |s| |]; try reflexivity. 
      repeat (match goal with |- context [match ?x with EmptyString => _ | String _ _ => _ end] => destruct x; try reflexivity
              | |- context [match ?x with Ascii.Ascii _ _ _ _ _ _ _ _ => _ end] => destruct x
              | |- context [if ?b then _ else _] => destruct b; try reflexivity end).
      change (w_array (mw w)) with (mv (w_array w)). rewrite (same_picks _ _ _ S). destruct (e_user E (w_array w)) as [l|]; [|reflexivity]. cbn [after bind fst snd].
      change (Some (moved_line d (fst l))) with (option_map (moved_line d) (Some (fst l))). change (Some (moved_line d (snd l))) with (option_map (moved_line d) (Some (snd l))).
      rewrite mute_moved. destruct (mute _ _ _ _) as [x [[]|]]; reflexivity.
  Qed.
  Lemma snr_follows st : follows (snr_step E st) (snr_step E' st).
  Proof.
    intros w. unfold snr_step. do 3 (apply after_bind; intros ?). destruct (truth _); [|reflexivity]. repeat (apply after_bind; intros ?). cbn [mw w_signal w_noise].
    destruct (w_signal w) as [s|], (w_noise w) as [n|]; try reflexivity. cbn [option_map]. rewrite (same_spectrum _ _ _ S), snr_moved.
    destruct (snr_from_arrays _ _ _ _ _ _ _) as [[s' n'] [r|]]; reflexivity.
  Qed.
  Lemma follows_bind (f f' : wf -> result wf) (g g' : wf -> result wf) r r' : r' = after mw r -> follows g g' -> bind r' g' = after mw (bind r g).
  Proof. intros -> G. destruct r; [apply G|reflexivity]. Qed.
  Lemma finish_follows st w : finish E' st (mw w) = (fst (finish E st w), after (moved_outcome d) (snd (finish E st w))).
  Proof.
    unfold finish. destruct (item st "processing") as [proc|]; [|reflexivity]. cbn [bind]. destruct (item proc "transform") as [j|]; [|reflexivity]. cbn [bind]. destruct (str j) as [n|]; [|reflexivity].
    cbn [bind]. pose proof (same_classes _ _ _ S n) as C. destruct (lookup n (e_transforms E)) as [c|], (lookup n (e_transforms E')) as [c'|]; try contradiction; [|reflexivity].
    cbn [mw w_array]. rewrite (C (w_array w) proc). destruct (c (w_array w) proc) as [proc' r]. cbn [fst snd]. f_equal. destruct r as [t|]; [|reflexivity]. cbn [bind].
    change (reported_snr (put_processing st proc') (mw w)) with (reported_snr (put_processing st proc') w). destruct (reported_snr _ w); reflexivity.
  Qed.
  (** The same settings afterwards, and the moved outcome. *)
  Definition both_runs (r r' : json * result outcome) : Prop := fst r' = fst r /\ snd r' = after (moved_outcome d) (snd r).
  Lemma stop_follows st (r r' : result wf) : r' = after mw r -> both_runs (or_stop st r (finish E st)) (or_stop st r' (finish E' st)).
  Proof. intros ->. destruct r as [w|e]; cbn [after or_stop]; [|split; reflexivity]. rewrite finish_follows. split; reflexivity. Qed.
  Ltac steps := repeat (first [apply (follows_bind (fun w => Ok w) (fun w => Ok w)); [|intros ?]
     | apply check_follows | apply offsets_follows | apply detrend_follows | apply noise_follows | apply time_follows | apply mute_follows | apply signal_follows | apply snr_follows | apply pad_follows]).
  Lemma time_domain_moved f st : load E' f = after mv (load E f) -> both_runs (run_time_domain E f st) (run_time_domain E' f st).
  Proof.
    intros L. unfold run_time_domain. apply stop_follows. rewrite L. destruct (load E f) as [a|]; [|reflexivity]. cbn [after bind].
    change (started (mv a)) with (mw (started a)). steps.
  Qed.
  Lemma xcorr_moved f k ch st : load E' f = after mv (load E f) -> source_signal (K := unit) (fun _ => e_read E') ch k = source_signal (K := unit) (fun _ => e_read E) ch k ->
    both_runs (run_xcorr E f k ch st) (run_xcorr E' f k ch st).
  Proof.
    intros L R'.
    unfold run_xcorr. apply stop_follows. rewrite L, R'. destruct (load E f) as [a|]; [|reflexivity]. cbn [after bind]. apply after_bind. intros sig.
    cbn [moved sensors src]. rewrite new_array_moved. destruct (new_array (sensors a) (src a)) as [b|]; [|reflexivity]. cbn [after bind].
    assert (P : pyget (sensors (mv b)) 0 = after (moved_sensor d) (pyget (sensors b) 0)) by (cbn [moved sensors]; destruct (sensors b); reflexivity).
    rewrite P. destruct (pyget (sensors b) 0) as [s0|]; [|reflexivity]. cbn [after bind]. cbn [moved_sensor ser]. apply after_bind. intros tm.
    rewrite trim_moved. destruct (array_trim b 0%Qc tm) as [c [[]|]]; [|reflexivity]. cbn [moved_result fst snd changed bind].
    do 2 (apply after_bind; intros ?). change (started (mv c)) with (mw (started c)).
    do 8 (apply (follows_bind (fun w => Ok w) (fun w => Ok w));
      [first [apply check_follows|apply offsets_follows|apply detrend_follows|apply noise_follows|apply time_follows|apply mute_follows|apply signal_follows|apply snr_follows]|intros ?]).
    do 5 (apply after_bind; intros ?). apply (follows_bind (fun w => Ok w) (fun w => Ok w)); [apply on_array_follows; cbn [mw w_array]; apply xcorrelate_moved|apply pad_follows].
  Qed.

  (** * Stacking in the frequency domain *)
  Lemma array_similar_moved a b : array_similar (mv a) (mv b) = array_similar a b.
  Proof. unfold array_similar, nchannels, source_eq. cbn [moved sensors src moved_source src_x src_y src_z]. now rewrite !map_length, eqb_shift. Qed.
  Lemma example_moved st x : load E' (Name x) = after mv (load E (Name x)) -> example_array E' st x = after mv (example_array E st x).
  Proof.
    intros L. unfold example_array. rewrite L. destruct (load E (Name x)) as [a|]; [|reflexivity]. cbn [after bind]. rewrite detrend_moved.
    do 3 (apply after_bind; intros ?).
    match goal with |- bind ?r' _ = after _ (bind ?r _) => assert (Q : r' = after mv r) end.
    { destruct (truth _); [|reflexivity]. repeat (apply after_bind; intros ?). rewrite trim_moved. destruct (array_trim _ _ _) as [b [[]|]]; reflexivity. }
    rewrite Q. clear Q. match goal with |- bind (after _ ?r) _ = _ => destruct r as [b|]; [|reflexivity] end. cbn [after bind].
    do 2 (apply after_bind; intros ?). destruct (truth _); [|reflexivity]. repeat (apply after_bind; intros ?). rewrite pad_moved. destruct (array_zero_pad _ _) as [c [[]|]]; reflexivity.
  Qed.
  Lemma one_file_moved st ex w x : load E' (Name x) = after mv (load E (Name x)) -> one_file E' st (mv ex) (mw w) x = after mw (one_file E st ex w x).
  Proof.
    intros L. unfold one_file. rewrite L. destruct (load E (Name x)) as [a|]; [|reflexivity]. cbn [after bind]. rewrite array_similar_moved. destruct (array_similar a ex); [|reflexivity]. cbn [negb].
    change (set_array (mw w) (mv a)) with (mw (set_array w a)). steps.
  Qed.
  Lemma loop_moved c c' ex files : blind d c c' -> (forall x, In x files -> load E' (Name x) = after mv (load E (Name x))) -> forall st w t,
    file_loop E' c' (mv ex) st (mw w) t files = (fst (file_loop E c ex st w t files), after (fun r => (mw (fst r), snd r)) (snd (file_loop E c ex st w t files))).
  Proof.
    intros B. induction files as [|x files IH]; intros L st w t; [reflexivity|]. cbn [file_loop]. rewrite (one_file_moved st ex w x) by (apply L; now left).
    destruct (one_file E st ex w x) as [w'|]; [|reflexivity]. cbn [after bind]. destruct (item st "processing") as [proc|]; [|reflexivity]. cbn [bind or_stop].
    change (w_array (mw w')) with (mv (w_array w')). rewrite (B (w_array w') proc). destruct (c (w_array w') proc) as [proc' r]. destruct r as [u|]; [|reflexivity]. cbn [bind].
    destruct (stack t (of_transform u)) as [s [[]|]]; [|reflexivity]. cbn [or_stop]. apply IH. intros y I. apply L. now right.
  Qed.
  Lemma frequency_moved f st : (forall x, In x (iterate f) -> load E' (Name x) = after mv (load E (Name x))) -> both_runs (run_frequency_domain E f st) (run_frequency_domain E' f st).
  Proof.
    intros L. unfold run_frequency_domain. destruct (iterate f) as [|x l] eqn:I; [change (pyget (@nil string) 0) with (@Err string IndexError); cbn [bind or_stop]; split; reflexivity|]. change (pyget (x :: l) 0) with (Ok x). cbn [bind].
    rewrite (example_moved st x) by (apply L; now left). destruct (example_array E st x) as [ex|]; [|cbn [after bind or_stop]; split; reflexivity]. cbn [after bind].
    pose proof (same_classes _ _ _ S "empty") as C. destruct (lookup "empty" (e_transforms E)) as [c|], (lookup "empty" (e_transforms E')) as [c'|]; try contradiction; [|cbn [after bind or_stop]; split; reflexivity].
    destruct (item st "processing") as [proc|]; [|cbn [after bind or_stop]; split; reflexivity]. cbn [bind or_stop]. rewrite (C ex proc). destruct (c ex proc) as [proc' r]. destruct r as [running|]; [|cbn [after bind or_stop]; split; reflexivity]. cbn [bind].
    destruct (item (put_processing st proc') "processing") as [proc2|]; [|cbn [after bind or_stop]; split; reflexivity]. cbn [bind]. destruct (item proc2 "transform") as [j|]; [|cbn [after bind or_stop]; split; reflexivity]. cbn [bind].
    destruct (str j) as [n|]; [|cbn [after bind or_stop]; split; reflexivity]. cbn [bind]. clear C.
    pose proof (same_classes _ _ _ S n) as C. destruct (lookup n (e_transforms E)) as [k|], (lookup n (e_transforms E')) as [k'|]; try contradiction; [|cbn [after bind or_stop]; split; reflexivity]. cbn [or_stop].
    change (started (mv ex)) with (mw (started ex)). rewrite (loop_moved k k' ex (x :: l) C L).
    destruct (file_loop E k ex _ (started ex) running (x :: l)) as [st2 [[w t]|]]; [|cbn [after bind or_stop]; split; reflexivity]. cbn [fst snd after]. split; [reflexivity|]. cbn [snd].
    destruct (item st2 "signal-to-noise") as [sn|]; [|reflexivity]. cbn [bind]. destruct (item sn "perform") as [pf|]; [|reflexivity]. cbn [bind]. destruct (truth pf); [|reflexivity].
    rewrite (snr_follows st2 w). destruct (snr_step E st2 w) as [w2|]; [|reflexivity]. cbn [after bind]. change (reported_snr st2 (mw w2)) with (reported_snr st2 w2). destruct (reported_snr st2 w2); reflexivity.
  Qed.
  Lemma single_moved f st : load E' f = after mv (load E f) -> (forall x l, f = Names (x :: l) -> load E' (Name x) = after mv (load E (Name x))) ->
    both_runs (run_single E f st) (run_single E' f st).
  Proof.
    intros L H. unfold run_single. destruct f as [x|[|x [|y l]]]; try (now apply time_domain_moved); [split; reflexivity|]. apply time_domain_moved. now apply (H x (y :: l)).
  Qed.
  Lemma masw_moved f st : load E' f = after mv (load E f) -> (forall x, In x (iterate f) -> load E' (Name x) = after mv (load E (Name x))) -> both_runs (masw_run E f st) (masw_run E' f st).
  Proof.
    intros L H. unfold masw_run. match goal with |- both_runs (or_stop _ ?r _) _ => destruct r as [c|]; [|cbn [or_stop]; split; reflexivity] end. cbn [or_stop]. destruct c.
    - apply single_moved; [exact L|]. intros x l ->. apply H. now left.
    - now apply time_domain_moved.
    - split; reflexivity.
    - now apply frequency_moved.
  Qed.
End Run.

(** * Files read with map_x *)
Section Map.
  Context {F K : Type} (read : option K -> F -> result (list trace)).
  Lemma from_files_shift d mx my kw f : from_files read (fun x => (mx x + d)%Qc) my kw [f] = after (moved d) (from_files read mx my kw [f]).
  Proof.
    unfold from_files. destruct (read kw f) as [st|]; [|reflexivity]. cbn [bind].
    rewrite (mapM_from_trace (fun x => (mx x + d)%Qc) my), (mapM_from_trace mx my). destruct (mapM _ st) as [ss|]; [|reflexivity]. cbn [bind].
    destruct (rev st) as [|tr r]; [reflexivity|]. destruct (fmt_of (t_header tr)) as [ff|]; [|reflexivity].
    assert (P : parse_source ff (fun x => (mx x + d)%Qc) my tr = after (moved_source d) (parse_source ff mx my tr)).
    { destruct ff; [rewrite !(parse_source_seg2 _ my)| |]; try (rewrite (parse_source_mapped _ (fun x => (mx x + d)%Qc)), (parse_source_mapped _ mx) by discriminate);
        destruct (parse_source _ (fun x => x) (fun y => y) tr); reflexivity. }
    rewrite P. destruct (parse_source ff mx my tr) as [s|]; [|reflexivity]. cbn [after bind].
    replace (map (map_sensor (fun x => (mx x + d)%Qc) my) ss) with (map (moved_sensor d) (map (map_sensor mx my) ss)) by (rewrite map_map; reflexivity).
    rewrite new_array_moved. destruct (new_array _ s) as [a|]; reflexivity.
  Qed.
End Map.
(** * The program with a moved map_x *)
Lemma load_shift d E user f x : one_name f = Some x -> load (moved_lab d E user) f = after (moved d) (load E f).
Proof. destruct f as [y|[|y [|z l]]]; try discriminate; intros _; apply from_files_shift. Qed.
Lemma moved_same d E user : user_follows d (e_user E) user -> Forall (fun c => blind d (snd c) (snd c)) (e_transforms E) -> same_lab d E (moved_lab d E user).
Proof.
  intros U B. split; try reflexivity; [exact U|]. intros n. cbn [moved_lab e_transforms]. destruct (lookup n (e_transforms E)) as [c|] eqn:H; [|exact I].
  assert (P : exists k, In (k, c) (e_transforms E)).
  { clear B. revert H. induction (e_transforms E) as [|[k v] l IH]; [discriminate|]. cbn [lookup]. destruct (String.eqb _ _); intros H; [injection H as <-; exists k; now left|].
    destruct (IH H) as (k' & J). exists k'. now right. }
  destruct P as (k & P). exact (proj1 (Forall_forall _ _) B _ P).
Qed.
Lemma registered_blind d g sl ps fd : (forall a j, sl (moved d a) j = sl a j) -> (forall a j, ps (moved d a) j = ps a j) -> (forall a j, fd (moved d a) j = fd a j) ->
  Forall (fun c => blind d (snd c) (snd c)) (swprocess_transforms g sl ps fd).
Proof.
  intros A B C. unfold swprocess_transforms. repeat constructor; cbn [snd]; intros a j; unfold empty_class, reading, fk_class.
  - f_equal. destruct (wt_of j); [|reflexivity]. apply empty_moved.
  - f_equal. apply A.
  - f_equal. apply B.
  - f_equal. apply C.
  - destruct (bind (item j "fdbf-specific") _); [|reflexivity]. f_equal. apply C.
Qed.
