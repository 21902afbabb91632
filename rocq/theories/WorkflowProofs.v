(* Proofs about the workflows. *)
From Verif Require Import WorkflowModel WorkflowSpec ArraySpec HeaderFileProofs PyFacts NumFacts.
Local Open Scope string_scope.
Local Open Scope nat_scope.
Local Open Scope list_scope.
Local Open Scope py_scope.

(** * Dictionaries and registries *)
Lemma lookup_update {A} k k' (v : A) d : lookup k (update k' v d) = if String.eqb k k' then Some v else lookup k d.
Proof.
  induction d as [|[k1 w] t IH]; cbn; auto. destruct (String.eqb_spec k' k1) as [->|N]; cbn; auto.
  - destruct (String.eqb_spec k k1); auto.
  - rewrite IH. destruct (String.eqb_spec k k1) as [->|]; auto. now destruct (String.eqb_spec k1 k'); [congruence|].
Qed.
Lemma create_class_register {C} w n (c : C) r w' n' :
  create_class w n (register w' n' c r) =
  if (match w, w' with OfTransforms, OfTransforms | OfWorkflows, OfWorkflows => String.eqb n n' | _, _ => false end)
  then Ok c else create_class w n r.
Proof.
  unfold create_class, register. destruct w, w'; cbn [transforms workflows]; auto; rewrite lookup_update; now destruct (String.eqb n n').
Qed.
Lemma history_app {C} (r : registries C) h g : history_of r (h ++ [g]) = register (g_which g) (g_name g) (g_class g) (history_of r h).
Proof. unfold history_of. now rewrite fold_left_app. Qed.
Lemma registry_spec {C} (h : list (registration C)) w n :
  (exists c, last_registered h w n c /\ create_class w n (history_of (mkRegistries [] []) h) = Ok c) \/
  (never_registered h w n /\ create_class w n (history_of (mkRegistries [] []) h) = Err KeyError).
Proof.
  induction h as [|g h IH] using rev_ind.
  - right. split; [intros g []|]. now destruct w.
  - rewrite history_app, create_class_register.
    assert (D : {g_which g = w /\ g_name g = n} + {~ (g_which g = w /\ g_name g = n)}).
    { destruct (String.string_dec (g_name g) n); [|right; tauto]. destruct (g_which g), w; (left; tauto) || (right; intros [? _]; discriminate). }
    destruct D as [[E1 E2]|D].
    + left. exists (g_class g). split; [exists h, []; split; [destruct g; cbn in *; subst; reflexivity|intros ? []]|].
      subst. rewrite String.eqb_refl. now destruct (g_which g).
    + replace (match w, g_which g with OfTransforms, OfTransforms | OfWorkflows, OfWorkflows => String.eqb n (g_name g) | _, _ => false end)
        with false by (destruct (String.eqb_spec n (g_name g)), w, (g_which g); auto; exfalso; apply D; auto).
      destruct IH as [(c & (h1 & h2 & -> & F) & E)|(F & E)]; [left|right].
      * exists c. split; auto. exists h1, (h2 ++ [g]). rewrite <- app_assoc. split; auto.
        intros g' I. apply in_app_iff in I as [I|[<-|[]]]; auto.
      * split; auto. intros g' I. apply in_app_iff in I as [I|[<-|[]]]; auto.
Qed.
Lemma last_registered_unique {C} (h : list (registration C)) w n c c' :
  last_registered h w n c -> last_registered h w n c' -> c = c'.
Proof.
  intros (h1 & h2 & E & F) (h1' & h2' & E' & F'). rewrite E in E'. clear E.
  revert h1' E'. induction h1 as [|g h1 IH]; intros [|g' h1'] E'; cbn in E'; inversion E'; subst; auto.
  - exfalso. apply (F (mkReg w n c')); [apply in_or_app; right; now left|auto].
  - exfalso. apply (F' (mkReg w n c)); [apply in_or_app; right; now left|auto].
  - now apply (IH h1').
Qed.

(** * Loaded arrays are sorted *)
Section Loaded.
  Variable E : environment.
  Lemma stack_traces_positions l ts l' : stack_traces l ts = Ok l' -> map sx l' = map sx l.
  Proof.
    revert ts l'. induction l as [|s l IH]; intros [|t ts] l'; cbn; intros H; try (now inversion H).
    apply bind_ok in H as (n & _ & H). destruct (sensor_stack_append s (ObjSensor n)) as [s' [u|e]] eqn:S; [|discriminate].
    apply bind_ok in H as (r & R & H). inversion H; subst. cbn. rewrite (IH ts r R). f_equal.
    unfold sensor_stack_append in S. destruct (sensor_is_similar _ _ _); inversion S; subst. reflexivity.
  Qed.
  Lemma stack_files_positions {F K} (read : option K -> F -> result (list trace)) f mx my fs : forall a a',
    stack_files read f mx my a fs = Ok a' -> map sx (sensors a') = map sx (sensors a) /\ src a' = src a.
  Proof.
    induction fs as [|x fs IH]; cbn; intros a a' H; [inversion H; auto|].
    apply bind_ok in H as (st & _ & H). apply bind_ok in H as (a1 & S & H). apply IH in H as [H1 H2].
    unfold stack_file in S. destruct st as [|t0 st]; [discriminate|]. apply bind_ok in S as (ns & _ & S).
    destruct (negb _); [discriminate|]. apply bind_ok in S as (l & L & S). inversion S; subst. cbn in *.
    apply stack_traces_positions in L. split; congruence.
  Qed.
  Lemma load_sorted f a : load E f = Ok a -> sensors a <> [] /\ increasing (map sx (sensors a)).
  Proof.
    unfold load. set (l := match f with Name s => [s] | Names l => l end). destruct l as [|f0 rest]; [discriminate|].
    intros H. destruct (from_files_split _ _ _ _ _ _ _ H) as (a0 & fm & H0 & ST).
    destruct (from_files_base _ _ _ _ _ _ H0) as ((N & I & _) & _). destruct (stack_files_positions _ _ _ _ _ _ _ ST) as [P _].
    rewrite P. split; auto. intros Z. rewrite Z in P. destruct (sensors a0); [congruence|discriminate].
  Qed.
End Loaded.
Lemma inside_surrounded a : sensors a <> [] -> increasing (map sx (sensors a)) -> (source_inside a = true <-> surrounded a).
Proof.
  unfold source_inside, surrounded, first_x, last_x, position. intros N I. rewrite andb_true_iff, !Qcltb_lt. split.
  - intros [H1 H2]. destruct (sensors a) as [|s l] eqn:El; [congruence|]. exists s, (last (s :: l) s).
    split; [now left|]. split; [apply List.exists_last in N as (l' & x & ->); rewrite last_last; apply in_or_app; right; now left|].
    cbn in H1. split; auto. assert (L : forall l (s d : sensor) q, l <> [] -> last (map sx l) q = sx (last l d)).
    { clear. induction l as [|x [|y l] IH]; intros s d q Z; [congruence|auto|]. cbn [map last] in *. apply IH; auto. discriminate. }
    now rewrite (L (s :: l) s s 0%Qc N) in H2.
  - intros (s & t & Is & It & H1 & H2). split.
    + destruct (sensors a) as [|s0 l]; [destruct Is|]. cbn in *. destruct Is as [->|Is]; auto.
      inversion I as [|? ? _ F]; subst. rewrite Forall_forall in F. eapply Qclt_trans; [apply (F (sx s)); now apply in_map|auto].
    + apply List.exists_last in N as (l & x & E). rewrite E in *. rewrite map_app. cbn [map]. rewrite last_last.
      apply in_app_iff in It as [It|[<-|[]]]; auto. eapply Qclt_trans; [apply H2|].
      rewrite map_app in I. clear -I It. induction l as [|y l IH]; [destruct It|]. cbn in I. inversion I as [|? ? I' F]; subst.
      destruct It as [->|It]; auto. rewrite Forall_forall in F. apply F. apply in_or_app. right. now left.
Qed.
Lemma loaded_inside E f a : load E f = Ok a -> (source_inside a = true <-> surrounded a).
Proof. intros H. destruct (load_sorted E f a H). now apply inside_surrounded. Qed.

(** * The workflows carry out the documented steps *)
Definition settings (p : arguments) (proc : json) : json :=
  JDict (update "processing" proc (match create_settings_dict p with JDict d => d | _ => [] end)).
Lemma settings_created p : create_settings_dict p = settings p (processing p).
Proof. reflexivity. Qed.
Lemma put_settings p proc proc' : put_processing (settings p proc) proc' = settings p proc'.
Proof. reflexivity. Qed.
Lemma item_processing p proc : item (settings p proc) "processing" = Ok proc.
Proof. reflexivity. Qed.
Lemma bind_assoc {A B C} (r : result A) (f : A -> result B) (g : B -> result C) : bind (bind r f) g = bind r (fun x => bind (f x) g).
Proof. now destruct r. Qed.
Lemma perform_app E l k w : perform E (l ++ k) w = bind (perform E l w) (perform E k).
Proof. revert w. induction l as [|o l IH]; intros w; [reflexivity|]. cbn [app perform]. rewrite bind_assoc. destruct (act E o w); cbn [bind]; auto. Qed.
Lemma bind_id {A} (r : result A) : bind r Ok = r.
Proof. now destruct r. Qed.
Lemma bind_ext {A B} (r : result A) (f g : A -> result B) : (forall a, f a = g a) -> bind r f = bind r g.
Proof. intros H. destruct r; cbn; auto. Qed.

Section Steps.
  Variables (E : environment) (p : arguments) (proc : json).
  Let st := settings p proc.
  Lemma offsets_act w : offsets_step st w = act E (KeepOffsets (given f0 (a_min_offset p)) (given PInf (a_max_offset p))) w.
  Proof. reflexivity. Qed.
  Lemma noise_act w : noise_step st w = perform E (when (given false (a_snr p))
     [SelectNoise (given (Q2Qc (-1 # 2)) (a_noise_begin p)) (given 0%Qc (a_noise_end p))]) w.
  Proof.
    unfold noise_step. cbn. destruct (given false (a_snr p)); cbn [truth when perform]; auto.
    cbn. destruct (w_noise w); cbn; auto. unfold window_of. destruct (copy_array (w_array w)) as [c|]; cbn [bind]; auto.
    cbn. now destruct (changed _).
  Qed.
  Lemma time_act w : time_step st w = perform E (when (given false (a_trim p))
     [TrimTime (given 0%Qc (a_trim_begin p)) (given 1%Qc (a_trim_end p))]) w.
  Proof. unfold time_step. cbn. destruct (given false (a_trim p)); cbn [truth when perform act]; auto. cbn. now rewrite bind_id. Qed.
  Lemma mute_act w : mute_step E st w = perform E (when (given false (a_mute p)) [MutePicked (given "interactive" (a_method p))]) w.
  Proof.
    unfold mute_step. replace (item st "pre-processing") with (item (create_settings_dict p) "pre-processing") by reflexivity.
    cbn [create_settings_dict item lookup String.eqb Ascii.eqb Bool.eqb bind].
    replace (truth (jbool false (a_mute p))) with (given false (a_mute p)) by reflexivity.
    destruct (given false (a_mute p)); cbn [when perform act]; auto.
    rewrite bind_id. destruct (w_lines w); [reflexivity|]. cbn [bind]. unfold jstr.
    remember (given "interactive" (a_method p)) as m eqn:Em; clear Em.
    destruct (String.eqb_spec m "interactive") as [->|N]; [reflexivity|].
    repeat (match goal with |- match ?x with _ => _ end = _ => destruct x end; try reflexivity); now elim N.
  Qed.
  Lemma signal_act w : signal_step st w = perform E (when (given false (a_snr p))
     [SelectSignal (given 0%Qc (a_signal_begin p)) (given (Q2Qc (1 # 2)) (a_signal_end p))]) w.
  Proof.
    unfold signal_step. cbn. destruct (given false (a_snr p)); cbn [truth when perform]; auto.
    cbn. destruct (w_signal w); cbn; auto. unfold window_of. destruct (copy_array (w_array w)) as [c|]; cbn [bind]; auto.
    cbn. now destruct (changed _).
  Qed.
  Lemma pad_act w : pad_step st w = perform E (padding p) w.
  Proof. unfold pad_step, padding. cbn. destruct (given false (a_pad p)); cbn [truth when perform act]; auto. cbn. now rewrite bind_id. Qed.
  Lemma preparation_act w :
    (do w <- check w; do w <- offsets_step st w; do w <- detrend_step w; do w <- noise_step st w; do w <- time_step st w;
     do w <- mute_step E st w; signal_step st w) = perform E (preparation p) w.
  Proof.
    unfold preparation. cbn [app perform]. change (act E RefuseInside w) with (check w). apply bind_ext; intros w1.
    rewrite (offsets_act w1). apply bind_ext; intros w2. cbn [act]. unfold detrend_step. cbn [bind].
    rewrite perform_app, noise_act. apply bind_ext; intros w3. rewrite perform_app, time_act. apply bind_ext; intros w4.
    rewrite perform_app, mute_act. apply bind_ext; intros w5. apply signal_act.
  Qed.
End Steps.
Lemma snr_act E p w : snr_step E (create_settings_dict p) w = perform E (ratio p) w.
Proof.
  unfold snr_step, ratio. cbn. destruct (given false (a_snr p)); cbn [truth when perform act]; auto. cbn.
  destruct (w_signal w), (w_noise w); cbn; auto. destruct (snr_from_arrays _ _ _ _ _ _ _) as [[s' n'] [r|e]]; reflexivity.
Qed.
Lemma file_act E p proc ex w fname : one_file E (settings p proc) ex w fname =
  (do a <- load E (Name fname); if negb (array_similar a ex) then Err ValueError
   else perform E (preparation p ++ padding p) (set_array w a)).
Proof.
  unfold one_file. apply bind_ext; intros a. destruct (negb _); auto. rewrite perform_app.
  rewrite <- (preparation_act E p proc). rewrite !bind_assoc. apply bind_ext; intros w1. rewrite !bind_assoc.
  apply bind_ext; intros w2. rewrite !bind_assoc. apply bind_ext; intros w3. rewrite !bind_assoc. apply bind_ext; intros w4.
  rewrite !bind_assoc. apply bind_ext; intros w5. rewrite !bind_assoc. apply bind_ext; intros w6. rewrite ?bind_assoc.
  apply bind_ext; intros w7. apply pad_act.
Qed.
Lemma time_domain_act E f p : run_time_domain E f (create_settings_dict p) =
  or_stop (create_settings_dict p) (do a <- load E f; perform E (plan p) (started a)) (finish E (create_settings_dict p)).
Proof.
  unfold run_time_domain. f_equal. apply bind_ext; intros a. unfold plan. rewrite perform_app.
  rewrite <- (preparation_act E p (processing p)), <- settings_created. rewrite !bind_assoc. apply bind_ext; intros w1. rewrite !bind_assoc.
  apply bind_ext; intros w2. rewrite !bind_assoc. apply bind_ext; intros w3. rewrite !bind_assoc. apply bind_ext; intros w4.
  rewrite !bind_assoc. apply bind_ext; intros w5. rewrite !bind_assoc. apply bind_ext; intros w6. rewrite ?bind_assoc.
  apply bind_ext; intros w7. rewrite perform_app, snr_act. apply bind_ext; intros w8. rewrite settings_created. apply pad_act.
Qed.
