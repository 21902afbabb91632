(* Property C104: settings written by hand. *)
From Verif Require Import NumFacts WorkflowModel WorkflowSpec WorkflowProofs WorkflowProps SettingsSpec SettingsProofs SettingsRunProofs SettingsSameProofs SettingsNeedProofs.
Local Open Scope string_scope.
Local Open Scope nat_scope.
Local Open Scope list_scope.
Local Open Scope py_scope.

(** ** C104: the settings decide, however they are written *)

(** Exactly the steps asked for are carried out, in order, with the values given; then the
    transform named is applied.  Numbers may be written as int or float, switches as any value. *)
Theorem C104_time_domain : forall E f st q proc name fl fh,
  asks st q -> at_path st ["processing"] = Some proc -> at_path proc ["transform"] = Some (JStr name) ->
  (q_snr q <> None -> number proc ["fmin"] fl /\ number proc ["fmax"] fh) ->
  run_time_domain E f st =
  match (do a <- load E f; carry_out E (stages q fl fh) (started a)) with
  | Err e => (st, Err e)
  | Ok w =>
      match lookup name (e_transforms E) with
      | None => (st, Err KeyError)
      | Some c => let (proc', r) := c (w_array w) proc in
                  (replace_entry st ["processing"] proc', do t <- r; Ok (mkOutcome t (w_array w) (w_snr w)))
      end
  end.
Proof. exact time_domain_asked. Qed.
Print Assumptions C104_time_domain.

(** Settings that ask for the same give the same outcome in every workflow, whatever else they
    contain and in whatever order. *)
Theorem C104_same : forall E f fsrc ch st st' q proc,
  asks st q -> asks st' q -> at_path st ["processing"] = Some proc -> at_path st' ["processing"] = Some proc ->
  at_path st ["workflow"] = at_path st' ["workflow"] ->
  snd (masw_run E f st) = snd (masw_run E f st') /\ snd (xcorr_run E f fsrc ch st) = snd (xcorr_run E f fsrc ch st').
Proof.
  intros E f fsrc ch st st' q proc A A' P P' W. assert (S : same st st') by now exists q, proc.
  assert (I : item st "workflow" = item st' "workflow").
  { destruct st, st'; try discriminate. cbn in *. destruct (lookup "workflow" d), (lookup "workflow" d0); congruence. }
  split; [now apply masw_same|now apply xcorr_run_same].
Qed.
Print Assumptions C104_same.
Theorem C104_same_workflow : forall E f fsrc ch st st' q proc,
  asks st q -> asks st' q -> at_path st ["processing"] = Some proc -> at_path st' ["processing"] = Some proc ->
  snd (run_single E f st) = snd (run_single E f st') /\ snd (run_time_domain E f st) = snd (run_time_domain E f st') /\
  snd (run_frequency_domain E f st) = snd (run_frequency_domain E f st') /\
  snd (run_xcorr E f fsrc ch st) = snd (run_xcorr E f fsrc ch st').
Proof.
  intros E f fsrc ch st st' q proc A A' P P'. assert (S : same st st') by now exists q, proc.
  split; [now apply single_same|]. split; [now apply time_domain_same|]. split; [now apply frequency_same|now apply xcorr_same].
Qed.
Print Assumptions C104_same_workflow.

(** The settings made from arguments ask for what the arguments say. *)
Theorem C104_created : forall p, asks (create_settings_dict p) (requested p).
Proof. exact created_asks. Qed.
Print Assumptions C104_created.

(** A run that succeeds found every entry it needs, of the right type: nothing is guessed. *)
Theorem C104_needs : forall E f st st' o, finite_settings st -> run_time_domain E f st = (st', Ok o) ->
  exists q proc name, asks st q /\ at_path st ["processing"] = Some proc /\ at_path proc ["transform"] = Some (JStr name) /\
    In name (map fst (e_transforms E)) /\ (q_snr q <> None -> exists fl fh, number proc ["fmin"] fl /\ number proc ["fmax"] fh).
Proof. intros E f st st' o _. apply time_domain_need. Qed.
Print Assumptions C104_needs.

(** A missing offset limit is a KeyError, one that is not a number a TypeError. *)
Theorem C104_missing : forall E f st a d, load E f = Ok a -> source_inside a = false ->
  at_path st ["pre-processing"; "offsets"] = Some (JDict d) -> at_path st ["pre-processing"; "offsets"; "min"] = None ->
  run_time_domain E f st = (st, Err KeyError).
Proof.
  intros E f st a d L S O M. unfold run_time_domain. rewrite L. cbn [bind]. unfold check at 1. cbn [w_array started]. rewrite S. cbn [bind].
  unfold offsets_step. destruct (at_item _ _ _ _ O) as (pp & I & O'). rewrite I. cbn [bind]. rewrite (item_at _ _ _ _ I) in M.
  apply at_1 in O'. rewrite O'. cbn [bind]. rewrite (item_at _ _ _ _ O') in M. cbn in M. cbn [item].
  destruct (lookup "min" d); [discriminate|]. reflexivity.
Qed.
Print Assumptions C104_missing.
Theorem C104_wrong_type : forall E f st a v, load E f = Ok a -> source_inside a = false ->
  at_path st ["pre-processing"; "offsets"; "min"] = Some v -> (exists w, at_path st ["pre-processing"; "offsets"; "max"] = Some w) ->
  (forall x, ~ bound st ["pre-processing"; "offsets"; "min"] x) ->
  run_time_domain E f st = (st, Err TypeError).
Proof.
  intros E f st a v L S M [w W] N. unfold run_time_domain. rewrite L. cbn [bind]. unfold check at 1. cbn [w_array started]. rewrite S. cbn [bind].
  unfold offsets_step.
  destruct (at_item _ _ _ _ M) as (pp & I & M1). rewrite I. cbn [bind]. rewrite (item_at _ _ _ _ I) in W.
  destruct (at_item _ _ _ _ M1) as (o & I1 & M2). rewrite I1. cbn [bind]. rewrite (item_at _ _ _ _ I1) in W.
  apply at_1 in M2. apply at_1 in W. rewrite M2, W. cbn [bind]. destruct (real v) as [x|e] eqn:R.
  - exfalso. apply (N x). apply (item_bound _ _ _ _ _ I). apply (item_bound _ _ _ _ _ I1). apply (item_bound _ _ _ _ _ M2). now apply real_bound.
  - unfold real in R. destruct v; try discriminate; injection R as <-; reflexivity.
Qed.
Print Assumptions C104_wrong_type.
(** An unknown transform stops the frequency-domain workflow before any file is processed. *)
Theorem C104_unknown_transform : forall E f st x l ex empty proc proc' t name,
  iterate f = x :: l -> example_array E st x = Ok ex -> lookup "empty" (e_transforms E) = Some empty ->
  at_path st ["processing"] = Some proc -> empty ex proc = (proc', Ok t) ->
  at_path proc' ["transform"] = Some (JStr name) -> ~ In name (map fst (e_transforms E)) ->
  run_frequency_domain E f st = (replace_entry st ["processing"] proc', Err KeyError).
Proof.
  intros E f st x l ex empty proc proc' t name F X L P C T N. unfold run_frequency_domain. rewrite F.
  replace (pyget (x :: l) 0) with (Ok x) by reflexivity. cbn [bind]. rewrite X. cbn [bind].
  rewrite L, (at_1 _ _ _ P). cbn [bind or_stop]. rewrite C. cbn [bind].
  rewrite (at_1 _ _ _ (put_self st proc' proc P)). cbn [bind]. rewrite (at_1 _ _ _ T). cbn [bind str].
  assert (Q : lookup name (e_transforms E) = None).
  { clear -N. induction (e_transforms E) as [|[k v] d IH]; [reflexivity|]. cbn in *. destruct (String.eqb_spec name k) as [->|]; [tauto|]. apply IH. tauto. }
  rewrite Q. cbn [or_stop]. now rewrite (put_replace st proc' proc P).
Qed.
Print Assumptions C104_unknown_transform.

(** Settings in another order, with whole numbers, 1 and 0 as switches, entries that are not
    needed left out and one unknown entry: a run that succeeds. *)
Definition by_hand : json := JDict [
  ("comment", JStr "Tuesday");
  ("signal-to-noise", JDict [("perform", JNull)]);
  ("processing", JDict [("nvel", JInt 3); ("transform", JStr "fdbf"); ("fmin", JInt 5); ("fmax", JInt 550);
     ("vmin", JInt 100); ("vmax", JInt 1000); ("vspace", JStr "linear")]);
  ("pre-processing", JDict [
     ("offsets", JDict [("max", JNum PInf); ("min", JBool false)]);
     ("pad", JDict [("apply", JStr "")]);
     ("trim", JDict [("apply", JInt 1); ("begin", JInt 0); ("end", JNum (Fin (Q2Qc (2 # 1000))))]);
     ("mute", JDict [("apply", JInt 0)])]);
  ("workflow", JStr "time-domain")].
Example by_hand_asks : asks by_hand (mkRequest (Fin 0%Qc, PInf) None (Some (0%Qc, Q2Qc (2 # 1000))) None None).
Proof.
  unfold asks. cbn [q_offsets q_snr q_trim q_mute q_pad fst snd]. split; [right; exists (JBool false), 0%Z; repeat split; constructor|]. split; [left; reflexivity|].
  split; [exists JNull; split; [reflexivity|constructor]|]. split; [split|split].
  - exists (JInt 1). split; [reflexivity|]. intros H. inversion H.
  - split; cbn [app fst snd]; [right; exists (JInt 0), 0%Z; repeat split; constructor|left; reflexivity].
  - exists (JInt 0). split; [reflexivity|constructor].
  - exists (JStr ""). split; [reflexivity|constructor].
Qed.
Example by_hand_finite : finite_settings by_hand.
Proof.
  intros path x H. unfold by_hand in H.
  destruct path as [|k1 [|k2 [|k3 [|k4 p]]]]; cbn [at_path lookup] in H; try discriminate;
  repeat (match type of H with context [String.eqb ?k ?t] => destruct (String.eqb_spec k t); subst end; cbn [at_path lookup] in H; try discriminate);
  first [right; eexists; reflexivity|left; injection H as <-; eexists; reflexivity].
Qed.
Example by_hand_runs : WorkflowProps.fine (masw_run WorkflowProps.lab (Names ["x"; "y"]) by_hand) = true.
Proof. vm_compute. reflexivity. Qed.
Example by_hand_incomplete :
  run_time_domain WorkflowProps.lab (Name "x") (JDict [("pre-processing", JDict [("offsets", JDict [])])]) =
  (JDict [("pre-processing", JDict [("offsets", JDict [])])], Err KeyError).
Proof.
  assert (L : exists a, load WorkflowProps.lab (Name "x") = Ok a /\ source_inside a = false).
  { destruct (WorkflowProps.loads_ok (Name "x") (fun a => negb (source_inside a))) as (a & L & S); [vm_compute; reflexivity|].
    exists a. split; [exact L|]. now destruct (source_inside a). }
  destruct L as (a & L & S). now apply (C104_missing _ _ _ a []).
Qed.

(** "fk" overwrites two settings; settings it cannot write to are an error, and nothing is changed. *)
Theorem C104_fk_settings : forall fdbf a proc,
  match at_path proc ["fdbf-specific"] with
  | Some (JDict d) =>
      exists proc', fst (fk_class fdbf a proc) = proc' /\ snd (fk_class fdbf a proc) = fdbf a proc' /\
      at_path proc' ["fdbf-specific"; "weighting"] = Some (JStr "none") /\ at_path proc' ["fdbf-specific"; "steering"] = Some (JStr "plane") /\
      (forall k, k <> "weighting" -> k <> "steering" -> at_path proc' ["fdbf-specific"; k] = at_path proc ["fdbf-specific"; k]) /\
      (forall k, k <> "fdbf-specific" -> at_path proc' [k] = at_path proc [k])
  | Some _ => fk_class fdbf a proc = (proc, Err TypeError)
  | None => fk_class fdbf a proc = (proc, Err (match proc with JDict _ => KeyError | _ => TypeError end))
  end.
Proof.
  assert (U : forall k v (d : list (string * json)), lookup k (update k v d) = Some v).
  { intros k v d. induction d as [|[k' w] d IH]; cbn; [now rewrite String.eqb_refl|].
    destruct (String.eqb k k') eqn:E; cbn; [now rewrite E|now rewrite E]. }
  assert (O : forall k k' v (d : list (string * json)), k <> k' -> lookup k (update k' v d) = lookup k d).
  { intros k k' v d N. induction d as [|[j w] d IH]; cbn.
    - apply String.eqb_neq in N. now rewrite N.
    - destruct (String.eqb k' j) eqn:E; cbn.
      + apply String.eqb_eq in E. subst j. apply String.eqb_neq in N. now rewrite N.
      + now rewrite IH. }
  intros fdbf a proc. unfold fk_class. destruct proc as [| | | | |d]; try reflexivity. cbn [at_path item].
  destruct (lookup "fdbf-specific" d) as [[| | | | |e]|] eqn:L; try reflexivity. cbn [bind set_item].
  eexists. split; [reflexivity|]. split; [reflexivity|]. cbn [fst]. cbn [at_path]. rewrite U. cbn [at_path]. repeat split.
  - rewrite O by discriminate. rewrite U. reflexivity.
  - rewrite U. reflexivity.
  - intros k N1 N2. now rewrite !O by auto.
  - intros k N. now rewrite O by auto.
Qed.
Print Assumptions C104_fk_settings.
Example C104_fk_settings_case : forall fdbf a, fk_class fdbf a (JDict [("fdbf-specific", JNull)]) = (JDict [("fdbf-specific", JNull)], Err TypeError).
Proof. intros fdbf a. exact (C104_fk_settings fdbf a (JDict [("fdbf-specific", JNull)])). Qed.

(** The three transforms that only read their settings: the name in the settings decides which one
    is applied to the pre-processed array; settings come back unchanged, other names are refused. *)
Definition applied (name : string) (ss ps fd : array -> json -> result (transform flt)) (other : result (transform flt)) (a : array) (proc : json) :=
  if String.eqb name "slantstack" then ss a proc else if String.eqb name "phaseshift" then ps a proc
  else if String.eqb name "fdbf" then fd a proc else other.
Local Lemma update_same k (v : json) d : lookup k d = Some v -> update k v d = d.
Proof.
  induction d as [|[k' w] d IH]; [discriminate|]. cbn [lookup update]. destruct (String.eqb k k'); [now intros [= ->]|].
  intros L. now rewrite (IH L).
Qed.
Theorem C104_transforms : forall E f st q proc name fl fh g ss ps fd,
  e_transforms E = swprocess_transforms g ss ps fd ->
  asks st q -> at_path st ["processing"] = Some proc -> at_path proc ["transform"] = Some (JStr name) ->
  (q_snr q <> None -> number proc ["fmin"] fl /\ number proc ["fmax"] fh) ->
  name <> "empty" -> name <> "fk" ->
  run_time_domain E f st =
  match (do a <- load E f; carry_out E (stages q fl fh) (started a)) with
  | Err e => (st, Err e)
  | Ok w => (st, do t <- applied name ss ps fd (Err KeyError) (w_array w) proc; Ok (mkOutcome t (w_array w) (w_snr w)))
  end.
Proof.
  intros E f st q proc name fl fh g ss ps fd Et A P T S Ne Nk. rewrite (C104_time_domain E f st q proc name fl fh A P T S).
  destruct (do a <- load E f; carry_out E (stages q fl fh) (started a)) as [w|e]; [|reflexivity].
  assert (R : replace_entry st ["processing"] proc = st).
  { destruct st; try discriminate P. unfold at_path in P. unfold replace_entry. destruct (lookup "processing" d) eqn:L; [|discriminate].
    injection P as ->. apply f_equal. now apply update_same. }
  rewrite Et. unfold swprocess_transforms, applied. cbn [lookup].
  rewrite (proj2 (String.eqb_neq name "empty") Ne), (proj2 (String.eqb_neq name "fk") Nk).
  destruct (String.eqb name "slantstack"), (String.eqb name "phaseshift"), (String.eqb name "fdbf"); unfold reading; rewrite ?R; reflexivity.
Qed.
Print Assumptions C104_transforms.
Example C104_transforms_case : exists o, run_time_domain WorkflowProps.lab (Name "x") by_hand = (by_hand, Ok o).
Proof.
  rewrite (C104_transforms WorkflowProps.lab (Name "x") by_hand _ _ "fdbf" 0%Qc 0%Qc _ _ _ _ eq_refl by_hand_asks eq_refl eq_refl);
    [|now intros []|discriminate|discriminate].
  assert (F : match (do a <- load WorkflowProps.lab (Name "x");
      carry_out WorkflowProps.lab (stages (mkRequest (Fin 0%Qc, PInf) None (Some (0%Qc, Q2Qc (2 # 1000))) None None) 0%Qc 0%Qc) (started a)) with
      | Ok w => match applied "fdbf" WorkflowProps.flat WorkflowProps.flat WorkflowProps.flat (Err KeyError) (w_array w)
                  (JDict [("nvel", JInt 3); ("transform", JStr "fdbf"); ("fmin", JInt 5); ("fmax", JInt 550);
                     ("vmin", JInt 100); ("vmax", JInt 1000); ("vspace", JStr "linear")]) with Ok _ => true | Err _ => false end
      | Err _ => false end = true) by (vm_compute; reflexivity).
  destruct (do a <- load WorkflowProps.lab (Name "x"); _) as [w|]; [|discriminate].
  destruct (applied _ _ _ _ _ _ _); [|discriminate]. eexists. reflexivity.
Qed.
