(* Property C87: the printed descriptions of the workflows. *)
From Verif Require Import WorkflowModel WorkflowSpec DescribeModel DescribeSpec DescribeProofs NumFacts.
Import ListNotations.
Local Open Scope string_scope.
Local Open Scope nat_scope.
Local Open Scope list_scope.
Local Open Scope py_scope.

(** * Concrete surroundings for the examples *)
Local Definition q (a : Z) (b : positive) : Qc := Q2Qc (a # b).
Local Definition tr (src x : Z) (d : Qc) (de : Z) (l : list Z) : trace :=
  mkTrace (map QcZ l) d (Su (mkSu (Value 1%Z) (Value 1%Z) (Value src) (Value 0%Z) (Value x) (Value 0%Z) (Value 1%Z) (Value de))).
Local Definition disk (name : string) : result (list trace) :=
  match name with
  | "x" => Ok [tr (-1) 0 (q 1 1000) 0 [1; 5; 2; 8; 3; 1]%Z; tr (-1) 1 (q 1 1000) 0 [3; 1; 4; 1; 5; 9]%Z]
  | "s" => Ok [tr (-1) 0 (q 1 1000) 0 [1; 2; 1; 0; 1; 1]%Z]
  | _ => Err FileNotFoundError
  end.
Local Definition no_geomspace (_ _ : Qc) (_ : Z) : result (list Qc) := Err ValueError.
Local Definition flat (a : array) (proc : json) : result (transform flt) :=
  do st <- wt_of proc; do e <- empty_from_array no_geomspace a st;
  Ok (mkTransform 1 (wfrq e) (wvel e) (map (map (fun _ => Fin 1%Qc)) (power e)) (Scalar f1)).
Local Definition id1 (x : Qc) := x.
Local Definition lab : environment :=
  mkEnvironment disk id1 id1 (fun _ => Err IndexError) (fun _ n => repeat 1%Qc n) (fun l => l) (swprocess_transforms no_geomspace flat flat flat).
Local Definition args (t : bool) : arguments :=
  mkArguments (Some "time-domain-xcorr") (Some t) (Some 0%Qc) (Some (q 3 1000)) None None None None None None (Some (QcZ 1)) (Some (QcZ 550)) (Some (QcZ 500)) (Some (QcZ 1000)) (Some 3%Z) None None None
    None None None None None None None None None.
Local Definition samples (r : json * result outcome) : result (list (list Q)) :=
  match snd r with Ok o => Ok (map (fun s => map this (amp (ser s))) (sensors (r_array o))) | Err e => Err e end.
Local Lemma signal_read : exists x d, source_signal (K := unit) (fun _ => e_read lab) 0 ["s"] = Ok (x, d) /\ x <> [] /\ (0 < d)%Qc.
Proof. do 2 eexists. split; [reflexivity|]. split; [discriminate|]. apply Qcltb_lt. vm_compute. reflexivity. Qed.

(** * The announced steps are the steps performed *)

(** Stacking in the time domain, without a signal-to-noise ratio. *)
Theorem C87_time_domain : forall E f p signal d, given false (a_snr p) = false ->
  run_time_domain E f (create_settings_dict p) =
  then_transform E p (do a <- load E f; perform E (announced p signal d (workflow_str TimeDomain)) (started a)).
Proof. exact described_time_domain. Qed.
Print Assumptions C87_time_domain.
(** One file, whether it is given alone or as the first of several. *)
Theorem C87_single : forall E x p signal d, given false (a_snr p) = false -> forall f, f = Name x \/ (exists l, f = Names (x :: l)) ->
  run_single E f (create_settings_dict p) =
  then_transform E p (do a <- load E (Name x); perform E (announced p signal d (workflow_str Single)) (started a)).
Proof. exact described_single. Qed.
Print Assumptions C87_single.
(** Stacking in the frequency domain: the announced steps for each file in turn, and the
    array returned is that of the last file. *)
Theorem C87_frequency_domain : forall E f p signal d st' o, given false (a_snr p) = false ->
  run_frequency_domain E f (create_settings_dict p) = (st', Ok o) ->
  exists ex ws, file_by_file E (announced p signal d (workflow_str FrequencyDomain)) (started ex) (iterate f) ws /\
    r_array o = w_array (last ws (started ex)).
Proof. exact described_frequency. Qed.
Print Assumptions C87_frequency_domain.
(** With a signal-to-noise ratio, its steps are the only ones not announced, and the
    others keep their order. *)
Theorem C87_ratio_unannounced : forall p signal d c, c <> TimeDomainXcorr ->
  announced p signal d (workflow_str c) = filter (fun o => negb (of_ratio o)) (plan p).
Proof. exact announced_plain. Qed.
Print Assumptions C87_ratio_unannounced.
Example C87_example : given false (a_snr (args true)) = false /\
  announced (args true) [] 0%Qc (workflow_str FrequencyDomain) =
    [RefuseInside; KeepOffsets f0 PInf; RemoveTrend; TrimTime 0%Qc (q 3 1000)] /\
  (exists l, samples (run_time_domain lab (Names ["x"; "x"]) (create_settings_dict (args true))) = Ok l) /\
  (exists l, samples (run_single lab (Names ["x"; "none"]) (create_settings_dict (args true))) = Ok l) /\
  exists l, samples (run_frequency_domain lab (Names ["x"; "x"]) (create_settings_dict (args true))) = Ok l.
Proof. split; [reflexivity|]. split; [reflexivity|]. repeat split; eexists; vm_compute; reflexivity. Qed.

(** * Cross-correlation with the source *)

(** What the workflow does: the records begin at time zero, and the correlation comes
    after trim, mute and ratio, before the padding. *)
Theorem C87_xcorr : forall E f fsrc ch p x d,
  source_signal (K := unit) (fun _ => e_read E) ch fsrc = Ok (x, d) -> x <> [] -> (0 < d)%Qc ->
  run_xcorr E f fsrc ch (create_settings_dict p) =
  then_transform E p
    (do a <- load E f; do b <- from_zero a;
     perform E (preparation p ++ ratio p ++ [Correlate x d (given (QcZ 100) (a_vmin p)) (given (QcZ 1000) (a_vmax p))] ++ padding p) (started b)).
Proof. exact xcorr_result. Qed.
Print Assumptions C87_xcorr.
(** Missing is what C87_xcorr_order_refuted shows: a run with trim or mute. *)
Theorem C87_xcorr_partial : forall E f fsrc ch p x d,
  source_signal (K := unit) (fun _ => e_read E) ch fsrc = Ok (x, d) -> x <> [] -> (0 < d)%Qc ->
  given false (a_snr p) = false -> given false (a_trim p) = false -> given false (a_mute p) = false ->
  run_xcorr E f fsrc ch (create_settings_dict p) =
  then_transform E p (do a <- load E f; do b <- from_zero a; perform E (announced p x d (workflow_str TimeDomainXcorr)) (started b)).
Proof. exact described_xcorr. Qed.
Print Assumptions C87_xcorr_partial.
Example C87_xcorr_example : exists x d l, source_signal (K := unit) (fun _ => e_read lab) 0 ["s"] = Ok (x, d) /\ x <> [] /\ (0 < d)%Qc /\
  samples (run_xcorr lab (Name "x") ["s"] 0 (create_settings_dict (args false))) = Ok l /\ l <> [].
Proof.
  destruct signal_read as (x & d & S & N & D). exists x, d. eexists. split; [exact S|]. split; [exact N|]. split; [exact D|].
  split; [vm_compute; reflexivity|discriminate].
Qed.
(** Records trimmed to the first 3 ms: cross-correlated first, as announced, 4 samples
    (3 ms) are left; the run delivers 9 samples (8 ms). *)
Theorem C87_xcorr_order_refuted : exists E f fsrc ch p x d l k,
  source_signal (K := unit) (fun _ => e_read E) ch fsrc = Ok (x, d) /\ x <> [] /\ (0 < d)%Qc /\
  samples (run_xcorr E f fsrc ch (create_settings_dict p)) = Ok l /\
  samples (then_transform E p
    (do a <- load E f; do b <- from_zero a; perform E (announced p x d (workflow_str TimeDomainXcorr)) (started b))) = Ok k /\
  map (@List.length Q) l = [9; 9] /\ map (@List.length Q) k = [4; 4].
Proof.
  destruct signal_read as (x & d & S & N & D).
  exists lab, (Name "x"), ["s"], 0%Z, (args true), x, d. do 2 eexists. split; [exact S|]. split; [exact N|]. split; [exact D|].
  injection S as <- <-. split; [vm_compute; reflexivity|]. split; [vm_compute; reflexivity|]. split; reflexivity.
Qed.
Print Assumptions C87_xcorr_order_refuted.

(** * The name *)

(** The second line names the workflow as it is registered, ... *)
Theorem C87_title_partial : forall n c, In (n, c) swprocess_workflows -> c <> TimeDomainXcorr ->
  nth 1 (lines (workflow_str c)) "" = ("MaswWorkflow: " ++ n)%string.
Proof. intros n c [Q|[Q|[Q|[Q|[]]]]] N; inversion Q; subst; try (now elim N); vm_compute; reflexivity. Qed.
Print Assumptions C87_title_partial.
Example C87_title_example : In ("frequency-domain", FrequencyDomain) swprocess_workflows /\ FrequencyDomain <> TimeDomainXcorr.
Proof. split; [cbn; auto|discriminate]. Qed.
(** ... except that the workflow with cross-correlation takes the name of another one. *)
Theorem C87_title_refuted : exists n c n' c', In (n, c) swprocess_workflows /\ In (n', c') swprocess_workflows /\ n <> n' /\
  nth 1 (lines (workflow_str c)) "" = ("MaswWorkflow: " ++ n')%string.
Proof.
  exists "time-domain-xcorr", TimeDomainXcorr, "time-domain", TimeDomain. cbn [swprocess_workflows In].
  split; [auto|]. split; [auto|]. split; [discriminate|]. vm_compute. reflexivity.
Qed.
Print Assumptions C87_title_refuted.
