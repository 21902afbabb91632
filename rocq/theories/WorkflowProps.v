(* Properties C58-C64, C75-C77 and C125-C127: the MASW workflows, their settings and the registries. *)
From Coq Require Import Permutation.
From Verif Require StackOrderProofs.
From Verif Require Import WorkflowModel WorkflowSpec WorkflowProofs WorkflowGridProofs WorkflowRunProofs WorkflowEffectProofs WorkflowSnrProofs
  WorkflowOneSpec WorkflowOneProofs WorkflowOrderProofs SeriesSpec TransformSpec NumFacts.
Local Open Scope string_scope.
Local Open Scope nat_scope.
Local Open Scope list_scope.
Local Open Scope py_scope.

(** * Concrete surroundings for the examples *)
Local Definition q (a : Z) (b : positive) : Qc := Q2Qc (a # b).
Local Definition id1 (x : Qc) := x.
(** A trace of an SU file: source position, receiver position, time step, samples. *)
Local Definition tr (src x : Z) (d : Qc) (de : Z) (l : list Z) : trace :=
  mkTrace (map QcZ l) d (Su (mkSu (Value 1%Z) (Value 1%Z) (Value src) (Value 0%Z) (Value x) (Value 0%Z) (Value 1%Z) (Value de))).
Local Definition file (src : Z) (d : Qc) (de : Z) : list trace := [tr src 0 d de [1; 5; 2; 8]%Z; tr src 2 d de [3; 1; 4; 1]%Z].
Local Definition disk (name : string) : result (list trace) :=
  match name with
  | "ab" | "x" | "y" => Ok (file (-5) (q 1 1000) 0)
  | "slow" => Ok (file (-5) (q 1 800) 0)
  | "pre" => Ok (file (-5) (q 1 1000) (-2))
  | "inside" => Ok (file 1 (q 1 1000) 0)
  | "early" => Ok (file 1 (q 1 1000) (-1000))
  | _ => Err FileNotFoundError
  end.
Local Definition no_geomspace (_ _ : Qc) (_ : Z) : result (list Qc) := Err ValueError.
(** A transform with power one on the grid of the empty transform. *)
Local Definition flat (a : array) (proc : json) : result (transform flt) :=
  do st <- wt_of proc; do e <- empty_from_array no_geomspace a st;
  Ok (mkTransform 1 (wfrq e) (wvel e) (map (map (fun _ => Fin 1%Qc)) (power e)) (Scalar f1)).
Local Definition lab : environment :=
  mkEnvironment disk id1 id1 (fun _ => Err IndexError) (fun _ n => repeat 1%Qc n) (fun l => l) (swprocess_transforms no_geomspace flat flat flat).
Local Definition nothing : arguments :=
  mkArguments None None None None None None None None None None None None None None None None None None None None None None None None None None None.
Local Definition chosen (workflow transform : option string) (fmax : Z) : arguments :=
  mkArguments workflow None None None None None None None None transform None (Some (QcZ fmax)) None None (Some 3%Z) None None None
    None None None None None None None None None.
(** With trimming and a signal-to-noise ratio. *)
Local Definition trimming (workflow : option string) (b e : Qc) : arguments :=
  mkArguments workflow (Some true) (Some b) (Some e) None None None None None None None (Some (QcZ 550)) None None (Some 3%Z) None None None
    None None None None None None None None None.
Local Definition rating (workflow : option string) : arguments :=
  mkArguments workflow None None None None None None None None None (Some (QcZ 1)) (Some (QcZ 550)) None None (Some 3%Z) None None None
    (Some true) (Some (q (-2) 1000)) (Some 0%Qc) (Some (q (-1) 1000)) (Some (q 1 1000)) (Some false) None None None.
Local Definition fine {A B} (r : A * result B) : bool := match snd r with Ok _ => true | Err _ => false end.
Local Lemma fine_ok {A B} (r : A * result B) : fine r = true -> exists a b, r = (a, Ok b).
Proof. destruct r as [a [b|]]; cbn; intros; [eauto|discriminate]. Qed.
Local Definition loads (f : names) (test : array -> bool) : bool := match load lab f with Ok a => test a | Err _ => false end.
Local Lemma loads_ok f test : loads f test = true -> exists a, load lab f = Ok a /\ test a = true.
Proof. unfold loads. destruct (load lab f); [eauto|discriminate]. Qed.
Local Definition fails (e : exn) {A B} (r : A * result B) : Prop := snd r = Err e.

(** * C58: a source inside the array *)

Theorem C58_time_domain : forall E f st a, load E f = Ok a -> surrounded a -> run_time_domain E f st = (st, Err ValueError).
Proof. exact time_domain_refuses. Qed.
Print Assumptions C58_time_domain.

Theorem C58_single : forall E f st x l a, f = Name x \/ f = Names (x :: l) -> load E (Name x) = Ok a -> surrounded a ->
  run_single E f st = (st, Err ValueError).
Proof.
  intros E f st x l a [-> | ->] L S; [apply (time_domain_refuses E (Name x) st a L S)|]. unfold run_single.
  destruct l; [|apply (time_domain_refuses E (Name x) st a L S)]. apply (time_domain_refuses E (Names [x]) st a L S).
Qed.
Print Assumptions C58_single.

(** Every workflow: a run that returns has only read arrays with the source outside. *)
Theorem C58_never_processed : forall E f st st' o, run_frequency_domain E f st = (st', Ok o) ->
  forall x, In x (iterate f) -> exists a, load E (Name x) = Ok a /\ ~ surrounded a.
Proof.
  intros E f st st' o H x I. destruct (frequency_checked E f st st' o H) as (y & l & ex & _ & _ & G). destruct (G x I) as (a & L & _ & S).
  exists a. split; auto. intros Q. apply (loaded_inside E _ a L) in Q. congruence.
Qed.
Print Assumptions C58_never_processed.
Theorem C58_xcorr_never_processed : forall E f fsrc ch st a o, load E f = Ok a -> surrounded a ->
  snd (run_xcorr E f fsrc ch st) <> Ok o.
Proof. exact xcorr_refuses. Qed.
Print Assumptions C58_xcorr_never_processed.

(** Frequency domain: missing is that the example array (trimmed, padded) and the empty
    transform are computed first, so that their exceptions come before the check. *)
Theorem C58_frequency_partial : forall E f st x l a ex c proc proc' running j n c',
  iterate f = x :: l -> load E (Name x) = Ok a -> surrounded a ->
  example_array E st x = Ok ex -> lookup "empty" (e_transforms E) = Some c -> item st "processing" = Ok proc ->
  c ex proc = (proc', Ok running) -> item proc' "transform" = Ok j -> str j = Ok n -> lookup n (e_transforms E) = Some c' ->
  snd (run_frequency_domain E f st) = Err ValueError.
Proof. exact frequency_refuses. Qed.
Print Assumptions C58_frequency_partial.
(** Cross-correlation: missing are records that do not include time zero. *)
Theorem C58_xcorr_partial : forall E f fsrc ch st a x d, load E f = Ok a -> surrounded a ->
  source_signal (K := unit) (fun _ => e_read E) ch fsrc = Ok (x, d) -> x <> [] -> (0 < d)%Qc ->
  (forall s, In s (sensors a) -> amp (ser s) <> [] /\ (0 < dt (ser s))%Qc /\ (delay (ser s) <= 0)%Qc /\
     (0 <= time_at (ser s) (List.length (amp (ser s)) - 1))%Qc) ->
  run_xcorr E f fsrc ch st = (st, Err ValueError).
Proof. exact xcorr_refuses_exactly. Qed.
Print Assumptions C58_xcorr_partial.

Local Lemma between_ok f : loads f source_inside = true -> exists a, load lab f = Ok a /\ surrounded a.
Proof. intros H. apply loads_ok in H as (a & L & S). exists a. split; auto. now apply (loaded_inside lab f a L). Qed.
Example C58_example : exists a, load lab (Name "inside") = Ok a /\ surrounded a.
Proof. apply between_ok. vm_compute. reflexivity. Qed.
Example C58_frequency_example : snd (run_frequency_domain lab (Names ["inside"]) (create_settings_dict (chosen None None 550))) = Err ValueError.
Proof. vm_compute. reflexivity. Qed.
Example C58_xcorr_example : snd (run_xcorr lab (Name "inside") ["x"] 0 (create_settings_dict nothing)) = Err ValueError.
Proof. vm_compute. reflexivity. Qed.

(** The trim of the example array fails first. *)
Theorem C58_frequency_refuted : exists E f st x a, iterate f = [x] /\ load E (Name x) = Ok a /\ surrounded a /\
  snd (run_frequency_domain E f st) = Err IndexError.
Proof.
  destruct C58_example as (a & L & S). exists lab, (Names ["inside"]), (create_settings_dict (trimming None 0%Qc 1%Qc)), "inside", a.
  split; [reflexivity|]. split; [exact L|]. split; [exact S|]. vm_compute. reflexivity.
Qed.
Print Assumptions C58_frequency_refuted.
(** A record that ends before time zero: the first trim fails. *)
Theorem C58_xcorr_refuted : exists E f fsrc ch st a, load E f = Ok a /\ surrounded a /\ snd (run_xcorr E f fsrc ch st) = Err IndexError.
Proof.
  destruct (between_ok (Name "early")) as (a & L & S); [vm_compute; reflexivity|].
  exists lab, (Name "early"), ["x"], 0%Z, (create_settings_dict nothing), a. split; [exact L|]. split; [exact S|]. vm_compute. reflexivity.
Qed.
Print Assumptions C58_xcorr_refuted.

(** * C59: exactly the enabled steps *)

Theorem C59_time_domain : forall E f p, run_time_domain E f (create_settings_dict p) =
  match (do a <- load E f; perform E (plan p) (started a)) with
  | Err e => (create_settings_dict p, Err e)
  | Ok w =>
      match lookup (given "fdbf" (a_transform p)) (e_transforms E) with
      | None => (create_settings_dict p, Err KeyError)
      | Some c => let (proc', r) := c (w_array w) (processing p) in
                  (replace_entry (create_settings_dict p) ["processing"] proc', do t <- r; Ok (mkOutcome t (w_array w) (w_snr w)))
      end
  end.
Proof. exact time_domain_result. Qed.
Print Assumptions C59_time_domain.
(** The single workflow is the time-domain workflow on the first file. *)
Theorem C59_single : forall E x y l st, run_single E (Names (x :: y :: l)) st = run_time_domain E (Name x) st /\
  run_single E (Names [x]) st = run_time_domain E (Names [x]) st /\ run_single E (Name x) st = run_time_domain E (Name x) st /\
  run_single E (Names []) st = (st, Err IndexError).
Proof. repeat split. Qed.
Print Assumptions C59_single.
(** Which steps there are, and in which order. *)
Theorem C59_order : forall p,
  (given false (a_trim p) = false -> forall b e, ~ In (TrimTime b e) (plan p)) /\
  (given false (a_mute p) = false -> forall m, ~ In (MutePicked m) (plan p)) /\
  (given false (a_pad p) = false -> forall d, ~ In (PadRecords d) (plan p)) /\
  (given false (a_snr p) = false -> forall o, In o (plan p) ->
     match o with SelectNoise _ _ | SelectSignal _ _ | SignalToNoise _ _ _ _ => False | _ => True end) /\
  (given false (a_trim p) = true -> given false (a_mute p) = true -> given false (a_pad p) = true -> given false (a_snr p) = true ->
   plan p = [RefuseInside; KeepOffsets (given f0 (a_min_offset p)) (given PInf (a_max_offset p)); RemoveTrend;
             SelectNoise (given (q (-1) 2) (a_noise_begin p)) (given 0%Qc (a_noise_end p));
             TrimTime (given 0%Qc (a_trim_begin p)) (given 1%Qc (a_trim_end p)); MutePicked (given "interactive" (a_method p));
             SelectSignal (given 0%Qc (a_signal_begin p)) (given (q 1 2) (a_signal_end p));
             SignalToNoise (given (QcZ 5) (a_fmin p)) (given (QcZ 100) (a_fmax p)) (given true (a_pad_snr p)) (given 1%Qc (a_df_snr p));
             PadRecords (given 1%Qc (a_df p))]).
Proof.
  intros p. unfold plan, preparation, ratio, padding.
  destruct (given false (a_trim p)), (given false (a_mute p)), (given false (a_pad p)), (given false (a_snr p)); cbn;
    repeat split; try discriminate; intros; intuition (subst; try discriminate; auto).
Qed.
Print Assumptions C59_order.
Example C59_example : fine (run_time_domain lab (Names ["x"; "y"]) (create_settings_dict (chosen None None 550))) = true /\
  fine (run_time_domain lab (Names ["x"]) (create_settings_dict (trimming None (q 0 1) (q 2 1000)))) = true.
Proof. split; vm_compute; reflexivity. Qed.

(** * C60: the mute window *)

(** window_kwargs never matters, for any files, picks, tapers and transforms. *)
Theorem C60_refuted : forall E f p k,
  snd (masw_run E f (create_settings_dict (with_window p k))) = snd (masw_run E f (create_settings_dict p)).
Proof. exact window_ignored. Qed.
Print Assumptions C60_refuted.
(** A run with muting that succeeds: the taper used is the one for alpha = 0.2. *)
Local Definition picking : environment :=
  mkEnvironment disk id1 id1 (fun _ => Ok (((0%Qc, 0%Qc), (QcZ 2, 0%Qc)), ((0%Qc, q 3 1000), (QcZ 2, q 3 1000))))
    (fun k n => match k with JDict [("alpha", JNum (Fin x))] => repeat x n | _ => repeat 1%Qc n end) (fun l => l)
    (swprocess_transforms no_geomspace flat flat flat).
Local Definition muting (k : list (string * json)) : arguments :=
  mkArguments None None None None (Some true) None (Some k) None None None None (Some (QcZ 550)) None None (Some 3%Z) None None None
    None None None None None None None None None.
Local Definition samples (r : json * result outcome) : list (list Q) :=
  match snd r with Ok o => map (fun s => map this (amp (ser s))) (sensors (r_array o)) | Err _ => [] end.
Example C60_example :
  samples (masw_run picking (Name "x") (create_settings_dict (muting [("alpha", JNum (Fin 1%Qc))]))) =
  samples (masw_run picking (Name "x") (create_settings_dict (muting [("alpha", JNum (Fin (q 1 5)))]))) /\
  samples (masw_run picking (Name "x") (create_settings_dict (muting [("alpha", JNum (Fin 1%Qc))]))) <> [].
Proof. split; vm_compute; [reflexivity|discriminate]. Qed.

(** * C61: the frequency-domain workflow averages all files *)

(** Missing is what C61_refuted shows: files whose records differ in time step, delay or
    length; and the exceptions of the single steps (see C59 and C58_never_processed). *)
Theorem C61_mean_partial : forall E geomspace g p f st' o m,
  lookup "empty" (e_transforms E) = Some (empty_class geomspace) ->
  lookup (given "fdbf" (a_transform p)) (e_transforms E) = Some (reading g) -> standard geomspace g ->
  (forall x a, In x (iterate f) -> load E (Name x) = Ok a -> like m a) ->
  run_frequency_domain E f (create_settings_dict p) = (st', Ok o) ->
  exists ex ws ts ms q, successive E p (started ex) (iterate f) ws /\
    Forall2 (fun w t => g (w_array w) (processing p) = Ok t) ws ts /\
    Forall2 (fun t mt => power t = fin mt /\ wfrq t = wfrq (r_transform o) /\ wvel t = wvel (r_transform o)) ts ms /\
    power (r_transform o) = fin q /\
    rect (Z.to_nat (given 200%Z (a_nvel p))) (List.length (wfrq (r_transform o))) q /\
    forall i j, i < Z.to_nat (given 200%Z (a_nvel p)) -> j < List.length (wfrq (r_transform o)) ->
      entry q i j = (Qcsum (map (fun mt => entry mt i j) ms) / QcN (List.length (iterate f)))%Qc.
Proof. intros E geomspace g p f st' o m He Hc. exact (frequency_mean E geomspace g p He Hc f st' o m). Qed.
Print Assumptions C61_mean_partial.
(** Files with another number of receivers or another source position are refused. *)
Theorem C61_refuses : forall E f st st' o, run_frequency_domain E f st = (st', Ok o) ->
  exists x l ex, iterate f = x :: l /\ example_array E st x = Ok ex /\
    forall y, In y (iterate f) -> exists a, load E (Name y) = Ok a /\
      List.length (sensors a) = List.length (sensors ex) /\ src a = src ex.
Proof.
  intros E f st st' o H. destruct (frequency_checked E f st st' o H) as (x & l & ex & A & B & G). exists x, l, ex. split; auto. split; auto.
  intros y I. destruct (G y I) as (a & L & S & _). exists a. split; auto. unfold array_similar in S. apply andb_prop in S as [S1 S2].
  apply Nat.eqb_eq in S1. split; auto. unfold source_eq in S2. apply andb_prop in S2 as [S2 S3]. apply andb_prop in S2 as [S2 S4].
  apply Qceqb_eq in S2, S3, S4. destruct (src a), (src ex); cbn in *; congruence.
Qed.
Print Assumptions C61_refuses.

Local Lemma flat_standard : standard no_geomspace flat.
Proof.
  intros a proc t st e H W G. unfold flat in H. rewrite W in H. cbn [bind] in H. rewrite G in H. cbn [bind] in H. inversion H; subst. cbn.
  repeat (split; [reflexivity|]). exists (map (map (fun _ => 1%Qc)) (power e)). split; [rewrite map_map; apply map_ext; intros l; now rewrite map_map|]. split; [apply map_length|].
  intros r I. apply in_map_iff in I as (r0 & <- & I). rewrite map_length. clear H. unfold empty_from_array in G. destruct (sensors a); [discriminate|].
  apply HeaderFileProofs.bind_ok in G as (df & _ & G). apply HeaderFileProofs.bind_ok in G as (ids & _ & G). apply HeaderFileProofs.bind_ok in G as (fs & Tk & G). apply HeaderFileProofs.bind_ok in G as (vs & _ & G).
  inversion G; subst. cbn [new_empty power wfrq] in *. apply repeat_spec in I as ->. rewrite repeat_length. unfold take in Tk. apply PyFacts.mapM_ok in Tk. eapply PyFacts.Forall2_length; eauto.
Qed.
Example C61_example : lookup "empty" (e_transforms lab) = Some (empty_class no_geomspace) /\
  lookup (given "fdbf" (a_transform (chosen None None 550))) (e_transforms lab) = Some (reading flat) /\ standard no_geomspace flat /\
  (exists m, forall x a, In x ["x"; "y"] -> load lab (Name x) = Ok a -> like m a) /\
  exists st' o, run_frequency_domain lab (Names ["x"; "y"]) (create_settings_dict (chosen None None 550)) = (st', Ok o).
Proof.
  split; [reflexivity|]. split; [reflexivity|]. split; [exact flat_standard|]. split.
  - assert (Q : loads (Name "x") (fun a => match sensors a with [s; t] => Qceqb (dt (ser s)) (dt (ser t)) && Qceqb (delay (ser s)) (delay (ser t)) &&
       Nat.eqb (List.length (amp (ser s))) (List.length (amp (ser t))) && Z.eqb (multiple (ser s)) (multiple (ser t)) | _ => false end) = true)
      by (vm_compute; reflexivity).
    apply loads_ok in Q as (a & L & T). destruct (sensors a) as [|s [|t [|]]] eqn:Es; try discriminate.
    rewrite !andb_true_iff in T. destruct T as [[[T1 T2] T3] T4]. apply Qceqb_eq in T1, T2. apply Nat.eqb_eq in T3. apply Z.eqb_eq in T4.
    exists s. intros x b I Lb. assert (Lx : load lab (Name x) = load lab (Name "x")) by (destruct I as [<-|[<-|[]]]; reflexivity).
    rewrite Lx, L in Lb. inversion Lb; subst b. split; rewrite Es; [discriminate|]. intros u [<-|[<-|[]]]; repeat split; auto.
  - apply fine_ok. vm_compute. reflexivity.
Qed.

(** Two files with different time steps: alone, the second reports other frequencies. *)
Theorem C61_refuted : exists E p x y st1 st2 o1 o2,
  run_frequency_domain E (Names [x; y]) (create_settings_dict p) = (st1, Ok o1) /\
  run_frequency_domain E (Names [y]) (create_settings_dict p) = (st2, Ok o2) /\
  wfrq (r_transform o1) <> wfrq (r_transform o2).
Proof.
  exists lab, (chosen None None 480), "x", "slow".
  assert (T : match snd (run_frequency_domain lab (Names ["x"; "slow"]) (create_settings_dict (chosen None None 480))),
                    snd (run_frequency_domain lab (Names ["slow"]) (create_settings_dict (chosen None None 480))) with
              | Ok o1, Ok o2 => negb (Qceqb (nth 1 (wfrq (r_transform o1)) 0%Qc) (nth 1 (wfrq (r_transform o2)) 0%Qc))
              | _, _ => false end = true) by (vm_compute; reflexivity).
  destruct (run_frequency_domain lab (Names ["x"; "slow"]) _) as [st1 [o1|]]; [|discriminate].
  destruct (run_frequency_domain lab (Names ["slow"]) _) as [st2 [o2|]]; [|discriminate]. cbn [snd] in T.
  exists st1, st2, o1, o2. split; [reflexivity|]. split; [reflexivity|]. intros Q. rewrite Q in T.
  destruct (Qceqb_spec (nth 1 (wfrq (r_transform o2)) 0%Qc) (nth 1 (wfrq (r_transform o2)) 0%Qc)); [discriminate|congruence].
Qed.
Print Assumptions C61_refuted.
(** One file name given as a str, as the other workflows accept it, is taken for a list
    of one-letter names. *)
Theorem C61_str_refuted : exists E p s, fine (run_frequency_domain E (Names [s]) (create_settings_dict p)) = true /\
  fine (run_time_domain E (Name s) (create_settings_dict p)) = true /\
  snd (run_frequency_domain E (Name s) (create_settings_dict p)) = Err FileNotFoundError.
Proof. exists lab, (chosen None None 550), "ab". split; [vm_compute; reflexivity|]. split; vm_compute; reflexivity. Qed.
Print Assumptions C61_str_refuted.

(** * C62: registries *)

Theorem C62_last_registered : forall (C : Type) (h : list (registration C)) w n,
  (exists c, last_registered h w n c /\ create_class w n (history_of (mkRegistries [] []) h) = Ok c) \/
  (never_registered h w n /\ create_class w n (history_of (mkRegistries [] []) h) = Err KeyError).
Proof. exact @registry_spec. Qed.
Print Assumptions C62_last_registered.
Theorem C62_unique : forall (C : Type) (h : list (registration C)) w n c c', last_registered h w n c -> last_registered h w n c' -> c = c'.
Proof. exact @last_registered_unique. Qed.
Print Assumptions C62_unique.
Theorem C62_instances : forall (C A O : Type) (call : C -> A -> result O) (h : list (registration C)) w n args,
  (exists c, last_registered h w n c /\ create_instance call w n args (history_of (mkRegistries [] []) h) = call c args) \/
  (never_registered h w n /\ create_instance call w n args (history_of (mkRegistries [] []) h) = Err KeyError).
Proof.
  intros C A O call h w n args. unfold create_instance. destruct (registry_spec h w n) as [(c & L & ->)|(N & ->)]; [left|right]; eauto.
Qed.
Print Assumptions C62_instances.
Example C62_example :
  create_class OfTransforms "fk" (history_of (mkRegistries [] [])
    [mkReg OfTransforms "fk" 1; mkReg OfWorkflows "fk" 2; mkReg OfTransforms "fdbf" 3; mkReg OfTransforms "fk" 4]) = Ok 4 /\
  create_class OfWorkflows "fdbf" (history_of (mkRegistries [] []) [mkReg OfTransforms "fdbf" 3]) = Err KeyError.
Proof. split; reflexivity. Qed.

(** * C63: the settings of the user *)

(** Missing is the transform "fk", see C63_refuted. *)
Theorem C63_unchanged_partial : forall E geomspace ss ps fd f st,
  e_transforms E = swprocess_transforms geomspace ss ps fd -> at_path st ["processing"; "transform"] <> Some (JStr "fk") ->
  fst (masw_run E f st) = st /\ forall fsrc ch, fst (xcorr_run E f fsrc ch st) = st.
Proof.
  intros E geomspace ss ps fd f st Et N.
  assert (A : forall c, lookup "empty" (e_transforms E) = Some c -> only_reads c).
  { rewrite Et. intros c H. inversion H; subst. intros a s. reflexivity. }
  assert (B : forall n c, at_path st ["processing"; "transform"] = Some (JStr n) -> lookup n (e_transforms E) = Some c -> only_reads c).
  { intros n c Hn Hc. assert (Nn : n <> "fk") by congruence. rewrite Et in Hc. unfold swprocess_transforms in Hc. cbn [lookup] in Hc.
    repeat match type of Hc with (if String.eqb ?a ?b then _ else _) = _ => destruct (String.eqb_spec a b); [inversion Hc; subst; try congruence; intros ? ?; reflexivity|] end.
    discriminate. }
  split; [now apply masw_unchanged|]. intros fsrc ch. now apply xcorr_run_unchanged.
Qed.
Print Assumptions C63_unchanged_partial.
(** So a second run, and any number of runs, gives what it gives alone. *)
Theorem C63_repeated_partial : forall E geomspace ss ps fd (fs : list names) st,
  e_transforms E = swprocess_transforms geomspace ss ps fd -> at_path st ["processing"; "transform"] <> Some (JStr "fk") ->
  in_turn (map (fun f => masw_run E f) fs) st = map (fun f => snd (masw_run E f st)) fs.
Proof.
  intros E geomspace ss ps fd fs st Et N. induction fs as [|f fs IH]; auto. cbn [map in_turn].
  destruct (C63_unchanged_partial E geomspace ss ps fd f st Et N) as [-> _]. now rewrite IH.
Qed.
Print Assumptions C63_repeated_partial.
Example C63_example : at_path (create_settings_dict (chosen None None 550)) ["processing"; "transform"] <> Some (JStr "fk") /\
  fine (masw_run lab (Name "x") (create_settings_dict (chosen None None 550))) = true.
Proof. split; [discriminate|vm_compute; reflexivity]. Qed.
(** "fk" leaves weighting "none" and steering "plane" in the user's dict. *)
Theorem C63_fk_refuted : forall E geomspace ss ps fd f p a w,
  e_transforms E = swprocess_transforms geomspace ss ps fd -> a_transform p = Some "fk" ->
  load E f = Ok a -> perform E (plan p) (started a) = Ok w ->
  fst (run_time_domain E f (create_settings_dict p)) = create_settings_dict (with_fk p).
Proof. exact fk_settings. Qed.
Print Assumptions C63_fk_refuted.
Theorem C63_refuted : exists E f p st' o, masw_run E f (create_settings_dict p) = (st', Ok o) /\ st' <> create_settings_dict p /\
  at_path st' ["processing"; "fdbf-specific"; "steering"] = Some (JStr "plane") /\
  at_path (create_settings_dict p) ["processing"; "fdbf-specific"; "steering"] = Some (JStr "cylindrical").
Proof.
  exists lab, (Name "x"), (chosen None (Some "fk") 550).
  assert (T : match masw_run lab (Name "x") (create_settings_dict (chosen None (Some "fk") 550)) with
              | (st', Ok o) => match at_path st' ["processing"; "fdbf-specific"; "steering"] with Some (JStr s) => String.eqb s "plane" | _ => false end
              | _ => false end = true) by (vm_compute; reflexivity).
  destruct (masw_run lab (Name "x") _) as [st' [o|]]; [|discriminate]. exists st', o. split; [reflexivity|].
  destruct (at_path st' _) as [[]|] eqn:A; try discriminate. apply String.eqb_eq in T. subst s.
  split; [intros ->; discriminate|]. split; [first [reflexivity|exact A]|reflexivity].
Qed.
Print Assumptions C63_refuted.

(** * C64: create_settings_dict stores what it was given *)
Theorem C64_settings : forall p, let at_ := at_path (create_settings_dict p) in
  at_ ["workflow"] = Some (JStr (given "time-domain" (a_workflow p))) /\
  at_ ["pre-processing"; "trim"; "apply"] = Some (JBool (given false (a_trim p))) /\
  at_ ["pre-processing"; "trim"; "begin"] = Some (JNum (Fin (given 0%Qc (a_trim_begin p)))) /\
  at_ ["pre-processing"; "trim"; "end"] = Some (JNum (Fin (given 1%Qc (a_trim_end p)))) /\
  at_ ["pre-processing"; "mute"; "apply"] = Some (JBool (given false (a_mute p))) /\
  at_ ["pre-processing"; "mute"; "method"] = Some (JStr (given "interactive" (a_method p))) /\
  at_ ["pre-processing"; "mute"; "window_kwargs"] = Some (JDict (given [] (a_window_kwargs p))) /\
  at_ ["pre-processing"; "pad"; "apply"] = Some (JBool (given false (a_pad p))) /\
  at_ ["pre-processing"; "pad"; "df"] = Some (JNum (Fin (given 1%Qc (a_df p)))) /\
  at_ ["pre-processing"; "offsets"; "min"] = Some (JNum (given (Fin 0%Qc) (a_min_offset p))) /\
  at_ ["pre-processing"; "offsets"; "max"] = Some (JNum (given PInf (a_max_offset p))) /\
  at_ ["processing"; "transform"] = Some (JStr (given "fdbf" (a_transform p))) /\
  at_ ["processing"; "fmin"] = Some (JNum (Fin (given (q 5 1) (a_fmin p)))) /\
  at_ ["processing"; "fmax"] = Some (JNum (Fin (given (q 100 1) (a_fmax p)))) /\
  at_ ["processing"; "vmin"] = Some (JNum (Fin (given (q 100 1) (a_vmin p)))) /\
  at_ ["processing"; "vmax"] = Some (JNum (Fin (given (q 1000 1) (a_vmax p)))) /\
  at_ ["processing"; "nvel"] = Some (JInt (given 200%Z (a_nvel p))) /\
  at_ ["processing"; "vspace"] = Some (JStr (given "linear" (a_vspace p))) /\
  at_ ["processing"; "fdbf-specific"; "weighting"] = Some (JStr (given "sqrt" (a_weighting p))) /\
  at_ ["processing"; "fdbf-specific"; "steering"] = Some (JStr (given "cylindrical" (a_steering p))) /\
  at_ ["signal-to-noise"; "perform"] = Some (JBool (given false (a_snr p))) /\
  at_ ["signal-to-noise"; "noise"; "begin"] = Some (JNum (Fin (given (q (-1) 2) (a_noise_begin p)))) /\
  at_ ["signal-to-noise"; "noise"; "end"] = Some (JNum (Fin (given 0%Qc (a_noise_end p)))) /\
  at_ ["signal-to-noise"; "signal"; "begin"] = Some (JNum (Fin (given 0%Qc (a_signal_begin p)))) /\
  at_ ["signal-to-noise"; "signal"; "end"] = Some (JNum (Fin (given (q 1 2) (a_signal_end p)))) /\
  at_ ["signal-to-noise"; "pad"; "apply"] = Some (JBool (given true (a_pad_snr p))) /\
  at_ ["signal-to-noise"; "pad"; "df"] = Some (JNum (Fin (given 1%Qc (a_df_snr p)))).
Proof. intros p. repeat (split; [reflexivity|]). reflexivity. Qed.
Print Assumptions C64_settings.
Example C64_example : at_path (create_settings_dict (muting [])) ["pre-processing"; "mute"; "apply"] = Some (JBool true) /\
  at_path (create_settings_dict nothing) ["pre-processing"; "mute"; "apply"] = Some (JBool false).
Proof. split; reflexivity. Qed.

(** * C75: the entry points *)

(** Masw.run cannot run the workflow registered as "time-domain-xcorr". *)
Theorem C75_xcorr_refuted : forall E f p, a_workflow p = Some "time-domain-xcorr" ->
  masw_run E f (create_settings_dict p) = (create_settings_dict p, Err TypeError).
Proof. intros E f p H. unfold masw_run. cbn [create_settings_dict item lookup String.eqb Ascii.eqb Bool.eqb bind]. rewrite H. reflexivity. Qed.
Print Assumptions C75_xcorr_refuted.
Theorem C75_workflows : forall E f p,
  (given "time-domain" (a_workflow p) = "time-domain" -> masw_run E f (create_settings_dict p) = run_time_domain E f (create_settings_dict p)) /\
  (a_workflow p = Some "single" -> masw_run E f (create_settings_dict p) = run_single E f (create_settings_dict p)) /\
  (a_workflow p = Some "frequency-domain" -> masw_run E f (create_settings_dict p) = run_frequency_domain E f (create_settings_dict p)) /\
  (forall n, a_workflow p = Some n -> ~ In n ["single"; "time-domain"; "time-domain-xcorr"; "frequency-domain"] ->
   masw_run E f (create_settings_dict p) = (create_settings_dict p, Err KeyError)) /\
  (forall fsrc ch, a_workflow p = Some "time-domain-xcorr" -> xcorr_run E f fsrc ch (create_settings_dict p) = run_xcorr E f fsrc ch (create_settings_dict p)) /\
  (forall fsrc ch, given "time-domain" (a_workflow p) <> "time-domain-xcorr" ->
   xcorr_run E f fsrc ch (create_settings_dict p) = (create_settings_dict p, Err NotImplementedError)).
Proof.
  intros E f p. unfold masw_run, xcorr_run.
  replace (item (create_settings_dict p) "workflow") with (Ok (JStr (given "time-domain" (a_workflow p)))) by reflexivity. cbn [bind str].
  split; [intros ->; reflexivity|]. split; [intros ->; reflexivity|]. split; [intros ->; reflexivity|]. split.
  - intros n -> N. cbn [given]. replace (lookup n swprocess_workflows) with (@None workflow_class); [reflexivity|].
    unfold swprocess_workflows. cbn [lookup]. cbn [In] in N.
    destruct (String.eqb_spec n "single"), (String.eqb_spec n "time-domain"), (String.eqb_spec n "time-domain-xcorr"), (String.eqb_spec n "frequency-domain");
      subst; auto; exfalso; auto 6.
  - split; [intros fsrc ch ->; reflexivity|]. intros fsrc ch N. generalize dependent (given "time-domain" (a_workflow p)). intros s N.
    assert (X : match JStr s with JStr "time-domain-xcorr" => Ok tt | _ => Err NotImplementedError end = Err NotImplementedError); [|now rewrite X].
    repeat (first [congruence | match goal with |- context [match ?x with EmptyString => _ | String _ _ => _ end] => destruct x end
      | match goal with |- context [match ?x with Ascii.Ascii _ _ _ _ _ _ _ _ => _ end] => destruct x end
      | match goal with |- context [if ?b then _ else _] => destruct b end]); reflexivity || congruence.
Qed.
Print Assumptions C75_workflows.

(** * C76: the signal-to-noise ratio of several files *)

(** The frequency-domain workflow reports the ratio of the first file alone. *)
Theorem C76_refuted : forall E geomspace g p f st' o x l,
  lookup "empty" (e_transforms E) = Some (empty_class geomspace) -> lookup (given "fdbf" (a_transform p)) (e_transforms E) = Some (reading g) ->
  run_frequency_domain E f (create_settings_dict p) = (st', Ok o) -> iterate f = x :: l -> given false (a_snr p) = true ->
  exists a w, load E (Name x) = Ok a /\ perform E (preparation p ++ ratio p) (started a) = Ok w /\ r_snr o = w_snr w.
Proof. exact frequency_ratio. Qed.
Print Assumptions C76_refuted.
Example C76_example : fine (run_frequency_domain lab (Names ["pre"; "pre"]) (create_settings_dict (rating None))) = true.
Proof. vm_compute. reflexivity. Qed.

(** * C77: trimming together with a signal-to-noise ratio *)
Theorem C77_refuted : forall E f p o, given false (a_snr p) = true -> given false (a_trim p) = true -> (0 < given 0%Qc (a_trim_begin p))%Qc ->
  snd (masw_run E f (create_settings_dict p)) <> Ok o.
Proof. exact masw_impossible. Qed.
Print Assumptions C77_refuted.
(** The same run works without the trim. *)
Local Definition both (trim : bool) : arguments :=
  mkArguments None (Some trim) (Some (q 1 2000)) (Some (q 1 1000)) None None None None None None (Some (QcZ 1)) (Some (QcZ 550)) None None (Some 3%Z) None None None
    (Some true) (Some (q (-2) 1000)) (Some 0%Qc) (Some (q (-1) 1000)) (Some (q 1 1000)) (Some false) None None None.
Example C77_example : fine (masw_run lab (Name "pre") (create_settings_dict (both false))) = true /\
  snd (masw_run lab (Name "pre") (create_settings_dict (both true))) = Err ValueError.
Proof. split; vm_compute; reflexivity. Qed.

(** * C125: the workflows agree on one file *)

(** The frequency-domain workflow of one file given any number of times returns a result exactly when the time-domain workflow of that
    file returns one: the same frequencies, velocities and powers, the same records and the same signal-to-noise ratio; only the number
    of transforms it stands for is the number of files. *)
Theorem C125_one_file : forall E geomspace g p x n s o,
  lookup "empty" (e_transforms E) = Some (empty_class geomspace) -> lookup (given "fdbf" (a_transform p)) (e_transforms E) = Some (reading g) ->
  standard geomspace g -> needs_axes geomspace g ->
  run_frequency_domain E (Names (repeat x (S n))) (create_settings_dict p) = (s, Ok o) <->
  exists t, run_time_domain E (Name x) (create_settings_dict p) = (s, Ok (mkOutcome t (r_array o) (r_snr o))) /\
    r_transform o = after_files (S n) t.
Proof. intros E geomspace g p x n s o He Hc Hs Hn. exact (one_file_agrees E geomspace g p He Hc Hs Hn x n s o). Qed.
Print Assumptions C125_one_file.
(** Naming a file again changes no more than that number. *)
Theorem C125_again : forall E geomspace g p x n k s o,
  lookup "empty" (e_transforms E) = Some (empty_class geomspace) -> lookup (given "fdbf" (a_transform p)) (e_transforms E) = Some (reading g) ->
  standard geomspace g -> needs_axes geomspace g ->
  run_frequency_domain E (Names (repeat x (S n))) (create_settings_dict p) = (s, Ok o) ->
  run_frequency_domain E (Names (repeat x (S k))) (create_settings_dict p) =
    (s, Ok (mkOutcome (after_files (S k) (r_transform o)) (r_array o) (r_snr o))).
Proof.
  intros E geomspace g p x n k s o He Hc Hs Hn H. apply (one_file_agrees E geomspace g p He Hc Hs Hn) in H as (t & T & R).
  apply (one_file_agrees E geomspace g p He Hc Hs Hn). exists t. split; [exact T|]. now rewrite R.
Qed.
Print Assumptions C125_again.
Example C125_example : standard no_geomspace flat /\ needs_axes no_geomspace flat /\
  fine (run_time_domain lab (Name "x") (create_settings_dict (chosen None None 550))) = true /\
  fine (run_time_domain lab (Name "pre") (create_settings_dict (rating None))) = true /\
  fine (run_frequency_domain lab (Names ["pre"; "pre"; "pre"]) (create_settings_dict (rating None))) = true.
Proof.
  split; [exact flat_standard|]. split.
  - intros a proc t H. unfold flat in H. apply HeaderFileProofs.bind_ok in H as (st & W & H). apply HeaderFileProofs.bind_ok in H as (e & Ee & _). eauto.
  - repeat split; vm_compute; reflexivity.
Qed.

(** * C126: the order of the files *)

(** Without muting and without a signal-to-noise ratio, files named in another order give the same image. *)
Theorem C126_order : forall E geomspace g p l l' m s o,
  lookup "empty" (e_transforms E) = Some (empty_class geomspace) -> lookup (given "fdbf" (a_transform p)) (e_transforms E) = Some (reading g) ->
  standard geomspace g -> given false (a_mute p) = false -> given false (a_snr p) = false -> Permutation l l' ->
  (forall x a, In x l -> load E (Name x) = Ok a -> like m a) ->
  run_frequency_domain E (Names l) (create_settings_dict p) = (s, Ok o) ->
  exists o', run_frequency_domain E (Names l') (create_settings_dict p) = (s, Ok o') /\ r_transform o' = r_transform o /\ r_snr o' = None.
Proof.
  intros E geomspace g p l l' m s o He Hc Hs Hm Hr P L H. exact (order_irrelevant E geomspace g p He Hc Hs Hm Hr l l' m s o P L H).
Qed.
Print Assumptions C126_order.
(** With or without a signal-to-noise ratio, two orders that both complete give the same image. *)
Theorem C126_image : forall E geomspace g p l l' m s o s' o',
  lookup "empty" (e_transforms E) = Some (empty_class geomspace) -> lookup (given "fdbf" (a_transform p)) (e_transforms E) = Some (reading g) ->
  standard geomspace g -> given false (a_mute p) = false -> Permutation l l' ->
  (forall x a, In x l -> load E (Name x) = Ok a -> like m a) ->
  run_frequency_domain E (Names l) (create_settings_dict p) = (s, Ok o) ->
  run_frequency_domain E (Names l') (create_settings_dict p) = (s', Ok o') -> r_transform o' = r_transform o.
Proof.
  intros E geomspace g p l l' m s o s' o' He Hc Hs Hm P L H H'. exact (order_image E geomspace g p He Hc Hs Hm l l' m s o s' o' P L H H').
Qed.
Print Assumptions C126_image.

(** Two files; the first receiver of "loud" starts with a larger sample. *)
Local Definition two_files (name : string) : result (list trace) :=
  match name with
  | "x" => Ok [tr (-5) 0 (q 1 1000) 0 [1; 5; 2; 8]%Z; tr (-5) 2 (q 1 1000) 0 [3; 1; 4; 1]%Z]
  | "loud" => Ok [tr (-5) 0 (q 1 1000) 0 [9; 5; 2; 8]%Z; tr (-5) 2 (q 1 1000) 0 [3; 1; 4; 1]%Z]
  | _ => Err FileNotFoundError
  end.
Local Definition head_sample (a : array) : Qc := match sensors a with s :: _ => nth 0 (amp (ser s)) 0%Qc | [] => 0%Qc end.
(** Every cell holds the second sample of the first record. *)
Local Definition second_sample (a : array) : Qc := match sensors a with s :: _ => nth 1 (amp (ser s)) 0%Qc | [] => 0%Qc end.
Local Definition heard (a : array) (proc : json) : result (transform flt) :=
  do st <- wt_of proc; do e <- empty_from_array no_geomspace a st;
  Ok (mkTransform 1 (wfrq e) (wvel e) (map (map (fun _ => Fin (second_sample a))) (power e)) (Scalar f1)).
Local Lemma heard_standard : standard no_geomspace heard.
Proof.
  intros a proc t st e H W G. unfold heard in H. rewrite W in H. cbn [bind] in H. rewrite G in H. cbn [bind] in H. inversion H; subst. cbn.
  repeat (split; [reflexivity|]). exists (map (map (fun _ => second_sample a)) (power e)). split; [rewrite map_map; apply map_ext; intros l; now rewrite map_map|]. split; [apply map_length|].
  intros r I. apply in_map_iff in I as (r0 & <- & I). rewrite map_length. clear H. unfold empty_from_array in G. destruct (sensors a); [discriminate|].
  apply HeaderFileProofs.bind_ok in G as (df & _ & G). apply HeaderFileProofs.bind_ok in G as (ids & _ & G). apply HeaderFileProofs.bind_ok in G as (fs & Tk & G). apply HeaderFileProofs.bind_ok in G as (vs & _ & G).
  inversion G; subst. cbn [new_empty power wfrq] in *. apply repeat_spec in I as ->. rewrite repeat_length. unfold take in Tk. apply PyFacts.mapM_ok in Tk. eapply PyFacts.Forall2_length; eauto.
Qed.
(** The user keeps all but the last sample of a loud record and only the third of others. *)
Local Definition listener : environment :=
  mkEnvironment two_files id1 id1 (fun a => if Qcleb (QcZ 1) (head_sample a) then Ok (((0%Qc, 0%Qc), (QcZ 2, 0%Qc)), ((0%Qc, q 3 1000), (QcZ 2, q 3 1000)))
      else Ok (((0%Qc, q 2 1000), (QcZ 2, q 2 1000)), ((0%Qc, q 3 1000), (QcZ 2, q 3 1000))))
    (fun _ n => repeat 1%Qc n) (fun l => l) (swprocess_transforms no_geomspace heard heard heard).
(** With muting the order matters: the lines picked on the first file are used for all files. *)
Theorem C126_muting_matters : exists E geomspace g p x y m s1 s2 o1 o2,
  lookup "empty" (e_transforms E) = Some (empty_class geomspace) /\ lookup (given "fdbf" (a_transform p)) (e_transforms E) = Some (reading g) /\
  standard geomspace g /\ given false (a_snr p) = false /\ (forall z a, In z [x; y] -> load E (Name z) = Ok a -> like m a) /\
  run_frequency_domain E (Names [x; y]) (create_settings_dict p) = (s1, Ok o1) /\
  run_frequency_domain E (Names [y; x]) (create_settings_dict p) = (s2, Ok o2) /\
  power (r_transform o1) <> power (r_transform o2).
Proof.
  assert (Q : forallb (fun z => match load listener (Name z) with Ok a => match sensors a with [s; t] => Qceqb (dt (ser s)) (dt (ser t)) && Qceqb (delay (ser s)) (delay (ser t)) &&
       Nat.eqb (List.length (amp (ser s))) (List.length (amp (ser t))) && Z.eqb (multiple (ser s)) (multiple (ser t)) &&
       Qceqb (dt (ser s)) (q 1 1000) && Qceqb (delay (ser s)) 0%Qc && Nat.eqb (List.length (amp (ser s))) 4 && Z.eqb (multiple (ser s)) 1 | _ => false end | Err _ => false end) ["x"; "loud"] = true)
    by (vm_compute; reflexivity).
  assert (M : exists m, forall z a, In z ["x"; "loud"] -> load listener (Name z) = Ok a -> like m a).
  { assert (G : forall z, In z ["x"; "loud"] -> exists s t a, load listener (Name z) = Ok a /\ sensors a = [s; t] /\
       (dt (ser s) = dt (ser t) /\ delay (ser s) = delay (ser t) /\ List.length (amp (ser s)) = List.length (amp (ser t)) /\ multiple (ser s) = multiple (ser t)) /\
       dt (ser s) = q 1 1000 /\ delay (ser s) = 0%Qc /\ List.length (amp (ser s)) = 4 /\ multiple (ser s) = 1%Z).
    { intros z I. rewrite forallb_forall in Q. specialize (Q z I). destruct (load listener (Name z)) as [a|]; [|discriminate].
      destruct (sensors a) as [|s [|t [|]]] eqn:Es; try discriminate. rewrite !andb_true_iff in Q. destruct Q as [[[[[[[T1 T2] T3] T4] U1] U2] U3] U4].
      apply Qceqb_eq in T1, T2, U1, U2. apply Nat.eqb_eq in T3, U3. apply Z.eqb_eq in T4, U4. exists s, t, a. repeat split; auto. }
    destruct (G "x") as (s & t & a & L & Es & (T1 & T2 & T3 & T4) & U1 & U2 & U3 & U4); [now left|].
    exists s. intros z b I Lb. destruct (G z I) as (s' & t' & a' & L' & Es' & (T1' & T2' & T3' & T4') & U1' & U2' & U3' & U4').
    rewrite Lb in L'. inversion L'; subst a'. split; rewrite Es'; [discriminate|]. intros u [<-|[<-|[]]]; repeat split; congruence. }
  destruct M as (m & M).
  exists listener, no_geomspace, heard, (muting []), "x", "loud", m.
  assert (T : match snd (run_frequency_domain listener (Names ["x"; "loud"]) (create_settings_dict (muting []))),
                    snd (run_frequency_domain listener (Names ["loud"; "x"]) (create_settings_dict (muting []))) with
              | Ok o1, Ok o2 => match nth 0 (nth 0 (power (r_transform o1)) []) NaN, nth 0 (nth 0 (power (r_transform o2)) []) NaN with
                                | Fin a, Fin b => negb (Qceqb a b) | _, _ => false end
              | _, _ => false end = true) by (vm_compute; reflexivity).
  destruct (run_frequency_domain listener (Names ["x"; "loud"]) _) as [s1 [o1|]]; [|discriminate].
  destruct (run_frequency_domain listener (Names ["loud"; "x"]) _) as [s2 [o2|]]; [|discriminate]. cbn [snd] in T.
  exists s1, s2, o1, o2. do 3 (split; [first [reflexivity|exact heard_standard]|]). split; [reflexivity|]. split; [exact M|].
  do 2 (split; [reflexivity|]). intros E. rewrite E in T. destruct (nth 0 (nth 0 (power (r_transform o2)) []) NaN); try discriminate.
  match type of T with negb (Qceqb ?a _) = _ => destruct (Qceqb_spec a a); [discriminate|congruence] end.
Qed.
Print Assumptions C126_muting_matters.
Example C126_example : Permutation ["x"; "loud"; "x"] ["loud"; "x"; "x"] /\
  fine (run_frequency_domain listener (Names ["x"; "loud"; "x"]) (create_settings_dict (chosen None None 550))) = true /\
  fine (run_frequency_domain lab (Names ["pre"; "pre"; "pre"]) (create_settings_dict (rating None))) = true.
Proof. split; [apply perm_swap|]. split; vm_compute; reflexivity. Qed.

(** * C127: the order of the further files in the other workflows *)
Theorem C127_time_domain : forall E x l l' st s o, Permutation l l' ->
  (run_time_domain E (Names (x :: l)) st = (s, Ok o) <-> run_time_domain E (Names (x :: l')) st = (s, Ok o)).
Proof.
  assert (G : forall E x l l' st s o, Permutation l l' -> run_time_domain E (Names (x :: l)) st = (s, Ok o) -> run_time_domain E (Names (x :: l')) st = (s, Ok o)).
  { intros E x l l' st s o P H. unfold run_time_domain in *. destruct (load E (Names (x :: l))) as [a|] eqn:L; [|discriminate].
    unfold load in *. now rewrite (StackOrderProofs.further_files _ _ _ _ _ _ _ _ P L). }
  intros E x l l' st s o P. split; apply G; [exact P|now apply Permutation_sym].
Qed.
Print Assumptions C127_time_domain.
Theorem C127_xcorr : forall E x l l' y k k' ch st s o, Permutation l l' -> Permutation k k' ->
  (run_xcorr E (Names (x :: l)) (y :: k) ch st = (s, Ok o) <-> run_xcorr E (Names (x :: l')) (y :: k') ch st = (s, Ok o)).
Proof.
  assert (G : forall E x l l' y k k' ch st s o, Permutation l l' -> Permutation k k' ->
    run_xcorr E (Names (x :: l)) (y :: k) ch st = (s, Ok o) -> run_xcorr E (Names (x :: l')) (y :: k') ch st = (s, Ok o)).
  { intros E x l l' y k k' ch st s o P Q H. unfold run_xcorr in *. destruct (load E (Names (x :: l))) as [a|] eqn:L; [|discriminate].
    unfold load in *. rewrite (StackOrderProofs.further_files _ _ _ _ _ _ _ _ P L). cbn [bind] in *.
    destruct (source_signal _ ch (y :: k)) as [r|] eqn:S; [|discriminate]. now rewrite (StackOrderProofs.source_order _ _ _ _ _ _ Q S). }
  intros E x l l' y k k' ch st s o P Q. split; apply G; auto; now apply Permutation_sym.
Qed.
Print Assumptions C127_xcorr.
Example C127_workflow_example : fine (run_time_domain lab (Names ["x"; "y"; "ab"]) (create_settings_dict (chosen None None 550))) = true /\
  fine (run_xcorr lab (Names ["x"; "y"; "ab"]) ["x"; "y"; "ab"] 0 (create_settings_dict (chosen None None 550))) = true /\
  Permutation ["y"; "ab"] ["ab"; "y"].
Proof. split; [vm_compute; reflexivity|]. split; [vm_compute; reflexivity|apply perm_swap]. Qed.
