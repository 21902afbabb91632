(* Properties C50 and C51: reading .max files. *)
From Verif Require Import MaxModel RegexProofs MaxSpec MaxProofs.
Local Open Scope nat_scope.
Local Open Scope list_scope.
Local Open Scope char_scope.

(** ** C50.  The peaks of each time window, each in the column of its own frequency, in
    file order.
    Partial: the texts of the times and frequencies are used as regular expressions, so
    each must stand out in the file (hypotheses [time_stands_out], [frequency_stands_out]);
    times and frequencies are written with digits and a point. *)
(** Every window of the file, in order of first appearance. *)
Theorem C50_file_partial : forall header es w W cn wf pt values,
  check_version header = Ok tt -> search get_nmaxima header = Some cn -> search get_process_type header = Some pt ->
  search get_wavetype (contents header es) = Some wf ->
  validate_wavetypes (effective_wavetype w (group 1 wf)) = Ok W ->
  header_ok (lit W) header -> (forall e, In e es -> entry_ok e) -> (forall e, In e es -> reads e (values e)) ->
  (forall e, In e (of_wave (lit W) es) -> time_stands_out (e_time e) es /\ frequency_stands_out (e_frq e) es) ->
  (forall t f, List.length (at_frequency f (of_window t (lit W) es)) <= clamp_nmaxima (cap 1 cn)) ->
  exists ps, read_file (contents header es) w = (effective_wavetype w (group 1 wf), Ok ps) /\
    Forall2 (fun t p => identifier p = string_of_list_ascii (t ++ ["-"] ++ process_name wf pt) /\
               holds_window p (clamp_nmaxima (cap 1 cn)) (firsts (map e_frq (of_wave (lit W) es))) (of_window t (lit W) es) values)
            (firsts (map e_time (of_wave (lit W) es))) ps.
Proof. exact read_file_ok. Qed.
Print Assumptions C50_file_partial.

(** Peaks.from_max: the first window. *)
Theorem C50_first_window_partial : forall header es w W e0 rest cn wf pt values,
  check_version header = Ok tt -> search get_nmaxima header = Some cn -> search get_process_type header = Some pt ->
  search get_wavetype (contents header es) = Some wf ->
  validate_wavetypes (effective_wavetype w (group 1 wf)) = Ok W ->
  header_ok (lit W) header -> (forall e, In e es -> entry_ok e) -> (forall e, In e es -> reads e (values e)) ->
  of_wave (lit W) es = e0 :: rest ->
  time_stands_out (e_time e0) es ->
  (forall e, In e (of_window (e_time e0) (lit W) es) -> frequency_stands_out (e_frq e) es) ->
  (forall f, List.length (at_frequency f (of_window (e_time e0) (lit W) es)) <= clamp_nmaxima (cap 1 cn)) ->
  exists p, peaks_from_max (contents header es) w = Ok p /\
    identifier p = string_of_list_ascii (e_time e0 ++ ["-"] ++ process_name wf pt) /\
    holds_window p (clamp_nmaxima (cap 1 cn)) (firsts (map e_frq (of_window (e_time e0) (lit W) es)))
      (of_window (e_time e0) (lit W) es) values.
Proof. exact first_window. Qed.
Print Assumptions C50_first_window_partial.

(** Times of equal width, and frequencies written with a decimal point, stand out. *)
Theorem C50_fixed_width : forall a b es,
  (forall e, In e es -> fixed_point a b (e_time e)) -> (forall e, In e es -> exists m n, fixed_point m n (e_frq e)) ->
  forall e, In e es -> time_stands_out (e_time e) es /\ frequency_stands_out (e_frq e) es.
Proof.
  intros a b es T F e I. split; [eapply fixed_time_stands_out; eauto|]. apply fixed_frequency_stands_out; auto.
Qed.
Print Assumptions C50_fixed_width.

(** A file with two windows, two frequencies and two wave types. *)
Definition sample_header : text :=
  lit "# from geopsypack-3.2.0" ++ newline :: lit "PROCESS_TYPE=RTBF" ++ newline :: lit "N_MAXIMA=2".
Definition peak (t f w s : string) (noise : string) : entry :=
  mkEntry (lit t) (lit f) (lit w) (lit s) (lit "30.5") (lit "0.1") (lit noise) (lit "8.5").
Definition sample : list entry :=
  [peak "05.0" "10.5" "Rayleigh" "0.002" "0"; peak "05.0" "10.5" "Love" "0.003" "inf";
   peak "05.0" "2.5" "Rayleigh" "0.004" "inf"; peak "05.0" "10.5" "Rayleigh" "0.005" "1";
   peak "15.0" "2.5" "Rayleigh" "0.008" "0"].
Lemma sample_entries : forall e, In e sample -> entry_ok e.
Proof. apply (forall_check _ entry_b); [apply entry_check|]. vm_compute. reflexivity. Qed.
Lemma sample_reads : forall e, In e sample -> reads e (value_of e).
Proof. apply (forall_check (fun e => reads e (value_of e)) reads_b); [apply reads_check|]. vm_compute. reflexivity. Qed.
Lemma sample_stands_out : forall e, In e sample -> time_stands_out (e_time e) sample /\ frequency_stands_out (e_frq e) sample.
Proof.
  apply (C50_fixed_width 2 1).
  - apply (forall_check (fun e => fixed_point 2 1 (e_time e)) (fun e => fixed_b 2 1 (e_time e))); [intros; now apply fixed_check|].
    vm_compute. reflexivity.
  - apply (forall_check (fun e => exists m n, fixed_point m n (e_frq e)) (fun e => (fixed_b 1 1 (e_frq e) || fixed_b 2 1 (e_frq e))%bool)).
    + intros e H. apply orb_true_iff in H. destruct H as [H|H]; eauto using fixed_check.
    + vm_compute. reflexivity.
Qed.
Lemma sample_counts : forall t f, List.length (at_frequency f (of_window t (lit "Rayleigh") sample)) <= 2.
Proof.
  intros t f. unfold of_window, at_frequency, sample. cbn [filter peak e_time e_wave e_frq].
  change (text_eqb (lit "Love") (lit "Rayleigh")) with false. change (text_eqb (lit "Rayleigh") (lit "Rayleigh")) with true.
  rewrite !Bool.andb_true_r, Bool.andb_false_r.
  destruct (text_eqb_spec (lit "05.0") t) as [E1|], (text_eqb_spec (lit "15.0") t) as [E2|]; try (rewrite <- E2 in E1; discriminate);
    cbn [filter peak e_frq]; destruct (text_eqb_spec (lit "10.5") f) as [E3|], (text_eqb_spec (lit "2.5") f) as [E4|];
    try (rewrite <- E4 in E3; discriminate); cbn [List.length]; lia.
Qed.
Example C50_file_nonvacuous : exists cn wf pt,
  check_version sample_header = Ok tt /\ search get_nmaxima sample_header = Some cn /\
  search get_process_type sample_header = Some pt /\ search get_wavetype (contents sample_header sample) = Some wf /\
  validate_wavetypes (effective_wavetype "rayleigh" (group 1 wf)) = Ok "Rayleigh"%string /\
  header_ok (lit "Rayleigh") sample_header /\ (forall e, In e sample -> entry_ok e) /\
  (forall e, In e sample -> reads e (value_of e)) /\
  (forall e, In e (of_wave (lit "Rayleigh") sample) -> time_stands_out (e_time e) sample /\ frequency_stands_out (e_frq e) sample) /\
  (forall t f, List.length (at_frequency f (of_window t (lit "Rayleigh") sample)) <= clamp_nmaxima (cap 1 cn)) /\
  of_wave (lit "Rayleigh") sample = peak "05.0" "10.5" "Rayleigh" "0.002" "0" :: tl (of_wave (lit "Rayleigh") sample) /\
  firsts (map e_time (of_wave (lit "Rayleigh") sample)) = [lit "05.0"; lit "15.0"].
Proof.
  exists [(1, lit "2")], [(1, lit "Rayleigh")], [(1, lit "RTBF")].
  split; [vm_compute; reflexivity|]. split; [vm_compute; reflexivity|]. split; [vm_compute; reflexivity|].
  split; [vm_compute; reflexivity|]. split; [vm_compute; reflexivity|].
  split; [apply header_check; vm_compute; reflexivity|]. split; [exact sample_entries|]. split; [exact sample_reads|].
  split; [intros e I; apply sample_stands_out; apply in_of_wave in I; tauto|]. split; [exact sample_counts|].
  split; vm_compute; reflexivity.
Qed.

(** Refuted in general: the window "5.0" also receives the peaks of the window "15.0". *)
Definition mixed : list entry := [peak "5.0" "10.5" "Rayleigh" "0.002" "0"; peak "15.0" "10.5" "Rayleigh" "0.004" "0"].
Theorem C50_refuted : exists header es t frqs nmax p,
  (forall e, In e es -> entry_ok e) /\ (forall e, In e es -> reads e (value_of e)) /\ header_ok (lit "Rayleigh") header /\
  check_version header = Ok tt /\
  parse_peaks (contents header es) "rayleigh" (Some t) (Some frqs) (Some nmax) = Ok p /\
  List.length (of_window t (lit "Rayleigh") es) = 1 /\
  ~ holds_window p nmax frqs (of_window t (lit "Rayleigh") es) value_of.
Proof.
  set (r := parse_peaks (contents sample_header mixed) "rayleigh" (Some (lit "5.0")) (Some [lit "10.5"]) (Some 2)).
  assert (E : exists p, r = Ok p /\ exists a, assoc "frequency" (fields p) = Some a /\ is_nan (at2 NaN 1 (dat a) 1 0) = false).
  { assert (O : match r with
                | Ok p => match assoc "frequency" (fields p) with Some a => negb (is_nan (at2 NaN 1 (dat a) 1 0)) | None => false end
                | Err _ => false end = true) by (vm_compute; reflexivity).
    destruct r as [p|]; [|discriminate]. exists p. split; auto. destruct (assoc "frequency" (fields p)) as [a|]; [|discriminate].
    exists a. split; auto. now destruct (is_nan _). }
  destruct E as (p & E & a & A & B).
  exists sample_header, mixed, (lit "5.0"), [lit "10.5"], 2, p.
  split; [apply (forall_check _ entry_b); [apply entry_check|vm_compute; reflexivity]|].
  split; [apply (forall_check (fun e => reads e (value_of e)) reads_b); [apply reads_check|vm_compute; reflexivity]|].
  split; [apply header_check; vm_compute; reflexivity|].
  split; [vm_compute; reflexivity|]. split; [exact E|]. split; [vm_compute; reflexivity|].
  intros ((a' & A' & _ & H) & _). rewrite A in A'. injection A' as <-.
  specialize (H 1 0 (lit "10.5") ltac:(lia) eq_refl). cbn [List.length] in H. rewrite H in B. vm_compute in B. discriminate.
Qed.
Print Assumptions C50_refuted.
(** A point in a time stands for any character: the window "5.0" receives those of "510". *)
Theorem C50_wildcard_refuted : exists es,
  (forall e, In e es -> entry_ok e) /\ List.length (of_window (lit "5.0") (lit "Rayleigh") es) = 1 /\
  exists r, get_peak_from_max (Some (lit "5.0")) (Some (lit "10.5")) "rayleigh" = Ok r /\
    List.length (finditer r (contents sample_header es)) = 2.
Proof.
  exists [peak "5.0" "10.5" "Rayleigh" "0.002" "0"; peak "510" "10.5" "Rayleigh" "0.004" "0"].
  split; [apply (forall_check _ entry_b); [apply entry_check|vm_compute; reflexivity]|].
  split; [vm_compute; reflexivity|]. eexists. split; [reflexivity|]. vm_compute. reflexivity.
Qed.
Print Assumptions C50_wildcard_refuted.
(** A frequency with a signed exponent is never found again: the file cannot be read. *)
Theorem C50_exponent_refuted : exists data,
  (exists c, check_version data = Ok tt /\ search (peak_re TIME NUMBER "Rayleigh") data = Some c /\
             parse_float (cap 2 c) = Ok (Fin (QcZ 100))) /\
  peaks_from_max data "rayleigh" = Err ValueError /\ suite_from_max [data] "rayleigh" = Err ValueError.
Proof.
  exists (contents sample_header [peak "5.0" "1e+02" "Rayleigh" "0.002" "0"]).
  split; [eexists; split; [vm_compute; reflexivity|]; split; vm_compute; reflexivity|]. split; vm_compute; reflexivity.
Qed.
Print Assumptions C50_exponent_refuted.
(** A line marked as not valid, after which a field begins with 1, makes the file unreadable. *)
Theorem C50_invalid_line_refuted : exists valid invalid,
  (exists p, peaks_from_max (contents sample_header [valid]) "rayleigh" = Ok p) /\
  (forall r, get_peak_from_max (Some (e_time valid)) None "rayleigh" = Ok r -> finditer r invalid = []) /\
  peaks_from_max (contents sample_header [valid] ++ invalid ++ [newline]) "rayleigh" = Err ValueError.
Proof.
  exists (peak "5.0" "10.5" "Rayleigh" "0.002" "0"), (lit "5.0 10.5 Rayleigh 0.002 30.5 0.1 0 12.5 0").
  split.
  { set (r := peaks_from_max (contents sample_header [peak "5.0" "10.5" "Rayleigh" "0.002" "0"]) "rayleigh"). assert (O : match r with Ok _ => true | Err _ => false end = true) by (vm_compute; reflexivity).
    destruct r as [p|]; [eauto|discriminate]. }
  split; [intros r E; injection E as <-; vm_compute; reflexivity|].
  vm_compute. reflexivity.
Qed.
Print Assumptions C50_invalid_line_refuted.

(** ** C51.  The requested wave type. *)
Theorem C51_each_file_partial : forall files w,
  w <> "rayleigh"%string \/ (forall d, In d files -> ~ detects_vertical d) ->
  read_files files w = bind (mapM (fun d => snd (read_file d w)) files) (fun pss => Ok (List.concat pss)).
Proof. exact read_files_each. Qed.
Print Assumptions C51_each_file_partial.
Example C51_each_file_nonvacuous : exists files ps,
  (forall d, In d files -> ~ detects_vertical d) /\ List.length files = 2 /\
  read_files files "rayleigh" = Ok ps /\ List.length ps = 4.
Proof.
  exists [contents sample_header sample; contents sample_header sample].
  set (r := read_files [contents sample_header sample; contents sample_header sample] "rayleigh"). assert (E : exists ps, r = Ok ps /\ List.length ps = 4).
  { assert (O : match r with Ok ps => List.length ps = 4 | Err _ => False end) by (vm_compute; reflexivity).
    destruct r as [ps|]; [|contradiction]. eauto. }
  destruct E as (ps & E & L). exists ps. split; [|split; [reflexivity|split; auto]].
  assert (Sw : search get_wavetype (contents sample_header sample) = Some [(1, lit "Rayleigh")]) by (vm_compute; reflexivity).
  intros d [<-|[<-|[]]] (c & t & S & G & V); rewrite Sw in S; injection S as <-; injection G as <-; discriminate.
Qed.
(** Refuted in general: after a file of vertical-component peaks, "rayleigh" means "vertical"
    for all the files that follow. *)
Theorem C51_refuted : exists d1 d2 ps qs,
  snd (read_file d1 "rayleigh") = Ok ps /\ snd (read_file d2 "rayleigh") = Ok qs /\ qs <> [] /\
  read_files [d1; d2] "rayleigh" = Ok ps.
Proof.
  set (d1 := contents sample_header [peak "5.0" "10.5" "Vertical" "0.002" "0"]).
  set (d2 := contents sample_header [peak "7.0" "10.5" "Rayleigh" "0.002" "0"; peak "7.0" "10.5" "Love" "0.002" "0"]).
  exists d1, d2.
  assert (O1 : match snd (read_file d1 "rayleigh") with Ok _ => true | Err _ => false end = true) by (vm_compute; reflexivity).
  assert (O2 : match snd (read_file d2 "rayleigh") with Ok (_ :: _) => true | _ => false end = true) by (vm_compute; reflexivity).
  assert (O3 : fst (read_file d1 "rayleigh") = "vertical"%string) by (vm_compute; reflexivity).
  assert (O4 : read_file d2 "vertical" = ("vertical"%string, Ok [])) by (vm_compute; reflexivity).
  destruct (snd (read_file d1 "rayleigh")) as [ps|] eqn:E1; [|discriminate].
  destruct (snd (read_file d2 "rayleigh")) as [[|q qs]|] eqn:E2; try discriminate.
  exists ps, (q :: qs). split; auto. split; auto. split; [discriminate|].
  cbn [read_files]. destruct (read_file d1 "rayleigh") as [w r]. cbn [fst snd] in *. subst w r. rewrite O4. cbn [bind].
  now rewrite app_nil_r.
Qed.
Print Assumptions C51_refuted.
(** Unknown wave types. *)
Theorem C51_unknown : forall d files w, ~ known w -> exists e, suite_from_max (d :: files) w = Err e.
Proof. exact unknown_wavetype. Qed.
Print Assumptions C51_unknown.
Theorem C51_unknown_value : forall d w, ~ known w -> check_version d = Ok tt ->
  search get_wavetype d <> None -> search get_nmaxima d <> None ->
  forall files, suite_from_max (d :: files) w = Err ValueError.
Proof. exact unknown_value. Qed.
Print Assumptions C51_unknown_value.
Example C51_unknown_nonvacuous : ~ known "Rayleigh" /\ check_version (contents sample_header sample) = Ok tt /\
  search get_wavetype (contents sample_header sample) <> None /\ search get_nmaxima (contents sample_header sample) <> None.
Proof.
  split; [intros H; cbn in H; intuition discriminate|]. split; [vm_compute; reflexivity|].
  split; vm_compute; discriminate.
Qed.
(** Files of any other version of Geopsy than 3.2.0 are refused. *)
Theorem C51_version : forall d, (forall c, search get_geopsy_version d = Some c ->
    cap 1 c ++ ["."] ++ cap 2 c ++ ["."] ++ cap 3 c <> lit "3.2.0") ->
  forall w files, exists e, peaks_from_max d w = Err e /\ suite_from_max (d :: files) w = Err e /\
    (e = ValueError \/ e = AttributeError).
Proof. exact version_needed. Qed.
Print Assumptions C51_version.
Example C51_version_nonvacuous : exists d c, search get_geopsy_version d = Some c /\
  cap 1 c ++ ["."] ++ cap 2 c ++ ["."] ++ cap 3 c = lit "3.3.0".
Proof. exists (lit "geopsypack-3.3.0"). eexists. split; vm_compute; reflexivity. Qed.
