(* Properties C50 and C51 for whole files, in the words of those who write them. *)
From Verif Require Import MaxModel RegexProofs MaxSpec MaxNumberSpec MaxHeaderSpec MaxProofs MaxNumberProofs MaxHeaderProofs NumFacts.
Local Open Scope nat_scope.
Local Open Scope list_scope.
Local Open Scope char_scope.

(** ** C50.  A file of geopsy 3.2.0 is read window by window; see [C50_file_partial].
    Partial: the times and frequencies must stand out (see [C50_fixed_width]), and no line
    of the header may look like a line of data. *)
Theorem C50_document_partial : forall header es P N o w w' W name values,
  header_of P N header -> (forall e, In e es -> states e (values e)) -> announced header es o ->
  read_as w o w' -> In (w', W) wave_names -> named P o name -> header_ok (lit W) header ->
  (forall e, In e (of_wave (lit W) es) -> time_stands_out (e_time e) es /\ frequency_stands_out (e_frq e) es) ->
  (forall t f, List.length (at_frequency f (of_window t (lit W) es)) <= count_of N) ->
  exists ps, read_file (contents header es) w = (w', Ok ps) /\
    Forall2 (fun t p => identifier p = string_of_list_ascii (t ++ ["-"] ++ name) /\
               holds_window p (count_of N) (firsts (map e_frq (of_wave (lit W) es))) (of_window t (lit W) es) values)
            (firsts (map e_time (of_wave (lit W) es))) ps.
Proof. exact document_read. Qed.
Print Assumptions C50_document_partial.
Theorem C50_document_first_partial : forall header es P N o w w' W name values e0 rest,
  header_of P N header -> (forall e, In e es -> states e (values e)) -> announced header es o ->
  read_as w o w' -> In (w', W) wave_names -> named P o name -> header_ok (lit W) header ->
  of_wave (lit W) es = e0 :: rest -> time_stands_out (e_time e0) es ->
  (forall e, In e (of_window (e_time e0) (lit W) es) -> frequency_stands_out (e_frq e) es) ->
  (forall f, List.length (at_frequency f (of_window (e_time e0) (lit W) es)) <= count_of N) ->
  exists p, peaks_from_max (contents header es) w = Ok p /\
    identifier p = string_of_list_ascii (e_time e0 ++ ["-"] ++ name) /\
    holds_window p (count_of N) (firsts (map e_frq (of_window (e_time e0) (lit W) es))) (of_window (e_time e0) (lit W) es) values.
Proof. exact document_first. Qed.
Print Assumptions C50_document_first_partial.

(** ** C51.  The wave type a file announces. *)
Theorem C51_announced : forall header es o values, no_data_line header -> (forall e, In e es -> states e (values e)) ->
  announced header es o -> exists c, search get_wavetype (contents header es) = Some c /\ group 1 c = o.
Proof.
  intros header es o values Nd St. apply announced_found; [exact Nd|]. intros e I. destruct (states_ok e _ (St e I)) as (A & B & _). auto.
Qed.
Print Assumptions C51_announced.
(** So a file whose header holds "inf" anywhere, or whose first noise is no number, is never
    taken for one of vertical components: its "rayleigh" peaks are asked for as such. *)
Theorem C51_unannounced : forall header es values, no_data_line header -> (forall e, In e es -> states e (values e)) ->
  announced header es None -> ~ detects_vertical (contents header es).
Proof.
  intros header es values Nd St An (c & t & S & G & _). destruct (C51_announced header es None values Nd St An) as (c' & S' & G').
  rewrite S in S'. injection S' as <-. rewrite G in G'. discriminate.
Qed.
Print Assumptions C51_unannounced.
(** Refuted: the vertical peaks of such a file are not found as "rayleigh" peaks. *)
Theorem C51_vertical_refuted : forall header es P N values,
  header_of P N header -> (forall e, In e es -> states e (values e)) -> contains (lit "inf") header ->
  (forall e, In e es -> e_wave e = lit "Vertical") -> header_ok (lit "Rayleigh") header ->
  read_file (contents header es) "rayleigh" = ("rayleigh"%string, Ok []).
Proof.
  intros header es P N values H St Ci V Ho.
  assert (W0 : of_wave (lit "Rayleigh") es = []).
  { destruct (of_wave (lit "Rayleigh") es) as [|e r] eqn:E; [reflexivity|]. assert (I : In e (of_wave (lit "Rayleigh") es)) by (rewrite E; now left).
    apply in_of_wave in I. destruct I as [I Q]. rewrite (V e I) in Q. discriminate. }
  destruct (C50_document_partial header es P N None "rayleigh" "rayleigh" "Rayleigh" (lower P) values H St) as (ps & E & F); auto.
  - left. auto.
  - right. split; [right; discriminate|reflexivity].
  - now left.
  - right. split; [right; discriminate|reflexivity].
  - rewrite W0. intros e [].
  - intros t f. replace (of_window t (lit "Rayleigh") es) with (@nil entry); [cbn; lia|]. symmetry.
    destruct (of_window t (lit "Rayleigh") es) as [|e r] eqn:Q; [reflexivity|].
    assert (I : In e (of_window t (lit "Rayleigh") es)) by (rewrite Q; now left).
    apply in_of_window in I. assert (J : In e (of_wave (lit "Rayleigh") es)) by (apply in_of_wave; tauto). rewrite W0 in J. destruct J.
  - rewrite W0 in F. inversion F; subst. exact E.
Qed.
Print Assumptions C51_vertical_refuted.

(** A file after those in the repository. *)
Definition lines (l : list string) : text := List.concat (map (fun s => lit s ++ [newline]) l).
Definition real_header (distance : string) : text := lines [
  "# GEOPSY output version 3"; "# Binary = geopsy-fk"; "#   QGpCoreTools        2.2.0 from geopsypack-3.2.0";
  "# BEGIN DETAILED REPORT"; "1 9.31 47.18 0.00"; "12 -9.31 47.18 0.00";
  "PROCESS_TYPE=RTBF"; "# If provided and PROCESS_TYPE==DirectSteering, Radial ellipticity steering."; distance;
  "# by skipping Love computation"; "N_MAXIMA=12"; "# END"]%string
  ++ lit "# abs_time frequency polarization slowness azimuth ellipticity noise power valid".
Definition real_line (t f w s a l n p : string) : entry :=
  mkEntry (lit t) (lit f) (lit w) (lit s) (lit a) (lit l) (lit n) (lit p).
Definition real_lines (w : string) : list entry := [
  real_line "20170609223200.000000" "26.784520720832514229" w "0.00044064080294955153012" "177.50000000000005684" "-1.2835212219205216488" "152.96674997467835055" "246.5";
  real_line "20170609223200.000000" "26.784520720832514229" w "0.0018554754628104259268" "14.318975454730491492" "0" "inf" "0";
  real_line "20170609223300.000000" "4.5" w "0.0022365702255085387166" "193.85346692057800055" "0" "0" "3503.9830332153192103"].

Fixpoint starts (k : text) (ok : ascii -> bool) (t : text) : bool :=
  match k, t with
  | [], c :: _ => ok c
  | [], [] => false
  | a :: k', b :: t' => (is a b && starts k' ok t')%bool
  | _ :: _, [] => false
  end.
Lemma starts_app k ok c r : ok c = true -> starts k ok (k ++ c :: r) = true.
Proof. intros H. induction k as [|a k IH]; cbn [app starts]; [exact H|]. unfold is. now rewrite Ascii.eqb_refl, IH. Qed.
Lemma first_check key ok value t n :
  firstn (List.length (key ++ value)) (skipn n t) = key ++ value -> value <> [] -> forallb ok value = true ->
  match skipn (List.length (key ++ value)) (skipn n t) with c :: _ => ok c = false | [] => True end -> n <= List.length t ->
  forallb (fun i => negb (starts key ok (skipn i t))) (List.seq 0 n) = true -> first_value key ok value t.
Proof.
  intros E Ne Ok Af Ln F. exists (firstn n t), (skipn (List.length (key ++ value)) (skipn n t)).
  split. { rewrite (app_assoc key). rewrite <- E at 1. now rewrite firstn_skipn, firstn_skipn. }
  split; [exact Ne|]. split; [exact Ok|]. split; [intros c r Q; now rewrite Q in Af|].
  intros a c r Q Oc. rewrite firstn_length, Nat.min_l by exact Ln. destruct (Nat.le_gt_cases n (List.length a)) as [H|H]; [exact H|]. exfalso.
  rewrite forallb_forall in F. specialize (F (List.length a) ltac:(apply in_seq; lia)). rewrite Q, skipn_app, skipn_all, Nat.sub_diag in F.
  cbn [app skipn] in F. now rewrite starts_app in F.
Qed.
Lemma version_check t n :
  firstn 16 (skipn n t) = lit "geopsypack-3.2.0" -> match skipn 16 (skipn n t) with c :: _ => digit c = false | [] => True end -> n <= List.length t ->
  forallb (fun i => negb (starts (lit "geopsypack") (is "-") (skipn i t))) (List.seq 0 n) = true -> of_version_320 t.
Proof.
  intros E Af Ln F. exists (firstn n t), (skipn 16 (skipn n t)).
  split. { rewrite (app_assoc (lit "geopsypack-")). change (lit "geopsypack-" ++ lit "3.2.0") with (lit "geopsypack-3.2.0"). rewrite <- E.
    now rewrite firstn_skipn, firstn_skipn. }
  split; [intros c r Q; now rewrite Q in Af|].
  intros a r Q. rewrite firstn_length, Nat.min_l by exact Ln. destruct (Nat.le_gt_cases n (List.length a)) as [H|H]; [exact H|]. exfalso.
  rewrite forallb_forall in F. specialize (F (List.length a) ltac:(apply in_seq; lia)). rewrite Q, skipn_app, skipn_all, Nat.sub_diag in F.
  change (lit "geopsypack-" ++ r) with (lit "geopsypack" ++ "-" :: r) in F. cbn [app skipn] in F.
  now rewrite (starts_app (lit "geopsypack") (is "-") "-" r) in F.
Qed.
Lemma spaces_split n : forall x, n <= count_occ ascii_dec x space -> ~ In newline x ->
  exists u v, x = u ++ v /\ lang (Nat.iter n (fun r => Seq (Star any) (Seq SP r)) Eps) u [] [].
Proof.
  induction n as [|n IH]; intros x C NL; cbn [Nat.iter nat_rect].
  - exists [], x. split; [reflexivity|constructor].
  - assert (S : exists a b, x = a ++ space :: b /\ ~ In space a).
    { assert (I : In space x) by (apply (count_occ_In ascii_dec); lia). clear - I. induction x as [|c x IHx]; [destruct I|].
      destruct (Ascii.eqb_spec c space) as [->|Nc]; [exists [], x; split; [reflexivity|intros []]|].
      destruct I as [->|I]; [congruence|]. destruct (IHx I) as (a & b & -> & Na). exists (c :: a), b. split; [reflexivity|].
      intros [Q|Q]; [congruence|auto]. }
    destruct S as (a & b & -> & Na). rewrite in_app_iff in NL. cbn [In] in NL.
    rewrite count_occ_app in C. cbn [count_occ] in C. destruct (ascii_dec space space) as [_|]; [|congruence].
    rewrite (proj1 (count_occ_not_In ascii_dec a space) Na) in C.
    destruct (IH b) as (u & v & -> & L); [lia|tauto|]. exists (a ++ [space] ++ u), v. split; [now rewrite <- !app_assoc|].
    apply lseq; [constructor; apply any_word; tauto|]. apply lseq; [apply lsp|exact L].
Qed.
Definition data_like : re :=
  Seq (Chr digit) (Seq (Opt (is ".")) (Seq SP (Seq (Opt (is "-")) (Seq (Chr digit) (Nat.iter 5 (fun r => Seq (Star any) (Seq SP r)) Eps))))).
Lemma no_data_check t : search data_like t = None -> no_data_line t.
Proof.
  intros S a c p m d x b E Dc Dd Hp Hm NL. destruct (Nat.lt_ge_cases (count_occ ascii_dec x space) 5) as [H|H]; [exact H|]. exfalso.
  destruct (spaces_split 5 x H NL) as (u & v & -> & L).
  refine (search_none data_like t S a ([c] ++ p ++ [space] ++ m ++ [d] ++ u) (v ++ b) [] _ _).
  - rewrite E. repeat (rewrite <- app_assoc; cbn [app]). reflexivity.
  - unfold data_like. apply lseq; [now constructor|]. apply lseq; [destruct Hp as [-> | ->]; [apply lopt_none|now apply lopt_some]|].
    apply lseq; [apply lsp|]. apply lseq; [destruct Hm as [-> | ->]; [apply lopt_none|now apply lopt_some]|]. apply lseq; [now constructor|exact L].
Qed.
Lemma unsigned_written s t : s = [] \/ s = ["-"] -> unsigned t -> exists v, written (s ++ t) v.
Proof.
  intros Hs (a & b & Na & Da & Db & [-> | ->]).
  - eexists _, s, a, [], [], [], 0%Z. split; [exact Hs|]. split; [exact Na|]. split; [exact Da|]. split; [reflexivity|]. split; [now left|].
    split; [left; auto|]. split; [cbn [app]; now rewrite app_nil_r|reflexivity].
  - eexists _, s, a, ["."], b, [], 0%Z. split; [exact Hs|]. split; [exact Na|]. split; [exact Da|]. split; [exact Db|]. split; [now right|].
    split; [left; auto|]. split; [now rewrite app_nil_r|reflexivity].
Qed.
Definition signed_b (t : text) : bool := match t with a :: r => if is a "-" then unsigned_b r else unsigned_b t | [] => false end.
Lemma signed_written t : signed_b t = true -> exists v, written t v.
Proof.
  destruct t as [|a r]; cbn [signed_b]; [discriminate|]. destruct (is a "-") eqn:A.
  - apply Ascii.eqb_eq in A. subst a. intros H. apply (unsigned_written ["-"] r); [now right|now apply unsigned_check].
  - intros H. apply (unsigned_written [] (a :: r)); [now left|now apply unsigned_check].
Qed.
Definition states_b (e : entry) : bool :=
  (unsigned_b (e_time e) && unsigned_b (e_frq e) && existsb (fun p => text_eqb (lit (snd p)) (e_wave e)) wave_names &&
   signed_b (e_slo e) && signed_b (e_azi e) && signed_b (e_ell e) && (signed_b (e_noi e) || text_eqb (e_noi e) (lit "inf")) &&
   signed_b (e_pwr e) && reads_b e)%bool.
Lemma states_check e : states_b e = true -> states e (value_of e).
Proof.
  unfold states_b. rewrite !andb_true_iff, orb_true_iff. intros ((((((((T & F) & W) & S) & A) & L) & N) & P) & R).
  pose proof (reads_check e R) as (R1 & (s & R2 & Ns & R2') & R3 & R4 & R5 & R6).
  destruct (signed_written _ S) as (s' & Hs). destruct (signed_written _ A) as (a & Ha). destruct (signed_written _ L) as (l & Hl).
  destruct (signed_written _ P) as (p & Hp).
  destruct (unsigned_written [] (e_frq e) (or_introl eq_refl) (unsigned_check _ F)) as (f & Hf). cbn [app] in Hf.
  rewrite (parse_written _ _ Hf) in R1. rewrite (parse_written _ _ Hs) in R2. rewrite (parse_written _ _ Ha) in R3.
  rewrite (parse_written _ _ Hl) in R4. rewrite (parse_written _ _ Hp) in R6. injection R1 as R1. injection R2 as R2. injection R3 as R3.
  injection R4 as R4. injection R6 as R6. subst s'.
  assert (Nv : noise_value (e_noi e) (r_noi (value_of e))).
  { destruct N as [N|N]; [left; destruct (signed_written _ N) as (v & Hv); exists v; split; [exact Hv|]; rewrite (parse_written _ _ Hv) in R5; now injection R5 as R5|].
    destruct (text_eqb_spec (e_noi e) (lit "inf")) as [Q|]; [|discriminate]. right. left. split; [exact Q|]. rewrite Q in R5. change (Ok PInf = Ok (r_noi (value_of e))) in R5.
    now injection R5 as R5. }
  split; [now apply unsigned_check|]. split; [now apply unsigned_check|]. split.
  { apply existsb_exists in W. destruct W as ((w & W') & I & Q). cbn [snd] in Q. destruct (text_eqb_spec (lit W') (e_wave e)) as [<-|]; [|discriminate].
    exists w. unfold lit. now rewrite string_of_list_ascii_of_string. }
  exists f, s, a, l, (r_noi (value_of e)), p. repeat (split; [assumption|]).
  rewrite R1, R3, R4, R6, <- R2'. now destruct (value_of e).
Qed.
Fixpoint find_from (k : text) (ok : ascii -> bool) (n : nat) (t : text) : nat :=
  if starts k ok t then n else match t with [] => n | _ :: r => find_from k ok (S n) r end.
Lemma real_header_of d : In d ["MAXIMUM_DISTANCE=inf"; "MAXIMUM_DISTANCE=100"]%string -> header_of (lit "RTBF") (lit "12") (real_header d).
Proof.
  intros H. split; [|split; [|split]].
  - apply (version_check _ (find_from (lit "geopsypack") (is "-") 0 (real_header d)));
      repeat (destruct H as [<-|H]; [vm_compute; first [reflexivity | lia]|]); destruct H.
  - apply (first_check _ _ _ _ (find_from (lit "PROCESS_TYPE=") solid 0 (real_header d))); try discriminate;
      repeat (destruct H as [<-|H]; [vm_compute; first [reflexivity | lia]|]); destruct H.
  - apply (first_check _ _ _ _ (find_from (lit "N_MAXIMA=") digit 0 (real_header d))); try discriminate;
      repeat (destruct H as [<-|H]; [vm_compute; first [reflexivity | lia]|]); destruct H.
  - apply no_data_check. repeat (destruct H as [<-|H]; [vm_compute; reflexivity|]). destruct H.
Qed.
Lemma real_states w : In w ["Rayleigh"; "Vertical"]%string -> forall e, In e (real_lines w) -> states e (value_of e).
Proof.
  intros H. apply (forall_check (fun e => states e (value_of e)) states_b); [apply states_check|].
  repeat (destruct H as [<-|H]; [vm_compute; reflexivity|]). destruct H.
Qed.
Lemma real_stands_out w e : In e (real_lines w) -> time_stands_out (e_time e) (real_lines w) /\ frequency_stands_out (e_frq e) (real_lines w).
Proof.
  intros I. split.
  - apply (fixed_time_stands_out 14 6).
    + revert e I. apply (forall_check (fun e => fixed_point 14 6 (e_time e)) (fun e => fixed_b 14 6 (e_time e))); [intros; now apply fixed_check|]. reflexivity.
    + apply (forall_check (fun e => fixed_point 14 6 (e_time e)) (fun e => fixed_b 14 6 (e_time e))); [intros; now apply fixed_check|]. reflexivity.
  - assert (F : forall e, In e (real_lines w) -> exists m n, fixed_point m n (e_frq e)).
    { apply (forall_check (fun e => exists m n, fixed_point m n (e_frq e)) (fun e => (fixed_b 1 1 (e_frq e) || fixed_b 2 18 (e_frq e))%bool)); [|reflexivity].
      intros e0 B. apply orb_true_iff in B. destruct B as [B|B]; eauto using fixed_check. }
    apply fixed_frequency_stands_out; auto.
Qed.
Lemma length_filter {A} (f : A -> bool) l : List.length (filter f l) <= List.length l.
Proof. induction l as [|a l IH]; cbn; [lia|]. destruct (f a); cbn; lia. Qed.
Lemma real_counts w W t f : List.length (at_frequency f (of_window t W (real_lines w))) <= count_of (lit "12").
Proof.
  unfold at_frequency, of_window. eapply Nat.le_trans; [apply length_filter|]. eapply Nat.le_trans; [apply length_filter|].
  change (3 <= 12). lia.
Qed.
(** Three components, with "inf" in the header. *)
Example C50_document_nonvacuous : exists header es,
  header_of (lit "RTBF") (lit "12") header /\ (forall e, In e es -> states e (value_of e)) /\ announced header es None /\
  read_as "rayleigh" None "rayleigh" /\ named (lit "RTBF") None (lit "rtbf") /\ header_ok (lit "Rayleigh") header /\
  (forall e, In e (of_wave (lit "Rayleigh") es) -> time_stands_out (e_time e) es /\ frequency_stands_out (e_frq e) es) /\
  (forall t f, List.length (at_frequency f (of_window t (lit "Rayleigh") es)) <= count_of (lit "12")) /\
  List.length (firsts (map e_time (of_wave (lit "Rayleigh") es))) = 2.
Proof.
  exists (real_header "MAXIMUM_DISTANCE=inf"), (real_lines "Rayleigh").
  split; [apply real_header_of; now left|]. split; [apply real_states; now left|].
  split. { left. split; [|reflexivity]. set (h := real_header _). exists (firstn (find_from (lit "in") (is "f") 0 h) h), (skipn (3 + find_from (lit "in") (is "f") 0 h) h).
    vm_compute. reflexivity. }
  split; [right; split; [right; discriminate|reflexivity]|]. split; [right; split; [right; discriminate|reflexivity]|].
  split; [apply header_check; vm_compute; reflexivity|]. split; [intros e I; apply real_stands_out; apply in_of_wave in I; tauto|].
  split; [intros; apply real_counts|vm_compute; reflexivity].
Qed.
(** Vertical components: "rayleigh" means "vertical" and the process is "capon". *)
Example C50_document_vertical_nonvacuous : exists header es,
  header_of (lit "RTBF") (lit "12") header /\ (forall e, In e es -> states e (value_of e)) /\ announced header es (Some (lit "Vertical")) /\
  read_as "rayleigh" (Some (lit "Vertical")) "vertical" /\ named (lit "RTBF") (Some (lit "Vertical")) (lit "capon") /\ header_ok (lit "Vertical") header /\
  (forall e, In e (of_wave (lit "Vertical") es) -> time_stands_out (e_time e) es /\ frequency_stands_out (e_frq e) es) /\
  (forall t f, List.length (at_frequency f (of_window t (lit "Vertical") es)) <= count_of (lit "12")) /\
  List.length (firsts (map e_time (of_wave (lit "Vertical") es))) = 2.
Proof.
  exists (real_header "MAXIMUM_DISTANCE=100"), (real_lines "Vertical").
  split; [apply real_header_of; right; now left|]. split; [apply real_states; right; now left|].
  split. { right. split; [apply lit_absent; vm_compute; reflexivity|]. split; [apply lit_absent; vm_compute; reflexivity|].
    eexists _, _. split; [reflexivity|]. left. split; [|reflexivity]. apply unsigned_number, unsigned_check. vm_compute. reflexivity. }
  split; [left; auto|]. split; [left; repeat split; reflexivity|].
  split; [apply header_check; vm_compute; reflexivity|]. split; [intros e I; apply real_stands_out; apply in_of_wave in I; tauto|].
  split; [intros; apply real_counts|vm_compute; reflexivity].
Qed.
Example C51_vertical_nonvacuous : exists header es,
  header_of (lit "RTBF") (lit "12") header /\ (forall e, In e es -> states e (value_of e)) /\ contains (lit "inf") header /\
  (forall e, In e es -> e_wave e = lit "Vertical") /\ header_ok (lit "Rayleigh") header /\ List.length es = 3.
Proof.
  exists (real_header "MAXIMUM_DISTANCE=inf"), (real_lines "Vertical").
  split; [apply real_header_of; now left|]. split; [apply real_states; right; now left|].
  split. { set (h := real_header _). exists (firstn (find_from (lit "in") (is "f") 0 h) h), (skipn (3 + find_from (lit "in") (is "f") 0 h) h).
    vm_compute. reflexivity. }
  split; [intros e I; cbn in I; repeat (destruct I as [<-|I]; [reflexivity|]); destruct I|].
  split; [apply header_check; vm_compute; reflexivity|reflexivity].
Qed.
