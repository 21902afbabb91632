(* C90: the patterns for SPAC ratios and rings find what a file says. *)
From Verif Require Import MaxModel MaxSpec RegexProofs MaxProofs SpacModel SpacSpec SpacProofs.
Local Open Scope nat_scope.
Local Open Scope list_scope.
Local Open Scope char_scope.

(** In a file of SPAC ratios, the pattern of get_spac_ratio finds the lines of component 0, of the
    ring and of the time asked for (all of them by default), each once and in order; the groups
    of a match are the columns that were not fixed by the caller. *)
Theorem C90_ratios : forall header es time component ring, no_ratio_line header -> (forall e, In e es -> ratio_ok e) ->
  component = "(0)"%string \/ component = "0"%string ->
  (forall t, time = Some t -> unsigned t /\ sole_time t es) ->
  (forall r, ring = Some r -> r <> [] /\ digits r) ->
  exists p, get_spac_ratio time component ring = Ok p /\
    map all_groups (finditer p (ratio_file header es)) = map (columns time (String.eqb component "(0)") ring) (filter (asked time ring) es).
Proof. exact ratios_found. Qed.
Print Assumptions C90_ratios.

Definition spac_header : text := lit "# time | frequency | component | ring | ratio" ++ newline :: lit "# 2 rings".
Definition spac_lines : list ratio :=
  [mkRatio (lit "0") (lit "1.5") (lit "0") (lit "0") (lit "0.95"); mkRatio (lit "0") (lit "1.5") (lit "1") (lit "0") (lit "-0.2e-1");
   mkRatio (lit "0") (lit "1.5") (lit "0") (lit "10") (lit "3e-05"); mkRatio (lit "60.5") (lit "2") (lit "0") (lit "0") (lit "-1")].
Lemma number_check t : unsigned_b t = true -> number t. Proof. intros H. apply unsigned_number, unsigned_check, H. Qed.
Example C90_spac_ok : no_ratio_line spac_header /\ (forall e, In e spac_lines -> ratio_ok e) /\ sole_time (lit "60.5") spac_lines.
Proof.
  assert (U : forall t, unsigned_b t = true -> number t) by exact number_check.
  split; [|split].
  - intros a c x b E D N.
    (* the only figure stands near the end *)
    assert (P : skipn 48 spac_header = c :: x ++ b).
    { assert (L : List.length a = 48).
      { assert (F : forallb (fun i => if digit (nth i spac_header "a") then Nat.eqb i 48 else true) (seq 0 (List.length spac_header)) = true) by reflexivity.
        rewrite forallb_forall in F. specialize (F (List.length a)).
        assert (I : In (List.length a) (seq 0 (List.length spac_header))).
        { apply in_seq. rewrite E, app_length. cbn [List.length]. split; auto with arith. rewrite Nat.add_0_l. rewrite <- Nat.add_0_r at 1.
          apply Nat.add_lt_mono_l. auto with arith. }
        specialize (F I). rewrite E in F. rewrite app_nth2 in F by auto. rewrite Nat.sub_diag in F. cbn [nth] in F. rewrite D in F. now apply Nat.eqb_eq. }
      rewrite E, skipn_app, L. rewrite Nat.sub_diag. rewrite <- L. now rewrite skipn_all. }
    assert (X : x ++ b = lit " rings") by (cbn in P; now injection P as _ P).
    assert (Cn : count_occ ascii_dec x space <= count_occ ascii_dec (x ++ b) space) by (rewrite count_occ_app; auto with arith).
    rewrite X in Cn. eapply Nat.le_lt_trans; [exact Cn|]. cbn. auto with arith.
  - intros e I. cbn [spac_lines In] in I. unfold ratio_ok, word.
    assert (W : forall t, forallb (fun a => negb (Ascii.eqb a space) && negb (Ascii.eqb a newline))%bool t = true -> ~ In space t /\ ~ In newline t).
    { intros t F. rewrite forallb_forall in F. split; intros J; apply F in J; discriminate. }
    destruct I as [<-|[<-|[<-|[<-|[]]]]]; cbn [q_time q_frq q_component q_ring q_ratio];
      (split; [apply U; reflexivity|split; [apply U; reflexivity|split; [apply W; reflexivity|split; [split; [discriminate|reflexivity]|]]]]).
    + apply U; reflexivity.
    + exists (lit "-"), (lit "0.2"), (lit "e-1"). split; [now right|]. split; [apply unsigned_check; reflexivity|]. split; [|reflexivity].
      right. exists "e", (lit "-"), (lit "1"). repeat split; auto.
    + exists [], (lit "3"), (lit "e-05"). split; [now left|]. split; [apply unsigned_check; reflexivity|]. split; [|reflexivity].
      right. exists "e", (lit "-"), (lit "05"). repeat split; auto.
    + exists (lit "-"), (lit "1"), []. split; [now right|]. split; [apply unsigned_check; reflexivity|]. split; [now left|reflexivity].
  - intros e pre s I E L. assert (LL : List.length s = 4).
    { change 4 with (List.length (lit "60.5")). symmetry. clear -L. unfold looks_like in L. revert L. generalize (lit "60.5"). intros u L. induction L; cbn; congruence. }
    cbn [spac_lines In] in I.
    destruct I as [<-|[<-|[<-|[<-|[]]]]]; cbn [q_time] in *; auto; exfalso; apply (f_equal (@List.length ascii)) in E; rewrite app_length, LL in E; cbn in E;
      destruct pre as [|? pre]; cbn in E; try discriminate; rewrite Nat.add_comm in E; discriminate.
Qed.
(** all lines of component 0; ring 10 only; time 60.5 only *)
Example C90_spac_found :
  match get_spac_ratio None "(0)" None with
  | Ok p => map (map string_of_list_ascii) (map all_groups (finditer p (ratio_file spac_header spac_lines)))
            = [["0"; "1.5"; "0"; "0"; "0.95"]; ["0"; "1.5"; "0"; "10"; "3e-05"]; ["60.5"; "2"; "0"; "0"; "-1"]]%string
  | Err _ => False end /\
  match get_spac_ratio None "0" (Some (lit "10")) with
  | Ok p => map (map string_of_list_ascii) (map all_groups (finditer p (ratio_file spac_header spac_lines))) = [["0"; "1.5"; "3e-05"]]%string
  | Err _ => False end /\
  match get_spac_ratio (Some (lit "60.5")) "0" None with
  | Ok p => map (map string_of_list_ascii) (map all_groups (finditer p (ratio_file spac_header spac_lines))) = [["2"; "0"; "-1"]]%string
  | Err _ => False end.
Proof. repeat split; vm_compute; reflexivity. Qed.

(** Every other component is refused. *)
Theorem C90_components : forall time component ring, component <> "(0)"%string -> component <> "0"%string ->
  get_spac_ratio time component ring = Err NotImplementedError.
Proof.
  intros time component ring A B. unfold get_spac_ratio. apply String.eqb_neq in A, B. now rewrite A, B.
Qed.
Print Assumptions C90_components.

(** Asking for the time 10 also finds the lines of time 110: the pattern is not anchored. *)
Theorem C90_time_refuted : exists header e t p, no_ratio_line header /\ ratio_ok e /\ unsigned t /\ q_time e <> t /\
  get_spac_ratio (Some t) "(0)" None = Ok p /\ finditer p (ratio_file header [e]) <> [].
Proof.
  exists [], (mkRatio (lit "110") (lit "2") (lit "0") (lit "1") (lit "0.5")), (lit "10").
  eexists. split; [intros a c x b E; destruct a; discriminate|]. split.
  { unfold ratio_ok, word. cbn [q_time q_frq q_component q_ring q_ratio].
    split; [now apply number_check|]. split; [now apply number_check|]. split; [split; intros [Q|[]]; discriminate|].
    split; [split; [discriminate|reflexivity]|]. now apply number_check. }
  split; [apply unsigned_check; reflexivity|]. split; [discriminate|]. split; [reflexivity|]. vm_compute. discriminate.
Qed.
Print Assumptions C90_time_refuted.

(** In a log, get_spac_ring finds the two radii of every ring, in order, whatever stands between
    the lines that name them. *)
Theorem C90_rings : forall before l, unmarked before ->
  (forall ab after, In (ab, after) l -> number (fst ab) /\ number (snd ab) /\ unmarked after) ->
  map all_groups (finditer get_spac_ring (before ++ List.concat (map (fun x => ring_text (fst x) ++ snd x) l))) = map (fun x => [fst (fst x); snd (fst x)]) l.
Proof. exact rings_found. Qed.
Print Assumptions C90_rings.

Definition spac_log : list ((text * text) * text) :=
  [((lit "4.5", lit "10"), newline :: lit "    pairs: 12" ++ [newline]); ((lit "10", lit "2e1"), [newline])].
Lemma unmarked_check t : search (Lit ring_mark) t = None -> unmarked t.
Proof. intros S a b ->. apply (search_none _ _ S a ring_mark b [] eq_refl). now apply lang_lit. Qed.
Example C90_log_ok : unmarked (lit "Rings:" ++ [newline]) /\
  forall ab after, In (ab, after) spac_log -> number (fst ab) /\ number (snd ab) /\ unmarked after.
Proof.
  split; [apply unmarked_check; reflexivity|]. intros ab after I. cbn [spac_log In] in I. destruct I as [I|[I|[]]]; injection I as <- <-; cbn [fst snd].
  - split; [now apply number_check|]. split; [now apply number_check|]. apply unmarked_check; reflexivity.
  - split; [now apply number_check|]. split; [|apply unmarked_check; reflexivity].
    exists [], (lit "2"), (lit "e1"). split; [now left|]. split; [apply unsigned_check; reflexivity|]. split; [|reflexivity].
    right. exists "e", [], (lit "1"). repeat split; auto.
Qed.
