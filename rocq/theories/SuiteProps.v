(* Properties of PeaksSuite: C42, C44 - C49, C52 (sharing between suites). *)
From Verif Require Import PyFacts NumFacts PeaksModel PeaksSpec PeaksProofs PeaksJsonProofs PeaksProps.
From Verif Require Import SuiteModel SuiteSpec SuiteProofs SuiteTrimProofs SuiteStatProofs.
Local Open Scope string_scope.
Local Open Scope nat_scope.
Local Open Scope list_scope.

(** One-dimensional Peaks objects with whole-number values. *)
Definition curve (name : string) (f v : list Z) : peaks :=
  mkPeaks name [("frequency", ND (S1 (List.length f)) (map z f));
                ("velocity", ND (S1 (List.length f)) (map z v))]
          (ND (S1 (List.length f)) (map (fun _ => true) f)).
Lemma curve_wf name f v : List.length v = List.length f -> well_formed (S1 (List.length f)) (curve name f v).
Proof.
  intros L. unfold well_formed, curve; cbn [fields valid map fst snd shp dat size].
  split; [do 3 eexists; reflexivity|]. split.
  { repeat constructor; cbn; rewrite map_length; auto. }
  split; [reflexivity|]. split; [rewrite map_length; reflexivity|].
  split; repeat constructor; cbn; intuition discriminate.
Qed.
Definition c1 := curve "a" [1; 4]%Z [10; 40]%Z.
Definition c2 := curve "b" [2; 5; 3]%Z [20; 50; 35]%Z.
Definition c3 := curve "c" [1; 5]%Z [30; 30]%Z.

Lemma last_two {A} (l : list A) a b d : last (l ++ [a; b]) d = b.
Proof. change [a; b] with ([a] ++ [b]). rewrite app_assoc. apply last_last. Qed.

Lemma flat_map_pairs_length {A B} (f g : A -> B) l :
  List.length (flat_map (fun k => [f k; g k]) l) = 2 * List.length l.
Proof. induction l as [|a l IH]; cbn; [reflexivity|]. rewrite IH. cbn. lia. Qed.

(** ** C42: files of suites *)
Theorem C42_round_trip : forall ps before,
  ps <> [] -> NoDup (map identifier ps) -> Forall (fun p => exists s, well_formed s p) ps ->
  snd (suite_to_json ps before) = Ok tt
  /\ exists qs, suite_from_json [final before (fst (suite_to_json ps before))]
                = Ok (mkSuite qs (map identifier ps))
       /\ Forall2 same_content ps qs /\ (Forall storable ps -> qs = ps).
Proof.
  intros ps f NE N F. rewrite (suite_states ps f N). cbn [fst snd]. split; [reflexivity|].
  exists (map squash_peaks ps). split; [|split; [apply squash_same_all|apply squash_storable]].
  rewrite <- suite_read_back by auto. f_equal.
  destruct (exists_last NE) as (l & p & ->). rewrite app_length. cbn [List.length].
  rewrite seq_app, flat_map_app. cbn [seq flat_map]. unfold final.
  replace (1 + List.length l) with (List.length (l ++ [p])) by (rewrite app_length; cbn; lia).
  rewrite firstn_all, app_nil_r. cbn [app]. rewrite last_two. reflexivity.
Qed.
Print Assumptions C42_round_trip.
(** Interrupted between the writes of two members, the file holds the first
    members; interrupted during a write it is unreadable. *)
Theorem C42_prefixes : forall ps before k,
  NoDup (map identifier ps) -> Forall (fun p => exists s, well_formed s p) ps ->
  k < List.length ps ->
  let states := fst (suite_to_json ps before) in
  List.length states = 2 * List.length ps
  /\ nth (2 * k) states Absent = Broken
  /\ exists qs, suite_from_json [nth (2 * k + 1) states Absent]
                = Ok (mkSuite qs (map identifier (firstn (S k) ps)))
       /\ Forall2 same_content (firstn (S k) ps) qs
       /\ (Forall storable ps -> qs = firstn (S k) ps).
Proof.
  intros ps f k N F K. rewrite (suite_states ps f N). cbn [fst]. cbv zeta.
  destruct (nth_flat_pairs (fun _ => Broken) (fun k => Doc (JObj (map entry (firstn k ps))))
              (List.length ps) 1 k Absent K) as [E1 E2].
  split; [|split; [exact E1|]].
  { rewrite flat_map_pairs_length, seq_length. reflexivity. }
  rewrite E2. cbn [Nat.add]. exists (map squash_peaks (firstn (S k) ps)).
  assert (I : forall p, In p (firstn (S k) ps) -> In p ps).
  { intros p H. rewrite <- (firstn_skipn (S k) ps). apply in_or_app. auto. }
  split; [|split; [apply squash_same_all|]].
  - apply suite_read_back.
    + destruct ps; [cbn in K; lia|discriminate].
    + rewrite <- firstn_map. rewrite <- (firstn_skipn (S k) (map identifier ps)) in N.
      apply NoDup_app_remove_r in N. exact N.
    + rewrite Forall_forall in *. auto.
  - intros St. apply squash_storable. rewrite Forall_forall in *. auto.
Qed.
Print Assumptions C42_prefixes.
Example C42_example :
  Forall storable [c1; c2; c3] /\ NoDup (map identifier [c1; c2; c3])
  /\ suite_from_json [nth 3 (fst (suite_to_json [c1; c2; c3] Broken)) Absent]
     = Ok (mkSuite [c1; c2] ["a"; "b"]).
Proof.
  split.
  - assert (S : forall n f v, List.length v = List.length f -> storable (curve n f v)).
    { intros n f v L. exists (S1 (List.length f)). split; [apply curve_wf; auto|discriminate]. }
    repeat constructor; apply S; reflexivity.
  - split; [cbn; repeat constructor; cbn; intuition discriminate|]. vm_compute. reflexivity.
Qed.

(** ** C44: identifiers *)
(** For every history of constructions, appends, merges and rejections. *)
Theorem C44_history : forall l, forallb (fun a => negb (renames a)) l = true ->
  let w := run empty_world l in
  forall s, In s (suites w) ->
    members s <> [] /\ ids s = map (ident_of w) (members s)
    /\ NoDup (map (ident_of w) (members s)).
Proof.
  intros l R w s Hs. assert (W : world_ok w) by (apply run_ok; [exact R|constructor]).
  unfold world_ok in W. rewrite Forall_forall in W. destruct (W s Hs) as (NE & _ & N & E).
  split; [exact NE|]. split; [exact E|]. rewrite <- E. exact N.
Qed.
Print Assumptions C44_history.
Lemma set_nth_same {A} n (l : list A) d : n < List.length l -> set_nth n (nth n l d) l = l.
Proof.
  revert n. induction l as [|a l IH]; intros [|n] H; cbn in *; auto; try lia. rewrite IH by lia. reflexivity.
Qed.
Theorem C44_append_duplicate : forall w s r,
  s < List.length (suites w) -> r < List.length (objs w) ->
  In (ident_of w r) (ids (the_suite w s)) ->
  act w (Append s r) = (w, Err KeyError).
Proof.
  intros w s r Hs Hr H. unfold act. cbn [exists_all].
  apply Nat.ltb_lt in Hr. pose proof Hs as Hs'. apply Nat.ltb_lt in Hs'. rewrite Hs', Hr. cbn [andb negb].
  unfold append. apply existsb_eqb in H. rewrite H. unfold the_suite.
  rewrite set_nth_same by auto. destruct w; reflexivity.
Qed.
Print Assumptions C44_append_duplicate.
Theorem C44_append_new : forall w s r,
  s < List.length (suites w) -> r < List.length (objs w) ->
  ~ In (ident_of w r) (ids (the_suite w s)) ->
  exists w', act w (Append s r) = (w', Ok tt)
    /\ objs w' = objs w /\ List.length (suites w') = List.length (suites w)
    /\ the_suite w' s = mkSuite (members (the_suite w s) ++ [r]) (ids (the_suite w s) ++ [ident_of w r])
    /\ forall t, t <> s -> the_suite w' t = the_suite w t.
Proof.
  intros w s r Hs Hr H. unfold act. cbn [exists_all].
  apply Nat.ltb_lt in Hr. pose proof Hs as Hs'. apply Nat.ltb_lt in Hs'. rewrite Hs', Hr. cbn [andb negb].
  unfold append. destruct (existsb _ _) eqn:E; [apply existsb_eqb in E; contradiction|].
  eexists. split; [reflexivity|]. cbn [objs suites]. split; [reflexivity|].
  split; [apply set_nth_length|]. unfold the_suite; cbn [suites]. split.
  - rewrite nth_set_nth, Nat.eqb_refl, Hs'. reflexivity.
  - intros t Ht. rewrite nth_set_nth. apply Nat.eqb_neq in Ht. rewrite Ht. reflexivity.
Qed.
Print Assumptions C44_append_new.
(** Building from Peaks objects or from suites: all members in order, or KeyError
    and no new suite. *)
Theorem C44_from_peaks : forall w rs, rs <> [] -> Forall (fun r => r < List.length (objs w)) rs ->
  (NoDup (map (ident_of w) rs) ->
     act w (FromPeaks rs) = (add_suite w (mkSuite rs (map (ident_of w) rs)), Ok tt))
  /\ (~ NoDup (map (ident_of w) rs) -> act w (FromPeaks rs) = (w, Err KeyError)).
Proof.
  intros w rs NE F. assert (X : exists_all w (FromPeaks rs) = true).
  { cbn [exists_all]. apply forallb_forall. rewrite Forall_forall in F. intros r Hr. apply Nat.ltb_lt. auto. }
  unfold act. rewrite X. cbn [negb]. split; intros N.
  - rewrite from_peaks_ok by auto. reflexivity.
  - rewrite from_peaks_err by auto. reflexivity.
Qed.
Print Assumptions C44_from_peaks.
Theorem C44_merge : forall l ss, forallb (fun a => negb (renames a)) l = true ->
  let w := run empty_world l in
  ss <> [] -> Forall (fun s => s < List.length (suites w)) ss ->
  let all := concat (map (fun s => members (the_suite w s)) ss) in
  (NoDup (map (ident_of w) all) ->
     act w (Merge ss) = (add_suite w (mkSuite all (map (ident_of w) all)), Ok tt))
  /\ (~ NoDup (map (ident_of w) all) -> act w (Merge ss) = (w, Err KeyError)).
Proof.
  intros l ss R w NE F all. assert (X : exists_all w (Merge ss) = true).
  { cbn [exists_all]. apply forallb_forall. rewrite Forall_forall in F. intros r Hr. apply Nat.ltb_lt. auto. }
  unfold act. rewrite X. cbn [negb]. destruct ss as [|s ss]; [congruence|].
  assert (M : members (the_suite w s) <> []).
  { inversion F; subst. apply (C44_history l R). apply nth_In. assumption. }
  assert (A : all = concat (map members (map (the_suite w) (s :: ss)))).
  { unfold all. rewrite map_map. reflexivity. }
  rewrite A. cbn [map]. split; intros N.
  - rewrite from_peakssuite_ok by auto. reflexivity.
  - rewrite from_peakssuite_err by auto. reflexivity.
Qed.
Print Assumptions C44_merge.
(** Assigning to the identifier of a member afterwards breaks it. *)
Theorem C44_rename_refuted : exists l,
  let w := run empty_world l in
  exists s, In s (suites w) /\ ~ NoDup (map (ident_of w) (members s)).
Proof.
  exists [NewPeaks c1; NewPeaks c2; FromPeaks [0; 1]; Rename 1 "a"].
  cbv zeta. exists (mkSuite [0; 1] ["a"; "b"]). split; [vm_compute; auto|].
  vm_compute. intros H. inversion H; subst. apply H2. left. reflexivity.
Qed.
Print Assumptions C44_rename_refuted.
Definition story : list action :=
  [NewPeaks c1; NewPeaks c2; NewPeaks c3; NewPeaks c1; NewSuite 0; Append 0 1; Append 0 3;
   FromPeaks [2; 3]; Merge [0; 1]; SuiteReject 1 (Limits "frequency" None (Some (z 3))); NewSuite 2; Merge [0; 2]].
Example C44_example :
  forallb (fun a => negb (renames a)) story = true
  /\ suites (run empty_world story)
     = [mkSuite [0; 1] ["a"; "b"]; mkSuite [2; 3] ["c"; "a"]; mkSuite [2] ["c"];
        mkSuite [0; 1; 2] ["a"; "b"; "c"]]
  /\ snd (act (run empty_world (firstn 6 story)) (Append 0 3)) = Err KeyError
  /\ snd (act (run empty_world (firstn 8 story)) (Merge [0; 1])) = Err KeyError.
Proof. vm_compute. auto. Qed.

(** ** C45: interactive trimming *)
(** Whatever the user clicks and types: [log] lists the groups of boxes with
    the decision that closed each, [open] the boxes still pending, [rest] those
    drawn too late.  A group ends with the first box that holds no peak. *)
Theorem C45_trimming : forall xt yt ps gs ans ps' out,
  List.length xt = List.length yt -> Forall (fun p => exists s, well_formed s p) ps ->
  interactive_trimming xt yt ps gs ans = (ps', out) ->
  exists log open rest,
    boxes_of gs = concat (map fst log) ++ open ++ rest
    /\ prefix (map snd log) (decisions_of ans)
    /\ (forall l1 g d l2, log = l1 ++ (g, d) :: l2 ->
          exists bs b, g = bs ++ [b] /\ (forall b', In b' bs -> holds_some xt yt l1 ps b')
                       /\ ~ holds_some xt yt l1 ps b)
    /\ Forall2 (fun p p' =>
          fields p' = fields p /\ identifier p' = identifier p
          /\ (forall s, well_formed s p -> well_formed s p')
          /\ forall i, is_valid p' i = is_valid p i && negb (removed xt yt log p i)) ps ps'
    /\ (out = Finished <-> exists l g, log = l ++ [(g, Quit)])
    /\ (forall l1 g l2, log = l1 ++ (g, Quit) :: l2 -> l2 = [])
    /\ (out = Finished -> open = [])
    /\ (out = Waiting -> rest = [] \/ decisions_of ans = map snd log).
Proof.
  intros xt yt ps gs ans ps' out L W E.
  destruct (trimming_spec xt yt ps gs ans ps' out L W E) as (log & op & rest & A & B & C & D & G).
  exists log, op, rest. split; [exact B|]. split; [exact C|]. split; [exact D|]. split; [exact A|exact G].
Qed.
Print Assumptions C45_trimming.
Theorem C45_axes : forall xt yt ps gs ans, List.length xt <> List.length yt ->
  interactive_trimming xt yt ps gs ans = (ps, Raised IndexError).
Proof.
  intros xt yt ps gs ans H. unfold interactive_trimming. apply Nat.eqb_neq in H. rewrite H. reflexivity.
Qed.
Print Assumptions C45_axes.
(* A box around (4, 40) of c1 undone, then one around (5, 50) of c2 kept. *)
Definition g (x1 y1 x2 y2 : Z) : gesture := mkGesture [(z x1, z y1); (z x2, z y2)] [0; 0].
Definition session : list gesture :=
  [g 3 36 5 45; g 8 8 9 9; mkGesture [(z 0, z 0); (z 9, z 99)] [0; 1]; g 6 55 4 45; g 8 8 9 9; g 0 0 9 99].
Example C45_example :
  let r := interactive_trimming ["frequency"; "wavelength"] ["velocity"; "velocity"] [c1; c2] session
             ["x"; "2"; ""; "0"; "1"] in
  snd r = Finished
  /\ map (fun p => dat (valid p)) (fst r) = [[true; true]; [true; false; true]].
Proof. vm_compute. auto. Qed.

(** ** C46: statistics *)
(** Up to one hundred sampling points, as soon as one value is observed at all.
    Missing from the full property: more points, and no value at all; see the
    counterexamples. *)
Theorem C46_statistics_partial : forall fsqrt C (corrcoef : list (list flt) -> C)
    ps xt yt xx ignore_corr cnt substitution xx' mean std corr m,
  statistics fsqrt corrcoef ps xt yt xx ignore_corr cnt substitution = Ok (xx', mean, std, corr) ->
  to_array ps xt yt xx = Ok (xx, m) ->
  List.length xx <= 100 ->
  (exists r x, In r m /\ In x r /\ x <> NaN) ->
  exists js, StronglySorted lt js /\ Forall (fun j => j < List.length xx) js
    /\ xx' = map (fun j => nth j xx NaN) js
    /\ List.length mean = List.length js /\ List.length std = List.length js
    /\ forall k j, nth_error js k = Some j ->
         (cnt <= Z.of_nat (List.length (observed m j)))%Z
         /\ (forall qs, observed m j = map Fin qs -> qs <> [] -> nth_error mean k = Some (Fin (mean_of qs)))
         /\ (forall qs, observed m j = map Fin qs -> 2 <= List.length qs ->
               nth_error std k = Some (fsqrt (Fin (variance_of qs)))).
Proof.
  intros fsqrt C cc ps xt yt xx ic cnt ms xx' mean std corr m. apply statistics_counts.
Qed.
Print Assumptions C46_statistics_partial.
Theorem C46_too_few : forall fsqrt C (corrcoef : list (list flt) -> C) ps xt yt xx ic cnt ms,
  List.length ps < 3 -> statistics fsqrt corrcoef ps xt yt xx ic cnt ms = Err ValueError.
Proof.
  intros fsqrt C cc ps xt yt xx ic cnt ms H. unfold statistics.
  destruct (Nat.ltb_spec (List.length ps) 3); [reflexivity|lia].
Qed.
Print Assumptions C46_too_few.
Definition stats ps xx cnt :=
  statistics (fun x => x) (fun m => m) ps "frequency" "velocity" xx false cnt false.
Definition shown {C} (r : result (list flt * list flt * list flt * C)) :=
  match r with
  | Ok (xx, mean, std, _) => Some (map show_flt xx, map show_flt mean, map show_flt std)
  | Err _ => None
  end.
(* c1 10 20 30 40 -, c2 - 20 35 42.5 50, c3 30 everywhere *)
Example C46_example :
  shown (stats [c1; c2; c3] (map z [1; 2; 3; 4; 5; 9]%Z) 3)
  = Some ([ShFin 2; ShFin 3; ShFin 4], [ShFin (70 # 3); ShFin (95 # 3); ShFin (75 # 2)],
          [ShFin (100 # 3); ShFin (25 # 3); ShFin (175 # 4)]).
Proof. vm_compute. reflexivity. Qed.
(** No value at any sampling point: all of them are reported, with no mean. *)
Theorem C46_nothing_observed_refuted : exists ps xx xx' mean std corr m,
  stats ps xx 3 = Ok (xx', mean, std, corr)
  /\ to_array ps "frequency" "velocity" xx = Ok (xx, m)
  /\ xx' = xx /\ mean = [NaN; NaN] /\ map (observed m) [0; 1] = [[]; []].
Proof.
  exists [c1; c2; c3], [z 8; z 9]. do 5 eexists. split; [vm_compute; reflexivity|].
  split; [vm_compute; reflexivity|]. split; [reflexivity|]. split; vm_compute; reflexivity.
Qed.
Print Assumptions C46_nothing_observed_refuted.
(** 150 sampling points.  One member covers only the last of them: it is dropped
    after the points have been counted, and leaves two values there. *)
Definition long_members : list peaks :=
  [curve "a" [1; 149] [10; 10]; curve "b" [1; 150] [20; 20]; curve "c" [1; 150] [40; 40];
   curve "d" [150] [50]]%Z.
Definition long_points : list flt := map (fun i => z (Z.of_nat (S i))) (seq 0 150).
Definition points_and_means {C} (r : result (list flt * list flt * list flt * C)) :=
  match r with
  | Ok (xx, mean, _, _) => Some (List.length xx, show_flt (last xx NaN), show_flt (last mean NaN))
  | Err _ => None
  end.
(** Reported: 150 points, the last one with the mean of 20 and 40 instead of
    20, 40 and 50. *)
Theorem C46_long_refuted :
  points_and_means (stats long_members long_points 3) = Some (150, ShFin 150, ShFin 30)
  /\ match to_array long_members "frequency" "velocity" long_points with
     | Ok (_, m) => map show_flt (observed m 149) = [ShFin 20; ShFin 40; ShFin 50]
     | Err _ => False
     end
  /\ match to_array long_members "frequency" "velocity" long_points with
     | Ok (xx, m) =>
         match drop (Q2Qc (1 # 100)) (Q2Qc (1 # 100)) 3 xx m with
         | (_, m') => map show_flt (observed m' 149) = [ShFin 20; ShFin 40]
         end
     | Err _ => False
     end.
Proof. split; [|split]; vm_compute; reflexivity. Qed.
Print Assumptions C46_long_refuted.

(** ** C47: dropping rows and columns *)
Theorem C47_aligned : forall pct_row pct_col cnt xx m, rectangular (List.length xx) m ->
  exists is_ js, StronglySorted lt is_ /\ StronglySorted lt js
    /\ Forall (fun i => i < List.length m) is_ /\ Forall (fun j => j < List.length xx) js
    /\ drop pct_row pct_col cnt xx m
       = (map (fun j => nth j xx NaN) js,
          map (fun i => map (fun j => nth j (nth i m []) NaN) js) is_).
Proof.
  intros pr pc cnt xx m R. destruct (drop_shape pr pc cnt xx m R) as (rm & cm & Lr & Lc & E).
  exists (kept rm), (kept cm). split; [apply kept_sorted|]. split; [apply kept_sorted|].
  split; [rewrite Forall_forall; intros i Hi; apply kept_In in Hi; lia|].
  split; [rewrite Forall_forall; intros i Hi; apply kept_In in Hi; lia|].
  rewrite E. rewrite (select_kept NaN cm xx) by lia. f_equal.
  rewrite (select_kept [] rm m) by lia. rewrite map_map. apply map_ext_in.
  intros i Hi. apply kept_In in Hi. apply select_kept. unfold rectangular in R.
  rewrite Forall_forall in R. rewrite R; [lia|]. apply nth_In. lia.
Qed.
Print Assumptions C47_aligned.
Example C47_example :
  drop (Q2Qc (1 # 100)) (Q2Qc (1 # 100)) 2 [z 1; z 2; z 3]
       [[z 1; NaN; z 3]; [NaN; NaN; NaN]; [z 7; z 8; z 9]]
  = ([z 1; z 3], [[z 1; z 3]; [z 7; z 9]]).
Proof. vm_compute. reflexivity. Qed.

(** ** C48: resampling *)
Theorem C48_resampling : forall xt yt ps xx,
  Forall (fun p => (exists s, well_formed s p) /\ readable p xt /\ readable p yt /\ drawable xt yt p) ps ->
  exists rows, to_array ps xt yt xx = Ok (xx, rows)
    /\ Forall2 (fun p row => Forall2 (fun x e => forall v, x = Fin v -> value_at xt yt p v e) xx row) ps rows.
Proof.
  intros xt yt ps xx F. unfold to_array.
  destruct (mapM_all_ok (array_row xt yt xx)
     (fun p row => Forall2 (fun x e => forall v, x = Fin v -> value_at xt yt p v e) xx row) ps) as (rows & E & R).
  - intros p Hp. rewrite Forall_forall in F. destruct (F p Hp) as ((s & W) & Rx & Ry & D).
    eapply array_row_spec; eauto.
  - rewrite E. cbn [bind]. exists rows. auto.
Qed.
Print Assumptions C48_resampling.
(** A missing value in a member is an error, not a gap; so is a missing attribute. *)
Theorem C48_errors : forall xt yt p xx, (exists s, well_formed s p) ->
  (~ has_attr p xt -> to_array [p] xt yt xx = Err AttributeError)
  /\ (readable p xt -> readable p yt ->
      (exists i, used p i /\ (value p xt i = NaN \/ value p yt i = NaN)) ->
      to_array [p] xt yt xx = Err ValueError).
Proof.
  intros xt yt p xx (s & W). unfold to_array, mapM, array_row. split.
  - intros H. rewrite (simplify_err s p xt W H). reflexivity.
  - intros Rx Ry (i & U & V). destruct (simplify_used s p W) as (sel & Is & _ & Es).
    rewrite (Es xt Rx), (Es yt Ry). cbn [bind]. apply Is in U.
    assert (N : existsb is_nan (map (value p xt) sel) || existsb is_nan (map (value p yt) sel) = true).
    { apply orb_true_iff. rewrite !existsb_exists.
      destruct V as [V|V]; [left|right]; exists NaN; (split; [|reflexivity]);
        rewrite <- V; apply in_map; exact U. }
    rewrite N. reflexivity.
Qed.
Print Assumptions C48_errors.
Example C48_example :
  drawable "frequency" "velocity" c2 /\ readable c2 "frequency" /\ readable c2 "velocity"
  /\ match to_array [c2] "frequency" "velocity" (map (fun n => q n 2) [3; 4; 5; 8; 10; 11]%Z) with
     | Ok (_, m) => map (map show_flt) m
                    = [[ShNaN; ShFin 20; ShFin (55 # 2); ShFin (85 # 2); ShFin 50; ShNaN]]
     | Err _ => False
     end.
Proof.
  split; [|split; [|split; [|vm_compute; reflexivity]]].
  - assert (U : forall i, used c2 i -> i = 0 \/ i = 1 \/ i = 2).
    { intros i H. destruct i as [|[|[|i]]]; auto. vm_compute in H. destruct i; discriminate. }
    split.
    + intros i H. destruct (U i H) as [->|[->| ->]]; do 2 eexists; split; reflexivity.
    + intros i j Hi Hj. destruct (U i Hi) as [->|[->| ->]], (U j Hj) as [->|[->| ->]]; auto;
        intros X; apply (f_equal show_flt) in X; vm_compute in X; discriminate.
  - right. split; [left; auto|left; auto].
  - right. split; [right; left; auto|right; left; auto].
Qed.

(** ** C49: resolution limits *)
Theorem C49_lines : forall xt attribute yt lim1 lim2 xs ys,
  supported xt attribute yt -> lim1 <> 0%Qc -> lim2 <> 0%Qc ->
  Forall (fun x => x <> 0%Qc) xs -> List.length xs = List.length ys ->
  exists l1 l2,
    calc_resolution_limits xt attribute yt (Fin lim1, Fin lim2) (map Fin xs) (map Fin ys) = Ok (l1, l2)
    /\ (xt = "frequency" -> fst l1 = map Fin xs /\ fst l2 = map Fin xs)
    /\ (xt = "wavelength" -> snd l1 = map Fin ys /\ snd l2 = map Fin ys)
    /\ Forall2 (fun x y => limited_by attribute xt yt x y = Fin lim1) (fst l1) (snd l1)
    /\ Forall2 (fun x y => limited_by attribute xt yt x y = Fin lim2) (fst l2) (snd l2).
Proof.
  intros xt at_ yt a b xs ys S A B F L.
  destruct (limit_line_spec xt at_ yt a xs ys S A F L) as (l1 & E1 & X1 & Y1 & P1).
  destruct (limit_line_spec xt at_ yt b xs ys S B F L) as (l2 & E2 & X2 & Y2 & P2).
  exists l1, l2. unfold calc_resolution_limits. cbn [fst snd]. rewrite E1, E2. cbn [bind]. auto 10.
Qed.
Print Assumptions C49_lines.
Theorem C49_unsupported : forall xt attribute yt limits xs ys, ~ supported xt attribute yt ->
  calc_resolution_limits xt attribute yt limits xs ys = Err NotImplementedError.
Proof.
  intros xt at_ yt [a b] xs ys H. unfold calc_resolution_limits, limit_line, supported in *. cbv zeta.
  destruct (String.eqb_spec xt "frequency"); [|destruct (String.eqb_spec xt "wavelength"); [|reflexivity]];
  (destruct (String.eqb_spec at_ "wavelength"); [|destruct (String.eqb_spec at_ "wavenumber"); [|reflexivity]]);
  (destruct (String.eqb_spec yt "velocity"); [exfalso; apply H; tauto|]);
  try (destruct (String.eqb_spec yt "wavenumber"); [exfalso; apply H; tauto|]);
  (destruct (String.eqb_spec yt "slowness"); [exfalso; apply H; tauto|reflexivity]).
Qed.
Print Assumptions C49_unsupported.
Example C49_example :
  supported "frequency" "wavenumber" "slowness" /\ ~ supported "wavelength" "wavelength" "wavenumber"
  /\ calc_resolution_limits "frequency" "wavelength" "velocity" (z 2, z 50) [z 5; z 10] [z 1; z 1]
     = Ok (([z 5; z 10], [z 10; z 20]), ([z 5; z 10], [z 250; z 500])).
Proof.
  unfold supported. split; [tauto|]. split; [|vm_compute; reflexivity].
  intros [_ [[H _]|[_ [H|H]]]]; discriminate.
Qed.

(** ** C52 (second part): suites built from suites *)
(** The construction itself changes nothing, and appending to one suite leaves
    the others alone.  Missing: later rejections; see below. *)
Theorem C52_merge_partial : forall w ss,
  objs (fst (act w (Merge ss))) = objs w
  /\ prefix (suites w) (suites (fst (act w (Merge ss)))).
Proof.
  intros w ss. unfold act. destruct (exists_all w (Merge ss)); cbn [negb fst].
  - destruct (from_peakssuite _ _); cbn [fst add_suite objs suites]; (split; [reflexivity|]).
    + eexists. reflexivity.
    + exists []. rewrite app_nil_r. reflexivity.
  - split; [reflexivity|]. exists []. rewrite app_nil_r. reflexivity.
Qed.
Print Assumptions C52_merge_partial.
Theorem C52_append_partial : forall w s r t, t <> s ->
  objs (fst (act w (Append s r))) = objs w
  /\ the_suite (fst (act w (Append s r))) t = the_suite w t.
Proof.
  intros w s r t H. unfold act. destruct (exists_all w (Append s r)); cbn [negb fst]; [|auto].
  destruct (append _ _ _) as [s' res]. cbn [fst objs]. split; [reflexivity|].
  unfold the_suite; cbn [suites]. rewrite nth_set_nth. apply Nat.eqb_neq in H. rewrite H. reflexivity.
Qed.
Print Assumptions C52_append_partial.
(** Rejecting in the merged suite rejects in the suites it was built from. *)
Theorem C52_sharing_refuted : exists l a,
  let w := run empty_world l in
  let w' := fst (act w a) in
  act (run empty_world [NewPeaks c1; NewPeaks c2; NewSuite 0; NewSuite 1]) (Merge [0; 1]) = (w, Ok tt)
  /\ a = SuiteReject 2 (Limits "frequency" None (Some (z 3)))
  /\ map (is_valid (deref w 0)) [0; 1] = [true; true]
  /\ map (is_valid (deref w' 0)) [0; 1] = [true; false]
  /\ the_suite w' 0 = mkSuite [0] ["a"].
Proof.
  exists [NewPeaks c1; NewPeaks c2; NewSuite 0; NewSuite 1; Merge [0; 1]].
  exists (SuiteReject 2 (Limits "frequency" None (Some (z 3)))). cbv zeta.
  split; [vm_compute; reflexivity|]. split; [reflexivity|]. vm_compute. auto.
Qed.
Print Assumptions C52_sharing_refuted.
