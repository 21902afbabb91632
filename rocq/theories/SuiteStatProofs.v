(* Proofs about _drop, statistics, to_array and calc_resolution_limits. *)
From Verif Require Import PyFacts NumFacts PeaksModel PeaksSpec PeaksProofs.
From Verif Require Import SuiteModel SuiteSpec.
Local Open Scope nat_scope.
Local Open Scope list_scope.

(** * Deleting rows and columns *)
Lemma select_incl {A} (a : A) m l : In a (select m l) -> In a l.
Proof. rewrite In_select. intros (i & _ & H). eapply nth_error_In; eauto. Qed.

Definition keep (idx : list nat) (n : nat) : list bool :=
  map (fun i => negb (existsb (Nat.eqb i) idx)) (seq 0 n).
Lemma delete_from_select {A} idx (l : list A) i :
  delete_from i idx l
  = select (map (fun i => negb (existsb (Nat.eqb i) idx)) (seq i (List.length l))) l.
Proof.
  revert i. induction l as [|a l IH]; intros i; cbn; [reflexivity|].
  rewrite IH. destruct (existsb (Nat.eqb i) idx); reflexivity.
Qed.
Lemma delete_select {A} idx (l : list A) : delete idx l = select (keep idx (List.length l)) l.
Proof. apply delete_from_select. Qed.
Lemma keep_length idx n : List.length (keep idx n) = n.
Proof. unfold keep. rewrite map_length, seq_length. reflexivity. Qed.
Lemma keep_nth idx n i : i < n -> nth i (keep idx n) false = negb (existsb (Nat.eqb i) idx).
Proof. intros H. unfold keep. rewrite (nth_map_seq _ 0 n i false H). reflexivity. Qed.
Lemma existsb_nat i l : existsb (Nat.eqb i) l = true <-> In i l.
Proof.
  rewrite existsb_exists. split.
  - intros (x & H & E). apply Nat.eqb_eq in E. subst; auto.
  - intros H. exists i. split; [auto|apply Nat.eqb_refl].
Qed.
Lemma keep_true idx n i : i < n -> nth i (keep idx n) false = true <-> ~ In i idx.
Proof.
  intros H. rewrite keep_nth by auto. rewrite negb_true_iff.
  destruct (existsb (Nat.eqb i) idx) eqn:E.
  - apply existsb_nat in E. split; [discriminate|tauto].
  - split; [|auto]. intros _ Hi. apply existsb_nat in Hi. congruence.
Qed.

Lemma In_drop_indices m pct cnt i : total m <> 0 ->
  In i (drop_indices m pct cnt) <-> i < List.length m /\ drop_test pct cnt (nth i m []) = true.
Proof.
  intros T. unfold drop_indices. apply Nat.eqb_neq in T. rewrite T.
  rewrite in_map_iff. unfold range. split.
  - intros ([j r] & E & H). cbn [fst] in E. subst j. apply filter_In in H as [H D].
    cbn [snd] in D. assert (G : forall a (l : list (list flt)), In (i, r) (combine (seq a (List.length l)) l) ->
      a <= i < a + List.length l /\ nth (i - a) l [] = r).
    { clear. intros a l. revert a. induction l as [|x l IH]; intros a; cbn [List.length seq combine In]; [tauto|].
      intros [E|H].
      - injection E as -> ->. rewrite Nat.sub_diag. split; [lia|reflexivity].
      - apply IH in H as [H1 H2]. split; [lia|]. replace (i - a) with (S (i - S a)) by lia. exact H2. }
    apply G in H as [H1 H2]. rewrite Nat.sub_0_r in H2. rewrite H2. split; [lia|auto].
  - intros [H D]. exists (i, nth i m []). split; [reflexivity|]. apply filter_In. split; [|exact D].
    assert (G : forall a (l : list (list flt)), i < List.length l -> In (a + i, nth i l []) (combine (seq a (List.length l)) l)).
    { clear. intros a l. revert a i. induction l as [|x l IH]; intros a i H; cbn in H; [lia|].
      cbn [List.length seq combine]. destruct i as [|i]; [left; rewrite Nat.add_0_r; reflexivity|].
      right. cbn [nth]. replace (a + S i) with (S a + i) by lia. apply IH. lia. }
    apply (G 0). exact H.
Qed.
Lemma drop_indices_empty m pct cnt : total m = 0 -> drop_indices m pct cnt = [].
Proof. intros T. unfold drop_indices. rewrite T. reflexivity. Qed.

Lemma drop_shape pr pc cnt xx m :
  rectangular (List.length xx) m ->
  exists rm cm, List.length rm = List.length m /\ List.length cm = List.length xx
    /\ drop pr pc cnt xx m = (select cm xx, map (select cm) (select rm m)).
Proof.
  intros R. unfold drop. destruct (Qcltb _ _).
  - unfold drop_option_1. set (cols := drop_indices (transpose _ m) pc cnt).
    exists (keep (drop_indices (map (delete cols) m) pr 0) (List.length m)), (keep cols (List.length xx)).
    split; [apply keep_length|]. split; [apply keep_length|].
    rewrite !delete_select, map_length. f_equal. rewrite select_map. apply map_ext_in.
    intros r Hr. apply select_incl in Hr. rewrite delete_select. unfold rectangular in R.
    rewrite Forall_forall in R. rewrite R by auto. reflexivity.
  - unfold drop_option_2. set (rws := drop_indices m pr 0).
    set (cols := drop_indices (transpose _ (delete rws m)) pc cnt).
    exists (keep rws (List.length m)), (keep cols (List.length xx)).
    split; [apply keep_length|]. split; [apply keep_length|].
    rewrite !delete_select. f_equal. apply map_ext_in.
    intros r Hr. apply select_incl in Hr. rewrite delete_select. unfold rectangular in R.
    rewrite Forall_forall in R. rewrite R by auto. reflexivity.
Qed.

(** * Counting observations *)

Lemma filter_le {A} (f : A -> bool) l : List.length (filter f l) <= List.length l.
Proof. induction l as [|x l IH]; cbn; [lia|]. destruct (f x); cbn; lia. Qed.
Lemma nums_length l : List.length l - count_nan l = List.length (nums l).
Proof.
  unfold count_nan, nums. induction l as [|x l IH]; cbn [filter List.length]; [reflexivity|].
  assert (List.length (filter is_nan l) <= List.length l) by apply filter_le.
  destruct (is_nan x); cbn [negb List.length]; lia.
Qed.
Lemma drop_test_false pct cnt l : drop_test pct cnt l = false -> (cnt <= Z.of_nat (List.length (nums l)))%Z.
Proof.
  unfold drop_test. cbv zeta. rewrite orb_false_iff, nums_length, Z.ltb_ge. tauto.
Qed.
Lemma drop_test_sparse l : 0 < List.length l <= 100 ->
  drop_test (Q2Qc (1 # 100)) 0 l = true -> nums l = [].
Proof.
  intros H. unfold drop_test. cbv zeta. rewrite nums_length.
  destruct (Z.ltb_spec (Z.of_nat (List.length (nums l))) 0); [lia|]. cbn [orb].
  rewrite Qcltb_lt. intros D. apply Qclt_div in D; [|apply QcN_pos; lia].
  destruct (nums l) as [|a t]; [reflexivity|]. exfalso.
  assert (A : (1 <= QcN (List.length (a :: t)))%Qc).
  { rewrite <- QcN_1. apply QcN_le. cbn. lia. }
  assert (B : (QcN (List.length l) <= QcN 100)%Qc) by (apply QcN_le; lia).
  assert (C : QcN 100 = Q2Qc 100) by (vm_compute; reflexivity).
  rewrite C in B. clear - A B D. qclra.
Qed.
Lemma nums_nil l x : nums l = [] -> In x l -> is_nan x = true.
Proof.
  intros E H. destruct (is_nan x) eqn:N; [reflexivity|]. exfalso.
  assert (In x (nums l)) by (apply filter_In; rewrite N; auto). rewrite E in *. contradiction.
Qed.
Lemma nums_nonempty l x : In x l -> x <> NaN -> nums l <> [].
Proof.
  intros H N E. apply (nums_nil l x E) in H. destruct x; try discriminate. congruence.
Qed.

Lemma observed_nums m j : observed m j = nums (map (fun r => nth j r NaN) m).
Proof. reflexivity. Qed.
Lemma observed_select rm m j : List.length rm = List.length m ->
  (forall i, i < List.length m -> nth i rm false = false -> is_nan (nth j (nth i m []) NaN) = true) ->
  observed (select rm m) j = observed m j.
Proof.
  revert m. induction rm as [|b rm IH]; intros [|r m] L H; try discriminate; [reflexivity|].
  cbn [select]. unfold observed in *. cbn [List.length] in L.
  assert (IH' := IH m ltac:(lia) (fun i Hi => H (S i) ltac:(cbn; lia))).
  destruct b; cbn [map filter].
  - rewrite IH'. reflexivity.
  - rewrite IH'. specialize (H 0 ltac:(cbn; lia) eq_refl). cbn [nth] in H. rewrite H. reflexivity.
Qed.

Lemma transpose_length nc m : List.length (transpose nc m) = nc.
Proof. unfold transpose, range. rewrite map_length, seq_length. reflexivity. Qed.
Lemma transpose_nth nc m j : j < nc -> nth j (transpose nc m) [] = map (fun r => nth j r NaN) m.
Proof. intros H. unfold transpose, range. rewrite (nth_map_seq _ 0 nc j []) by exact H. reflexivity. Qed.
Lemma total_pos {A} (m : list (list A)) r x : In r m -> In x r -> total m <> 0.
Proof.
  intros H1 H2 T. unfold total in T. apply length_zero_iff_nil in T.
  assert (In x (concat m)) by (apply in_concat; eauto). rewrite T in *. contradiction.
Qed.
Lemma transpose_total nc m : 0 < nc -> m <> [] -> total (transpose nc m) <> 0.
Proof.
  intros H N. destruct m as [|r m]; [congruence|].
  apply (total_pos _ (map (fun r => nth 0 r NaN) (r :: m)) (nth 0 r NaN)); [|left; reflexivity].
  unfold transpose, range. apply in_map_iff. exists 0. split; [reflexivity|]. apply in_seq. lia.
Qed.

Lemma select_In_nth {A} (d : A) m l i : List.length m = List.length l -> i < List.length l ->
  nth i m false = true -> In (nth i l d) (select m l).
Proof.
  revert l i. induction m as [|b m IH]; intros [|a l] i L H N; cbn in *; try lia.
  destruct i as [|i]; cbn in *.
  - subst. left. reflexivity.
  - destruct b; [right|]; apply IH; auto; lia.
Qed.

(** The sampling points kept and what was observed there. *)
Lemma drop_counts cnt xx m :
  List.length xx <= 100 -> rectangular (List.length xx) m ->
  (exists r x, In r m /\ In x r /\ x <> NaN) ->
  exists rm cm, List.length rm = List.length m /\ List.length cm = List.length xx
    /\ drop (Q2Qc (1 # 100)) (Q2Qc (1 # 100)) cnt xx m = (select cm xx, map (select cm) (select rm m))
    /\ forall j, j < List.length xx -> nth j cm false = true ->
         observed (select rm m) j = observed m j
         /\ (cnt <= Z.of_nat (List.length (observed m j)))%Z.
Proof.
  intros LX R (r0 & x0 & Hr0 & Hx0 & Nx0).
  assert (NC : 0 < List.length xx).
  { unfold rectangular in R. rewrite Forall_forall in R. rewrite <- (R r0 Hr0).
    destruct r0; [contradiction|cbn; lia]. }
  assert (NM : m <> []) by (intros ->; contradiction).
  assert (RL : forall i, i < List.length m -> List.length (nth i m []) = List.length xx).
  { intros i Hi. unfold rectangular in R. rewrite Forall_forall in R. apply R. apply nth_In. auto. }
  unfold drop. destruct (Qcltb _ _).
  - unfold drop_option_1. set (cols := drop_indices (transpose _ m) _ cnt).
    set (rws := drop_indices (map (delete cols) m) _ 0).
    set (cm := keep cols (List.length xx)). set (rm := keep rws (List.length m)).
    exists rm, cm. split; [apply keep_length|]. split; [apply keep_length|].
    assert (EC : map (delete cols) m = map (select cm) m).
    { apply map_ext_in. intros r Hr. rewrite delete_select. unfold rectangular in R.
      rewrite Forall_forall in R. rewrite R by auto. reflexivity. }
    split.
    { rewrite !delete_select, map_length. f_equal. rewrite EC. apply select_map. }
    intros j Hj Kj. assert (Kj' := Kj). unfold cm in Kj'. apply keep_true in Kj'; [|auto].
    unfold cols in Kj'. rewrite In_drop_indices in Kj' by (apply transpose_total; auto).
    rewrite transpose_length, transpose_nth in Kj' by auto.
    assert (D : drop_test (Q2Qc (1 # 100)) cnt (map (fun r => nth j r NaN) m) = false).
    { destruct (drop_test _ _ _); [exfalso; tauto|reflexivity]. }
    split; [|rewrite observed_nums; eapply drop_test_false; eauto].
    apply observed_select; [apply keep_length|]. intros i Hi Ki.
    assert (Hi' : In i rws).
    { destruct (in_dec Nat.eq_dec i rws); [auto|]. apply (keep_true rws (List.length m) i Hi) in n.
      unfold rm in Ki. congruence. }
    unfold rws in Hi'.
    assert (T : total (map (delete cols) m) <> 0).
    { intros T. rewrite drop_indices_empty in Hi' by exact T. contradiction. }
    rewrite In_drop_indices in Hi' by exact T. rewrite EC in Hi'. destruct Hi' as [_ DT].
    rewrite (nth_map_lt (select cm) m i [] []) in DT by auto.
    assert (IN : In (nth j (nth i m []) NaN) (select cm (nth i m []))).
    { apply select_In_nth; auto; rewrite RL by auto; [apply keep_length|auto]. }
    apply drop_test_sparse in DT.
    + eapply nums_nil; eauto.
    + split; [destruct (select cm (nth i m [])); [contradiction|cbn; lia]|].
      assert (List.length (select cm (nth i m [])) <= List.length (nth i m [])).
      { clear. generalize (nth i m []) as l. intros l. revert l.
        induction cm as [|b c IH]; intros [|a l]; cbn; try lia.
        specialize (IH l). destruct b; cbn; lia. }
      rewrite RL in * by auto. lia.
  - unfold drop_option_2. set (rws := drop_indices m _ 0).
    set (cols := drop_indices (transpose _ (delete rws m)) _ cnt).
    set (cm := keep cols (List.length xx)). set (rm := keep rws (List.length m)).
    exists rm, cm. split; [apply keep_length|]. split; [apply keep_length|].
    assert (ER : delete rws m = select rm m) by apply delete_select.
    split.
    { rewrite ER, !delete_select. f_equal. apply map_ext_in.
      intros r Hr. apply select_incl in Hr. rewrite delete_select. unfold rectangular in R.
      rewrite Forall_forall in R. rewrite R by auto. reflexivity. }
    assert (TM : total m <> 0) by (apply (total_pos m r0 x0); auto).
    assert (OB : forall i, i < List.length m -> nth i rm false = false -> nums (nth i m []) = []).
    { intros i Hi Ki.
      assert (Hi' : In i rws).
      { destruct (in_dec Nat.eq_dec i rws); [auto|]. apply (keep_true rws (List.length m) i Hi) in n.
        unfold rm in Ki. congruence. }
      unfold rws in Hi'. rewrite In_drop_indices in Hi' by exact TM.
      eapply drop_test_sparse; [|apply Hi']. rewrite RL by auto. lia. }
    assert (OS : forall j, observed (select rm m) j = observed m j).
    { intros j. apply observed_select; [apply keep_length|]. intros i Hi Ki.
      destruct (Nat.lt_ge_cases j (List.length (nth i m []))) as [L|L].
      - eapply nums_nil; [apply OB; eauto|]. apply nth_In. auto.
      - rewrite nth_overflow by auto. reflexivity. }
    intros j Hj Kj. split; [apply OS|].
    unfold cm in Kj. apply keep_true in Kj; [|auto]. unfold cols in Kj.
    assert (NE : select rm m <> []).
    { destruct (In_nth m r0 [] Hr0) as (i & Hi & Ei).
      assert (nth i rm false = true).
      { destruct (nth i rm false) eqn:K; [reflexivity|]. apply OB in K; auto. rewrite Ei in K.
        exfalso. eapply nums_nonempty; eauto. }
      intros E. assert (In (nth i m []) (select rm m)) as X
        by (apply select_In_nth; auto; apply keep_length).
      rewrite E in X. contradiction. }
    rewrite ER in Kj. rewrite In_drop_indices in Kj by (apply transpose_total; auto).
    rewrite transpose_length, transpose_nth in Kj by auto.
    assert (D : drop_test (Q2Qc (1 # 100)) cnt (map (fun r => nth j r NaN) (select rm m)) = false).
    { destruct (drop_test _ _ _); [exfalso; tauto|reflexivity]. }
    rewrite <- OS, observed_nums. eapply drop_test_false; eauto.
Qed.

(** Positions kept by a mask. *)
Definition kept (cm : list bool) : list nat := filter (fun j => nth j cm false) (seq 0 (List.length cm)).
Lemma kept_In cm j : In j (kept cm) <-> j < List.length cm /\ nth j cm false = true.
Proof. unfold kept. rewrite filter_In, in_seq. intuition lia. Qed.
Lemma kept_sorted cm : StronglySorted lt (kept cm).
Proof.
  unfold kept. generalize (fun j => nth j cm false) as f. generalize (List.length cm) as n.
  intros n f. generalize 0 as a. induction n as [|n IH]; intros a; cbn; [constructor|].
  destruct (f a); [|apply IH]. constructor; [apply IH|].
  apply Forall_forall. intros x Hx. apply filter_In in Hx as [Hx _]. apply in_seq in Hx. lia.
Qed.
Lemma select_kept {A} (d : A) cm l : List.length l = List.length cm ->
  select cm l = map (fun j => nth j l d) (kept cm).
Proof. intros H. apply select_positions. exact H. Qed.

Lemma transpose_selected cm m n : List.length cm = n -> rectangular n m ->
  transpose (List.length (kept cm)) (map (select cm) m)
  = map (fun j => map (fun r => nth j r NaN) m) (kept cm).
Proof.
  intros L R. apply (nth_ext_len []).
  - rewrite transpose_length, map_length. reflexivity.
  - rewrite transpose_length. intros k Hk. rewrite transpose_nth by auto.
    rewrite (nth_map_lt _ (kept cm) k [] 0) by auto. rewrite map_map. apply map_ext_in.
    intros r Hr. rewrite (select_kept NaN).
    + rewrite (nth_map_lt _ (kept cm) k NaN 0) by auto. reflexivity.
    + unfold rectangular in R. rewrite Forall_forall in R. rewrite R by auto. congruence.
Qed.

(** * Means *)
Lemma fsum_fin qs : fsum (map Fin qs) = Fin (Qcsum qs).
Proof.
  unfold fsum, f0. assert (G : forall a, fold_left fadd (map Fin qs) (Fin a) = Fin (a + Qcsum qs)%Qc).
  { induction qs as [|q qs IH]; intros a; cbn [map fold_left Qcsum fold_right].
    - f_equal. ring.
    - cbn [fadd]. rewrite IH. f_equal. unfold Qcsum. ring. }
  rewrite G. f_equal. ring.
Qed.
Lemma nums_idem l : nums (nums l) = nums l.
Proof.
  unfold nums. induction l as [|x l IH]; cbn; [reflexivity|].
  destruct (is_nan x) eqn:N; cbn [negb filter]; [auto|]. rewrite N. cbn [negb]. congruence.
Qed.
Lemma nanmean_fin l qs : nums l = map Fin qs -> qs <> [] -> nanmean l = Fin (mean_of qs).
Proof.
  intros E N. unfold nanmean. rewrite E, fsum_fin, map_length. cbn [fdiv].
  destruct (Qceqb_spec (QcN (List.length qs)) 0) as [Z|Z]; [|reflexivity].
  exfalso. destruct qs; [congruence|]. assert (0 < QcN (List.length (q :: qs)))%Qc by (apply QcN_pos; cbn; lia).
  rewrite Z in *. eapply Qclt_not_le; eauto. apply Qcle_refl.
Qed.
Lemma nanstd_fin fsqrt l qs : nums l = map Fin qs -> 2 <= List.length qs ->
  nanstd fsqrt l = fsqrt (Fin (variance_of qs)).
Proof.
  intros E N. unfold nanstd. rewrite (nanmean_fin l qs E) by (intros ->; cbn in N; lia).
  rewrite E, map_length. destruct (Nat.leb_spec (List.length qs) 1); [lia|]. f_equal.
  rewrite map_map. cbn [fsub fneg fadd fmul].
  replace (map _ qs) with (map Fin (map (fun x => (x - mean_of qs) * (x - mean_of qs))%Qc qs))
    by (rewrite map_map; reflexivity).
  rewrite fsum_fin. cbn [fdiv].
  destruct (Qceqb_spec (QcZ (Z.of_nat (List.length qs) - 1)) 0) as [Z|Z]; [|reflexivity].
  exfalso. rewrite <- QcZ_0 in Z. apply QcZ_inj in Z. lia.
Qed.

(** * to_array *)
Lemma to_array_rect ps xt yt xx xx' m : to_array ps xt yt xx = Ok (xx', m) ->
  xx' = xx /\ rectangular (List.length xx) m /\ List.length m = List.length ps.
Proof.
  unfold to_array. destruct (mapM (array_row xt yt xx) ps) as [rs|] eqn:E; cbn [bind]; [|discriminate].
  intros [= <- <-]. split; [auto|]. apply mapM_ok in E. split; [|symmetry; eapply Forall2_length; eauto].
  unfold rectangular. induction E as [|p r ps rs H E IH]; constructor; auto.
  unfold array_row in H. destruct (simplify_mpeaks p xt) as [x|]; [|discriminate]. cbn [bind] in H.
  destruct (simplify_mpeaks p yt) as [y|]; [|discriminate]. cbn [bind] in H.
  destruct (existsb is_nan x || existsb is_nan y); [discriminate|].
  destruct (interp1d x y) as [f|[]]; try discriminate; injection H as <-; apply map_length.
Qed.

Lemma statistics_counts fsqrt C (cc : list (list flt) -> C) ps xt yt xx ic cnt ms xx' mean std corr m :
  statistics fsqrt cc ps xt yt xx ic cnt ms = Ok (xx', mean, std, corr) ->
  to_array ps xt yt xx = Ok (xx, m) ->
  List.length xx <= 100 ->
  (exists r x, In r m /\ In x r /\ x <> NaN) ->
  exists js, StronglySorted lt js /\ Forall (fun j => j < List.length xx) js
    /\ xx' = map (fun j => nth j xx NaN) js
    /\ List.length mean = List.length js /\ List.length std = List.length js
    /\ forall k j, nth_error js k = Some j ->
         (cnt <= Z.of_nat (List.length (observed m j)))%Z
         /\ (forall qs, observed m j = map Fin qs -> qs <> [] -> nth_error mean k = Some (Fin (mean_of qs)))
         /\ (forall qs, observed m j = map Fin qs -> 2 <= List.length qs ->
               nth_error std k = Some (fsqrt (Fin (variance_of qs)))).
Proof.
  intros S A LX OB. unfold statistics in S. destruct (List.length ps <? 3); [discriminate|].
  rewrite A in S. cbn [bind fst snd] in S.
  destruct (to_array_rect _ _ _ _ _ _ A) as (_ & R & _).
  destruct (drop_counts cnt xx m LX R OB) as (rm & cm & Lr & Lc & D & K).
  rewrite D in S. cbv zeta in S.
  assert (Ex : select cm xx = map (fun j => nth j xx NaN) (kept cm)) by (apply select_kept; lia).
  assert (R' : rectangular (List.length xx) (select rm m)).
  { unfold rectangular in *. rewrite Forall_forall in *. intros r Hr. apply R. eapply select_incl; eauto. }
  assert (T : transpose (List.length (select cm xx)) (map (select cm) (select rm m))
              = map (fun j => map (fun r => nth j r NaN) (select rm m)) (kept cm)).
  { rewrite Ex, map_length. eapply transpose_selected; eauto. }
  rewrite T in S. injection S as <- <- <- _.
  exists (kept cm). split; [apply kept_sorted|]. split.
  { rewrite Forall_forall. intros j Hj. apply kept_In in Hj. lia. }
  split; [exact Ex|]. rewrite !map_length. split; [reflexivity|]. split; [reflexivity|].
  intros k j Hk. assert (Hj : In j (kept cm)) by (eapply nth_error_In; eauto).
  apply kept_In in Hj as [Hj1 Hj2]. destruct (K j ltac:(lia) Hj2) as [O Cn].
  split; [exact Cn|]. rewrite !nth_error_map, Hk. cbn [option_map].
  rewrite <- O, observed_nums. split; intros qs Hq Hn; f_equal.
  - apply nanmean_fin; auto.
  - apply nanstd_fin; auto.
Qed.

(** * Interpolation *)
Definition F (a : Qc * Qc) : flt * flt := (Fin (fst a), Fin (snd a)).
Fixpoint insert_q (a : Qc * Qc) (l : list (Qc * Qc)) : list (Qc * Qc) :=
  match l with
  | [] => [a]
  | b :: t => if Qcltb (fst b) (fst a) then b :: insert_q a t else a :: l
  end.
Definition sort_q (l : list (Qc * Qc)) : list (Qc * Qc) := fold_right insert_q [] l.
Lemma sort_pts_F l : sort_pts (map F l) = map F (sort_q l).
Proof.
  induction l as [|a l IH]; cbn [map sort_pts fold_right sort_q]; [reflexivity|].
  unfold sort_pts in IH. rewrite IH. fold (sort_q l). generalize (sort_q l) as t. clear.
  induction t as [|b t IH]; cbn [map insert_pt insert_q]; [reflexivity|].
  cbn [F fst flt_lt]. destruct (Qcltb (fst b) (fst a)); cbn [map]; [|reflexivity].
  rewrite <- IH. reflexivity.
Qed.
Lemma insert_q_perm a l : Permutation (insert_q a l) (a :: l).
Proof.
  induction l as [|b t IH]; cbn; [auto|]. destruct (Qcltb (fst b) (fst a)); [|auto].
  rewrite IH. apply perm_swap.
Qed.
Lemma sort_q_perm l : Permutation (sort_q l) l.
Proof. induction l as [|a l IH]; cbn; [auto|]. rewrite insert_q_perm. auto. Qed.
Definition ltx (a b : Qc * Qc) : Prop := (fst a < fst b)%Qc.
Definition lex (a b : Qc * Qc) : Prop := (fst a <= fst b)%Qc.
Lemma insert_q_sorted a l : StronglySorted lex l -> StronglySorted lex (insert_q a l).
Proof.
  induction 1 as [|b t S IH Fb]; cbn; [repeat constructor|].
  destruct (Qcltb_spec (fst b) (fst a)) as [L|L].
  - constructor; [exact IH|]. rewrite Forall_forall in *. intros x Hx.
    apply (Permutation_in _ (insert_q_perm a t)) in Hx as [<-|Hx]; [apply Qclt_le_weak; exact L|auto].
  - constructor; [constructor; auto|]. apply Qcnot_lt_le in L. constructor; [exact L|].
    eapply Forall_impl; [|exact Fb]. intros x Hx. eapply Qcle_trans; eauto.
Qed.
Lemma sort_q_sorted l : StronglySorted lex (sort_q l).
Proof. induction l; cbn; [constructor|]. apply insert_q_sorted. auto. Qed.
Lemma sort_q_strict l : NoDup (map fst l) -> StronglySorted ltx (sort_q l).
Proof.
  intros N. assert (N' : NoDup (map fst (sort_q l))).
  { eapply Permutation_NoDup; [|exact N]. apply Permutation_map. symmetry. apply sort_q_perm. }
  pose proof (sort_q_sorted l) as S. revert N'. generalize (sort_q l), S. clear.
  induction 1 as [|b t S IH Fb]; intros N; constructor; inversion N; subst; auto.
  rewrite Forall_forall in *. intros x Hx. specialize (Fb x Hx). unfold ltx, lex in *.
  destruct (Qcle_lt_or_eq _ _ Fb) as [L|E]; [exact L|]. exfalso. apply H1. rewrite E.
  apply in_map. exact Hx.
Qed.
Lemma last_F t a : last (map F t) (F a) = F (last t a).
Proof. revert a. induction t as [|b t IH]; intros a; [reflexivity|]. cbn [map]. destruct t; [reflexivity|]. apply IH. Qed.

Lemma last_cons {A} (b : A) t a : last (b :: t) a = last t b.
Proof. revert a b. induction t as [|c t IH]; intros a b; [reflexivity|].
  change (last (b :: c :: t) a) with (last (c :: t) a). rewrite IH, (IH b c). reflexivity. Qed.
Lemma interp_from_spec t : forall a v, StronglySorted ltx (a :: t) ->
  (fst a <= v)%Qc -> (v <= fst (last t a))%Qc ->
  (exists c, In c (a :: t) /\ fst c = v /\ interp_from (F a) (map F t) (Fin v) = Fin (snd c))
  \/ (exists c d, In c (a :: t) /\ In d (a :: t) /\ (fst c < v)%Qc /\ (v < fst d)%Qc
        /\ (forall e, In e (a :: t) -> (fst e <= fst c)%Qc \/ (fst d <= fst e)%Qc)
        /\ interp_from (F a) (map F t) (Fin v)
           = Fin ((snd d - snd c) / (fst d - fst c) * (v - fst c) + snd c)%Qc).
Proof.
  induction t as [|b t IH]; intros a v S La Lv.
  - left. exists a. cbn in Lv. split; [left; auto|]. split; [|reflexivity].
    apply Qcle_antisym; auto.
  - cbn [map interp_from F fst snd]. unfold flt_le; cbn [flt_lt flt_eq].
    inversion S as [|? ? S' Fa]; subst. rewrite last_cons in Lv.
    destruct (Qcltb_spec (fst b) v) as [L|L]; [|destruct (Qceqb_spec (fst b) v) as [E|E]]; cbn [orb].
    1,2: (destruct (IH b v S') as [(c & H1 & H2 & H3)|(c & d & H1 & H2 & H3 & H4 & H5 & H6)];
      [first [apply Qclt_le_weak; exact L|apply Qceq_le; exact E]|exact Lv|
       left; exists c; split; [right; exact H1|auto]|
       right; exists c, d; split; [right; exact H1|split; [right; exact H2|split; [exact H3|split; [exact H4|
         split; [|exact H6]]]]]; intros e [<-|He]; [left|auto];
         rewrite Forall_forall in Fa; specialize (Fa c H1); apply Qclt_le_weak; exact Fa]).
    apply Qcnot_lt_le in L. assert (Lb : (v < fst b)%Qc).
    { destruct (Qcle_lt_or_eq _ _ L) as [X|X]; [exact X|congruence]. }
    destruct (Qceqb_spec (fst a) v) as [Ea|Ea].
    + left. exists a. split; [left; auto|]. auto.
    + right. exists a, b. split; [left; auto|]. split; [right; left; auto|].
      split; [destruct (Qcle_lt_or_eq _ _ La) as [X|X]; [exact X|congruence]|]. split; [exact Lb|].
      split.
      * intros e [<-|[<-|He]]; [left; apply Qcle_refl|right; apply Qcle_refl|right].
        inversion S' as [|? ? _ Fb]; subst. rewrite Forall_forall in Fb. apply Qclt_le_weak. apply Fb. exact He.
      * unfold interp_piece. cbv zeta. cbn [F fst snd fsub fneg fadd fdiv].
        destruct (Qceqb_spec (fst b + - fst a) 0) as [Z|Z].
        { exfalso. assert (fst b = fst a) by (clear - Z; qclra).
          inversion Fa as [|? ? Lab _]; subst. unfold ltx in Lab. rewrite H in Lab.
          eapply Qclt_not_le; eauto. apply Qcle_refl. }
        reflexivity.
Qed.
Lemma first_least a t : StronglySorted ltx (a :: t) -> forall e, In e (a :: t) -> (fst a <= fst e)%Qc.
Proof.
  intros S e [<-|H]; [apply Qcle_refl|]. inversion S as [|? ? _ Fa]; subst.
  rewrite Forall_forall in Fa. apply Qclt_le_weak. apply Fa. exact H.
Qed.
Lemma last_In {A} (t : list A) a : In (last t a) (a :: t).
Proof. revert a. induction t as [|b t IH]; intros a; [left; auto|]. rewrite last_cons. right. apply IH. Qed.
Lemma last_greatest t : forall a, StronglySorted ltx (a :: t) ->
  forall e, In e (a :: t) -> (fst e <= fst (last t a))%Qc.
Proof.
  induction t as [|b t IH]; intros a S e H.
  - destruct H as [<-|[]]. apply Qcle_refl.
  - rewrite last_cons. inversion S as [|? ? S' Fa]; subst. destruct H as [<-|H]; [|apply IH; auto].
    apply Qcle_trans with (fst b); [|apply IH; [auto|left; auto]].
    inversion Fa; subst. apply Qclt_le_weak. assumption.
Qed.
Lemma combine_F xs ys : combine (map Fin xs) (map Fin ys) = map F (combine xs ys).
Proof. revert ys. induction xs as [|x xs IH]; intros [|y ys]; cbn; [auto|auto|auto|]. rewrite IH. reflexivity. Qed.
Lemma combine_fst {A B} (l : list A) (m : list B) : List.length l = List.length m -> map fst (combine l m) = l.
Proof. revert m. induction l; intros [|b m] H; cbn in *; try discriminate; auto. f_equal. apply IHl. lia. Qed.

Lemma interp1d_spec xs ys v : List.length xs = List.length ys -> xs <> [] -> NoDup xs ->
  exists f, interp1d (map Fin xs) (map Fin ys) = Ok f
    /\ ((forall x, In x xs -> (v < x)%Qc) \/ (forall x, In x xs -> (x < v)%Qc) -> f (Fin v) = NaN)
    /\ (forall y, In (v, y) (combine xs ys) -> f (Fin v) = Fin y)
    /\ (forall x1 y1 x2 y2, In (x1, y1) (combine xs ys) -> In (x2, y2) (combine xs ys) ->
          (x1 < v)%Qc -> (v < x2)%Qc -> (forall x, In x xs -> (x <= x1)%Qc \/ (x2 <= x)%Qc) ->
          f (Fin v) = Fin ((y2 - y1) / (x2 - x1) * (v - x1) + y1)%Qc).
Proof.
  intros L NE N. set (pts := combine xs ys).
  assert (Efst : map fst pts = xs) by (apply combine_fst; auto).
  assert (S : StronglySorted ltx (sort_q pts)) by (apply sort_q_strict; rewrite Efst; auto).
  pose proof (sort_q_perm pts) as P.
  assert (U : forall p q, In p pts -> In q pts -> fst p = fst q -> p = q).
  { rewrite <- Efst in N. clear - N. induction pts as [|r l IH]; intros p q Hp Hq E; [contradiction|].
    cbn in N. inversion N as [|? ? N1 N2]; subst.
    destruct Hp as [<-|Hp], Hq as [<-|Hq]; auto.
    - exfalso. apply N1. rewrite E. apply in_map. auto.
    - exfalso. apply N1. rewrite <- E. apply in_map. auto. }
  unfold interp1d. rewrite !map_length, L, Nat.eqb_refl. cbn [negb].
  rewrite combine_F, sort_pts_F. fold pts.
  destruct (sort_q pts) as [|a t] eqn:E.
  { exfalso. apply Permutation_nil in P. unfold pts in P.
    destruct xs, ys; try discriminate; congruence. }
  assert (IP : forall c, In c (a :: t) <-> In c pts).
  { intros c. split; apply Permutation_in; [exact P|symmetry; exact P]. }
  assert (Fx : forall x, In x xs -> exists y, In (x, y) pts).
  { intros x Hx. rewrite <- Efst in Hx. apply in_map_iff in Hx as ([x' y] & <- & H). eauto. }
  assert (Xf : forall c, In c pts -> In (fst c) xs) by (intros c Hc; rewrite <- Efst; apply in_map; auto).
  cbn [map]. eexists; split; [reflexivity|]. cbn [is_nan]. rewrite last_F.
  cbn [F fst flt_lt]. split; [|split].
  - intros [H|H].
    + destruct (Qcltb_spec v (fst a)) as [X|X]; [reflexivity|]. exfalso. apply X. apply H. apply Xf.
      apply IP. left; auto.
    + destruct (Qcltb_spec v (fst a)) as [X|X]; [reflexivity|].
      destruct (Qcltb_spec (fst (last t a)) v) as [Y|Y]; [reflexivity|]. exfalso. apply Y. apply H.
      apply Xf. apply IP. apply last_In.
  - intros y Hy. apply IP in Hy.
    pose proof (first_least a t S _ Hy) as A1. pose proof (last_greatest t a S _ Hy) as A2. cbn [fst] in A1, A2.
    destruct (Qcltb_spec v (fst a)) as [X|X]; [exfalso; eapply Qclt_not_le; eauto|].
    destruct (Qcltb_spec (fst (last t a)) v) as [Y|Y]; [exfalso; eapply Qclt_not_le; eauto|].
    destruct (interp_from_spec t a v S A1 A2) as [(c & H1 & H2 & H3)|(c & d & H1 & H2 & H3 & H4 & H5 & H6)].
    + unfold F in H3 at 1; cbn [fst snd] in H3.
      change ((Fin (fst a), Fin (snd a))) with (F a). unfold F at 1. rewrite H3.
      assert (c = (v, y)) as -> by (apply U; [apply IP; auto|apply IP; auto|exact H2]). reflexivity.
    + exfalso. destruct (H5 _ Hy) as [Z|Z]; cbn [fst] in Z; [exact (Qclt_not_le _ _ H3 Z)|exact (Qclt_not_le _ _ H4 Z)].
  - intros x1 y1 x2 y2 I1 I2 L1 L2 Gap. apply IP in I1, I2.
    pose proof (first_least a t S _ I1) as A1. pose proof (last_greatest t a S _ I2) as A2. cbn [fst] in A1, A2.
    assert (B1 : (fst a <= v)%Qc) by (eapply Qcle_trans; [exact A1|apply Qclt_le_weak; exact L1]).
    assert (B2 : (v <= fst (last t a))%Qc) by (eapply Qcle_trans; [apply Qclt_le_weak; exact L2|exact A2]).
    destruct (Qcltb_spec v (fst a)) as [X|X]; [exfalso; eapply Qclt_not_le; eauto|].
    destruct (Qcltb_spec (fst (last t a)) v) as [Y|Y]; [exfalso; eapply Qclt_not_le; eauto|].
    change ((Fin (fst a), Fin (snd a))) with (F a).
    destruct (interp_from_spec t a v S B1 B2) as [(c & H1 & H2 & H3)|(c & d & H1 & H2 & H3 & H4 & H5 & H6)].
    + exfalso. destruct (Gap (fst c)) as [Z|Z]; [apply Xf; apply IP; auto| |]; rewrite H2 in Z;
        eapply Qclt_not_le; [exact L1|exact Z|exact L2|exact Z].
    + rewrite H6. assert (c = (x1, y1)) as ->.
      { apply U; [apply IP; auto|apply IP; auto|]. cbn [fst]. apply Qcle_antisym.
        - destruct (Gap (fst c)) as [Z|Z]; [apply Xf; apply IP; auto|exact Z|].
          exfalso. eapply Qclt_not_le; [|exact Z]. eapply Qclt_trans; eauto.
        - destruct (H5 _ I1) as [Z|Z]; [exact Z|]. cbn [fst] in Z.
          exfalso. eapply Qclt_not_le; [|exact Z]. eapply Qclt_trans; eauto. }
      assert (d = (x2, y2)) as ->.
      { apply U; [apply IP; auto|apply IP; auto|]. cbn [fst]. apply Qcle_antisym.
        - destruct (H5 _ I2) as [Z|Z]; [|exact Z]. cbn [fst] in Z.
          exfalso. eapply Qclt_not_le; [|exact Z]. eapply Qclt_trans; eauto.
        - destruct (Gap (fst d)) as [Z|Z]; [apply Xf; apply IP; auto| |exact Z].
          exfalso. eapply Qclt_not_le; [|exact Z]. eapply Qclt_trans; eauto. }
      reflexivity.
Qed.

(** Peaks used by simplify_mpeaks. *)
Lemma simplify_used s p : well_formed s p ->
  exists sel, (forall i, In i sel <-> used p i) /\ NoDup sel
    /\ forall k, readable p k -> simplify_mpeaks p k = Ok (map (value p k) sel).
Proof.
  intros W. pose proof W as (_ & _ & Sv & Lv & _). destruct s as [n|r c].
  - exists (valid_positions p). split; [|split].
    + intros i. unfold used. rewrite Sv. rewrite valid_positions_In. reflexivity.
    + pose proof (valid_positions_sorted p) as S. induction S as [|a l S IH F]; constructor; auto.
      intros H. rewrite Forall_forall in F. specialize (F a H). lia.
    + intros k R. rewrite (simplify_1d n p k W), (public_ok _ p k W R); [reflexivity|].
      destruct R as [D|[_ R]]; [left|right]; auto.
  - exists (map (fun ij => fst ij * c + snd ij) (selection r c p)). split; [|split].
    + intros i. unfold used. rewrite Sv, in_map_iff. split.
      * intros ([a b] & <- & H). apply selection_In in H. exists a, b. auto.
      * intros (a & b & -> & H). apply selection_In in H. exists (a, b). auto.
    + pose proof (selection_sorted r c p) as S.
      assert (B : forall a b, In (a, b) (selection r c p) -> b < c)
        by (intros a b H; apply selection_In in H; apply H).
      revert S B. generalize (selection r c p) as l. induction l as [|[a b] l IH]; cbn [map fst snd];
        intros S B; constructor.
      * intros H. apply in_map_iff in H as ([a' b'] & E & H). cbn [fst snd] in E.
        inversion S as [|? ? _ F]; subst. rewrite Forall_forall in F.
        specialize (F b' (in_map snd _ _ H)). pose proof (B a b (or_introl eq_refl)).
        pose proof (B a' b' (or_intror H)).
        assert (b' = b); [|lia].
        rewrite <- (Nat.mod_small b c), <- (Nat.mod_small b' c) by auto.
        rewrite <- (Nat.mod_add b a c), <- (Nat.mod_add b' a' c) by lia. f_equal. lia.
      * apply IH; [inversion S; auto|]. intros x y H. eapply B. right. exact H.
    + intros k R. rewrite (simplify_2d r c p k W), map_map; [reflexivity|].
      destruct R as [D|[_ R]]; [left|right]; auto.
Qed.
Lemma all_fin (f : nat -> flt) l : (forall i, In i l -> exists a, f i = Fin a) ->
  exists qs, map f l = map Fin qs.
Proof.
  induction l as [|i l IH]; intros H; [exists []; reflexivity|].
  destruct (H i (or_introl eq_refl)) as [a Ea].
  destruct IH as [qs Eq]; [intros j Hj; apply H; right; auto|].
  exists (a :: qs). cbn. rewrite Ea, Eq. reflexivity.
Qed.
Lemma Qcmult_nonneg a b : (0 <= a)%Qc -> (0 <= b)%Qc -> (0 <= a * b)%Qc.
Proof.
  intros A B. replace 0%Qc with (0 * b)%Qc by ring. apply Qcmult_le_compat_r; auto.
Qed.
Lemma linear_between x1 y1 x2 y2 v : (x1 < v)%Qc -> (v < x2)%Qc ->
  let y := ((y2 - y1) / (x2 - x1) * (v - x1) + y1)%Qc in
  (y = y1 + (v - x1) / (x2 - x1) * (y2 - y1))%Qc /\ ((y1 <= y <= y2)%Qc \/ (y2 <= y <= y1)%Qc).
Proof.
  intros L1 L2 y. assert (P : (0 < x2 - x1)%Qc) by (clear - L1 L2; qclra).
  assert (NZ : (x2 - x1)%Qc <> 0%Qc) by (apply Qcpos_neq0; auto).
  split; [unfold y; field; exact NZ|].
  set (s := ((y2 - y1) / (x2 - x1))%Qc) in *.
  assert (Es : (s * (x2 - x1) = y2 - y1)%Qc) by (unfold s; field; exact NZ).
  assert (Ey : (y = y2 - s * (x2 - v))%Qc).
  { unfold y. replace y2 with (s * (x2 - x1) + y1)%Qc by (rewrite Es; ring). ring. }
  assert (A : (0 <= v - x1)%Qc) by (clear - L1; qclra).
  assert (B : (0 <= x2 - v)%Qc) by (clear - L2; qclra).
  destruct (Qclt_le_dec y2 y1) as [L|L].
  - right. assert (S : (0 <= - s)%Qc).
    { replace (- s)%Qc with ((y1 - y2) / (x2 - x1))%Qc by (unfold s; field; exact NZ).
      apply Qcdiv_nonneg; [clear - L; qclra|exact P]. }
    assert (M1 : (0 <= - s * (v - x1))%Qc) by (apply Qcmult_nonneg; auto).
    assert (M2 : (0 <= - s * (x2 - v))%Qc) by (apply Qcmult_nonneg; auto).
    split; [rewrite Ey|unfold y].
    + replace (y2 - s * (x2 - v))%Qc with (y2 + - s * (x2 - v))%Qc by ring.
      generalize dependent (- s * (x2 - v))%Qc. intros t M2. clear - M2. qclra.
    + replace (s * (v - x1) + y1)%Qc with (y1 - - s * (v - x1))%Qc by ring.
      generalize dependent (- s * (v - x1))%Qc. intros t M1. clear - M1. qclra.
  - left. assert (S : (0 <= s)%Qc).
    { apply Qcdiv_nonneg; [clear - L; qclra|exact P]. }
    assert (M1 : (0 <= s * (v - x1))%Qc) by (apply Qcmult_nonneg; auto).
    assert (M2 : (0 <= s * (x2 - v))%Qc) by (apply Qcmult_nonneg; auto).
    split; [unfold y|rewrite Ey].
    + clear - M1. generalize dependent (s * (v - x1))%Qc. intros t M1. qclra.
    + clear - M2. generalize dependent (s * (x2 - v))%Qc. intros t M2. qclra.
Qed.
Lemma combine_map {A B C} (f : A -> B) (g : A -> C) l :
  combine (map f l) (map g l) = map (fun i => (f i, g i)) l.
Proof. induction l; cbn; congruence. Qed.

Lemma array_row_spec s xt yt xx p : well_formed s p -> readable p xt -> readable p yt ->
  drawable xt yt p ->
  exists row, array_row xt yt xx p = Ok row
    /\ Forall2 (fun x e => forall v, x = Fin v -> value_at xt yt p v e) xx row.
Proof.
  intros W Rx Ry [Fi Di]. destruct (simplify_used s p W) as (sel & Is & Ns & Es).
  unfold array_row. rewrite (Es xt Rx), (Es yt Ry). cbn [bind].
  destruct (all_fin (value p xt) sel) as [xs Ex].
  { intros i Hi. apply Is in Hi. destruct (Fi i Hi) as (a & b & E & _). eauto. }
  destruct (all_fin (value p yt) sel) as [ys Ey].
  { intros i Hi. apply Is in Hi. destruct (Fi i Hi) as (a & b & _ & E). eauto. }
  rewrite Ex, Ey.
  assert (NN : forall qs, existsb is_nan (map Fin qs) = false) by (induction qs; cbn; auto).
  rewrite !NN. cbn [orb].
  assert (Lx : List.length xs = List.length sel) by (apply (f_equal (@List.length _)) in Ex; rewrite !map_length in Ex; auto).
  assert (Ly : List.length ys = List.length sel) by (apply (f_equal (@List.length _)) in Ey; rewrite !map_length in Ey; auto).
  destruct sel as [|i0 sel0].
  { destruct xs; [|discriminate]. destruct ys; [|discriminate]. cbn.
    eexists. split; [reflexivity|]. clear - Is. induction xx as [|x xx IH]; cbn; constructor; auto.
    intros v _. split; [auto|]. split; [auto|]. split; intros; exfalso; eapply (Is i); auto. }
  set (sel := i0 :: sel0) in *.
  assert (Nx : NoDup xs).
  { assert (M : NoDup (map (value p xt) sel)).
    { clear - Ns Is Di. assert (D : forall i j, In i sel -> In j sel -> value p xt i = value p xt j -> i = j)
        by (intros; apply Di; auto; apply Is; auto). clear Is Di.
      induction Ns as [|i l H N IH]; cbn; constructor.
      - intros Hi. apply in_map_iff in Hi as (j & E & Hj). apply H.
        rewrite (D i j); auto; [left|right]; auto.
      - apply IH. intros a b Ha Hb. apply D; right; auto. }
    rewrite Ex in M. clear - M. induction xs as [|x l IH]; cbn in *; constructor; inversion M; subst; auto.
    intros H. apply H1. apply in_map. auto. }
  assert (PT : forall i a b, used p i -> value p xt i = Fin a -> value p yt i = Fin b ->
            In (a, b) (combine xs ys)).
  { intros i a b U Ea Eb. apply Is in U. pose proof (combine_map (value p xt) (value p yt) sel) as C.
    rewrite Ex, Ey, combine_F in C.
    assert (X : In (value p xt i, value p yt i) (map F (combine xs ys))).
    { rewrite C. apply (in_map (fun i => (value p xt i, value p yt i))). exact U. }
    rewrite Ea, Eb in X. apply in_map_iff in X as ([a' b'] & E & X). injection E as -> ->. exact X. }
  assert (TP : forall a, In a xs -> exists i, used p i /\ value p xt i = Fin a).
  { intros a Ha. apply (in_map Fin) in Ha. rewrite <- Ex in Ha. apply in_map_iff in Ha as (i & E & Hi).
    exists i. split; [apply Is; auto|auto]. }
  assert (XS : xs <> []) by (intros ->; cbn in Lx; discriminate).
  destruct (interp1d_spec xs ys 0%Qc ltac:(lia) XS Nx) as (f & Ef & _).
  rewrite Ef. eexists. split; [reflexivity|].
  assert (G : forall v, value_at xt yt p v (f (Fin v))).
  { intros v. destruct (interp1d_spec xs ys v ltac:(lia) XS Nx) as (f' & Ef' & A & B & C).
    rewrite Ef in Ef'. injection Ef' as <-. split; [|split; [|split]].
    - intros H. apply A. left. intros x Hx. destruct (TP x Hx) as (i & U & E). eauto.
    - intros H. apply A. right. intros x Hx. destruct (TP x Hx) as (i & U & E). eauto.
    - intros i U E. destruct (Fi i U) as (a & b & Ea & Eb). rewrite Eb. apply B. eapply PT; eauto.
    - intros i j xi xj yi yj Ui Uj Exi Exj Eyi Eyj L1 L2 Gap.
      destruct (linear_between xi yi xj yj v L1 L2) as [E1 E2].
      eexists. split; [|split; [exact E1|exact E2]].
      apply (C xi yi xj yj); eauto. intros x Hx. destruct (TP x Hx) as (k & U & E). eauto. }
  clear - G. induction xx as [|x xx IH]; cbn; constructor; auto. intros v ->. apply G.
Qed.
Lemma mapM_all_ok {A B} (f : A -> result B) (R : A -> B -> Prop) l :
  (forall a, In a l -> exists b, f a = Ok b /\ R a b) -> exists l', mapM f l = Ok l' /\ Forall2 R l l'.
Proof.
  induction l as [|a l IH]; intros H; [exists []; split; [reflexivity|constructor]|].
  destruct (H a (or_introl eq_refl)) as (b & Eb & Rb). destruct IH as (l' & El & Rl).
  { intros x Hx. apply H. right. exact Hx. }
  exists (b :: l'). cbn. rewrite Eb. cbn. rewrite El. split; [reflexivity|constructor; auto].
Qed.

(** * Resolution limits *)
Definition pi_q : Qc := Q2Qc (884279719003555 # 281474976710656).
Lemma np_pi_q : np_pi = Fin pi_q. Proof. reflexivity. Qed.
Lemma pi_q_nz : pi_q <> 0%Qc. Proof. discriminate. Qed.
Lemma f2_q : f2 = Fin (1 + 1)%Qc. Proof. reflexivity. Qed.
Lemma two_nz : (1 + 1)%Qc <> 0%Qc. Proof. discriminate. Qed.
Lemma fdiv_fin a b : b <> 0%Qc -> fdiv (Fin a) (Fin b) = Fin (a / b)%Qc.
Proof. intros H. cbn [fdiv]. destruct (Qceqb_spec b 0); [contradiction|reflexivity]. Qed.
Lemma mul_nz a b : (a <> 0 -> b <> 0 -> a * b <> 0)%Qc.
Proof. intros A B H. destruct (Qcmult_integral _ _ H); auto. Qed.
Lemma div_nz a b : (a <> 0 -> b <> 0 -> a / b <> 0)%Qc.
Proof.
  intros A B H. apply A. replace a with (a / b * b)%Qc by (field; auto). rewrite H. ring.
Qed.
Lemma Forall2_maps {A B C D} (R : C -> D -> Prop) (f : A -> C) (g : B -> D) l m :
  List.length l = List.length m -> (forall a b, In a l -> In b m -> R (f a) (g b)) ->
  Forall2 R (map f l) (map g m).
Proof.
  revert m. induction l as [|a l IH]; intros [|b m] L H; cbn in *; try discriminate; constructor; auto.
Qed.
Lemma Forall2_map_same {A C D} (R : C -> D -> Prop) (f : A -> C) (g : A -> D) l :
  (forall a, In a l -> R (f a) (g a)) -> Forall2 R (map f l) (map g l).
Proof. induction l; intros H; cbn in *; constructor; auto. Qed.
Lemma Qceqb_false a b : a <> b -> Qceqb a b = false.
Proof. destruct (Qceqb_spec a b); congruence. Qed.

Lemma limit_line_spec xt at_ yt lim xs ys : supported xt at_ yt -> lim <> 0%Qc ->
  Forall (fun x => x <> 0%Qc) xs -> List.length xs = List.length ys ->
  exists l, limit_line xt at_ yt (Fin lim) (map Fin xs) (map Fin ys) = Ok l
    /\ (xt = "frequency"%string -> fst l = map Fin xs)
    /\ (xt = "wavelength"%string -> snd l = map Fin ys)
    /\ Forall2 (fun x y => limited_by at_ xt yt x y = Fin lim) (fst l) (snd l).
Proof.
  intros S NZ FX L. rewrite Forall_forall in FX.
  pose proof pi_q_nz as PZ. pose proof two_nz as TZ.
  destruct S as [[-> | ->] [[-> [-> | [-> | ->]]] | [-> [-> | ->]]]];
    unfold limit_line; cbn [String.eqb Ascii.eqb Bool.eqb]; eexists; (split; [reflexivity|]);
    (split; [try reflexivity; try (intros X; discriminate X)|]);
    (split; [try reflexivity; try (intros X; discriminate X)|]); cbn [fst snd];
    unfold const_of, two_pi_over, limited_by, wavenumber_of, wavelength_of, two_pi;
    rewrite ?map_map; cbn [String.eqb Ascii.eqb Bool.eqb];
    (first [apply Forall2_map_same; intros a Ha; pose proof (FX a Ha) as AZ; clear FX Ha L
           |apply Forall2_maps; [auto|]; intros a b Ha Hb; pose proof (FX a Ha) as AZ; clear FX Ha Hb L
           |apply Forall2_map_same; intros a Ha; clear FX Ha L]);
    unfold f1; rewrite ?np_pi_q, ?f2_q; cbn [fmul];
    repeat (rewrite fdiv_fin by (repeat first [assumption|discriminate|apply div_nz|apply mul_nz])); cbn [fmul];
    repeat (rewrite fdiv_fin by (repeat first [assumption|discriminate|apply div_nz|apply mul_nz])); cbn [fmul];
    try (f_equal; field; repeat split; first [assumption|discriminate]).
Qed.
