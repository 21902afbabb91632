From Verif Require Import StatsModel StatsSpec StatsCorrSpec StatsProofs StatsRegionProofs StatsFillProofs StatsCorrProofs NumFacts PyFacts.
Local Open Scope py_scope.
Local Open Scope nat_scope.
Local Open Scope list_scope.

Definition in_b (i j : nat) (g : region) : bool :=
  let '((r0, c0), (r1, c1)) := g in (Nat.leb r0 i && Nat.ltb i r1 && Nat.leb c0 j && Nat.ltb j c1)%bool.
Lemma in_b_iff i j g : in_b i j g = true <-> in_region i j g.
Proof.
  destruct g as [[r0 c0] [r1 c1]]. unfold in_b, in_region. rewrite !andb_true_iff, !Nat.leb_le, !Nat.ltb_lt. tauto.
Qed.
Lemma in_region_dec i j g : in_region i j g \/ ~ in_region i j g.
Proof. rewrite <- in_b_iff. destruct (in_b i j g); [now left|right; discriminate]. Qed.

Lemma nth_cut {A} (d : A) a b l i : b <= List.length l -> i < b - a -> nth i (cut a b l) d = nth (a + i) l d.
Proof.
  intros Hb Hi. rewrite (cut_eq d) by exact Hb. rewrite nth_map_seq by exact Hi. reflexivity.
Qed.
Lemma cut_length {A} a b (l : list A) : b <= List.length l -> List.length (cut a b l) = b - a.
Proof. intros H. unfold cut. rewrite firstn_length, skipn_length. lia. Qed.

Lemma put_spec n m b r0 c0 r1 c1 : rectangular n m -> inside (List.length m) n ((r0, c0), (r1, c1)) ->
  List.length b = r1 - r0 -> rectangular (c1 - c0) b ->
  List.length (put ((r0, c0), (r1, c1)) b m) = List.length m /\
  rectangular n (put ((r0, c0), (r1, c1)) b m) /\
  forall i j, i < List.length m -> j < n ->
    cell (put ((r0, c0), (r1, c1)) b m) i j = if in_b i j ((r0, c0), (r1, c1)) then cell b (i - r0) (j - c0) else cell m i j.
Proof.
  intros R (H1 & H2 & H3 & H4) Lb Rb. unfold put.
  assert (Lc : List.length (cut r0 r1 m) = r1 - r0) by now apply cut_length.
  set (f := fun row new : list flt => firstn c0 row ++ new ++ skipn c1 row).
  assert (L2 : List.length (map2 f (cut r0 r1 m) b) = r1 - r0) by (rewrite length_map2; lia).
  assert (Len : List.length (firstn r0 m ++ map2 f (cut r0 r1 m) b ++ skipn r1 m) = List.length m)
    by (rewrite !app_length, L2, firstn_length, skipn_length; lia).
  assert (Row : forall i, i < List.length m ->
    nth i (firstn r0 m ++ map2 f (cut r0 r1 m) b ++ skipn r1 m) [] =
    if (Nat.leb r0 i && Nat.ltb i r1)%bool then f (nth i m []) (nth (i - r0) b []) else nth i m []).
  { intros i Hi. destruct (Nat.leb_spec r0 i) as [A|A]; cbn [andb].
    - rewrite app_nth2 by (rewrite firstn_length; lia). rewrite firstn_length, (Nat.min_l r0) by lia.
      destruct (Nat.ltb_spec i r1) as [B|B].
      + rewrite app_nth1 by lia. rewrite (nth_map2 f _ _ _ [] [] []) by lia.
        rewrite nth_cut by lia. do 2 f_equal; lia.
      + rewrite app_nth2 by lia. rewrite L2, nth_skipn. f_equal. lia.
    - rewrite app_nth1 by (rewrite firstn_length; lia). now apply nth_firstn_lt || (rewrite <- (firstn_skipn r0 m) at 2; rewrite app_nth1 by (rewrite firstn_length; lia); reflexivity). }
  assert (Rr : forall i, i < List.length m -> List.length (nth i m []) = n) by (intros i Hi; apply R; now apply nth_In).
  split; [exact Len|]. split.
  - intros q I. destruct (In_nth _ _ [] I) as (i & Hi & <-). rewrite Len in Hi. rewrite Row by exact Hi.
    destruct (Nat.leb_spec r0 i); destruct (Nat.ltb_spec i r1); cbn [andb]; auto.
    unfold f. rewrite !app_length, firstn_length, skipn_length, Rr by exact Hi.
    rewrite (Rb (nth (i - r0) b [])) by (apply nth_In; lia). lia.
  - intros i j Hi Hj. unfold cell. rewrite Row by exact Hi. unfold in_b.
    destruct (Nat.leb_spec r0 i) as [A|A]; destruct (Nat.ltb_spec i r1) as [B|B]; cbn [andb]; auto.
    unfold f. assert (Lnew : List.length (nth (i - r0) b []) = c1 - c0) by (apply Rb; apply nth_In; lia).
    destruct (Nat.leb_spec c0 j) as [C|C]; cbn [andb].
    + rewrite app_nth2 by (rewrite firstn_length, Rr by exact Hi; lia).
      rewrite firstn_length, Rr, (Nat.min_l c0) by (exact Hi || lia).
      destruct (Nat.ltb_spec j c1) as [D|D].
      * now rewrite app_nth1 by lia.
      * rewrite app_nth2 by lia. rewrite Lnew, nth_skipn. f_equal. lia.
    + rewrite app_nth1 by (rewrite firstn_length, Rr by exact Hi; lia).
      rewrite <- (firstn_skipn c0 (nth i m [])) at 2. rewrite app_nth1 by (rewrite firstn_length, Rr by exact Hi; lia). reflexivity.
Qed.

Section Replace.
  Variables (draw : nat -> flt -> flt -> flt) (fsqrt : flt -> flt).
  Lemma fill_region_drawn n m k g mean sd : rectangular n m -> inside (List.length m) n g ->
    List.length mean = n -> List.length sd = n -> drawn draw n [g] mean sd m (fst (fill_region draw mean sd (m, k) g)).
  Proof.
    destruct g as [[r0 c0] [r1 c1]]. intros R I Lm Ls. pose proof I as (H1 & H2 & H3 & H4). cbn [fill_region fst snd].
    set (b0 := map (cut c0 c1) (cut r0 r1 m)).
    assert (Lb0 : List.length b0 = r1 - r0) by (unfold b0; rewrite map_length; now apply cut_length).
    assert (Rr : forall i, i < List.length m -> List.length (nth i m []) = n) by (intros i Hi; apply R; now apply nth_In).
    assert (Nb : forall i, i < r1 - r0 -> nth i b0 [] = cut c0 c1 (nth (r0 + i) m [])).
    { intros i Hi. unfold b0. rewrite (nth_indep _ [] (cut c0 c1 [])) by (rewrite map_length, cut_length; lia).
      rewrite map_nth, nth_cut by lia. reflexivity. }
    assert (Rb0 : rectangular (c1 - c0) b0).
    { intros q J. destruct (In_nth _ _ [] J) as (i & Hi & <-). rewrite Lb0 in Hi. rewrite Nb by exact Hi.
      apply cut_length. rewrite Rr by lia. exact H4. }
    pose proof (fill_spec draw (c1 - c0) b0 (cut c0 c1 mean) (cut c0 c1 sd) k Rb0 ltac:(apply cut_length; lia) ltac:(apply cut_length; lia)) as F.
    destruct (fill_data draw (c1 - c0) b0 (cut c0 c1 mean) (cut c0 c1 sd) k) as [b k']. destruct F as (Lb & Rb & _ & Cb).
    cbn [fst]. destruct (put_spec n m b r0 c0 r1 c1 R I ltac:(lia) Rb) as (Lp & Rp & Cp).
    split; [exact Lp|]. split; [exact Rp|]. intros i j Hi Hj. rewrite Cp by assumption.
    destruct (in_b i j ((r0, c0), (r1, c1))) eqn:E.
    - apply in_b_iff in E. pose proof E as (A & B). rewrite Cb by lia.
      assert (Q : cell b0 (i - r0) (j - c0) = cell m i j).
      { unfold cell. rewrite Nb by lia. rewrite nth_cut by (try rewrite Rr; lia). f_equal; [lia|f_equal; lia]. }
      rewrite Q. split; [intros ->; reflexivity|]. split.
      + intros N. exfalso. apply (N ((r0, c0), (r1, c1))); [now left|exact E].
      + intros -> _. eexists. f_equal; (rewrite nth_cut by lia; f_equal; lia).
    - split; [auto|]. split; [auto|]. intros _ (g & [<-|[]] & G). apply in_b_iff in G. congruence.
  Qed.
  Lemma drawn_refl n mean sd m : rectangular n m -> drawn draw n [] mean sd m m.
  Proof.
    intros R. split; [reflexivity|]. split; [exact R|]. intros i j _ _. split; [auto|]. split; [auto|]. intros _ (g & [] & _).
  Qed.
  Lemma some_region_dec i j gs : (exists g, In g gs /\ in_region i j g) \/ (forall g, In g gs -> ~ in_region i j g).
  Proof.
    induction gs as [|g gs [(h & I & E)|IH]]; [right; intros g []|left; exists h; split; [now right|exact E]|].
    destruct (in_region_dec i j g) as [D|D]; [left; exists g; split; [now left|exact D]|right].
    intros h [<-|I]; auto.
  Qed.
  Lemma drawn_trans n g gs mean sd m m1 m2 : drawn draw n [g] mean sd m m1 -> drawn draw n gs mean sd m1 m2 -> drawn draw n (g :: gs) mean sd m m2.
  Proof.
    intros (L1 & R1 & C1) (L2 & R2 & C2). split; [congruence|]. split; [exact R2|]. intros i j Hi Hj.
    destruct (C1 i j Hi Hj) as (A1 & B1 & D1). destruct (C2 i j ltac:(congruence) Hj) as (A2 & B2 & D2). split.
    - intros N. rewrite A2; rewrite A1; auto.
    - split.
      + intros N. rewrite B2, B1; auto; [intros h [<-|[]]; apply N; now left|intros h I; apply N; now right].
      + intros N (h & I & E). destruct (in_region_dec i j g) as [D|D].
        * destruct D1 as (k & K); [exact N|exists g; split; [now left|exact D]|].
          destruct (is_nan (cell m1 i j)) eqn:N1; [|exists k; rewrite A2; auto].
          destruct (some_region_dec i j gs) as [S|S]; [now apply D2|exists k; rewrite B2; auto].
        * assert (Q : cell m1 i j = cell m i j) by (apply B1; intros h' [<-|[]]; exact D).
          apply D2; [now rewrite Q|]. destruct I as [<-|I]; [contradiction|]. exists h. now split.
  Qed.
  Lemma regions_drawn n mean sd : forall gs m k, rectangular n m -> (forall g, In g gs -> inside (List.length m) n g) ->
    List.length mean = n -> List.length sd = n -> drawn draw n gs mean sd m (fst (fold_left (fill_region draw mean sd) gs (m, k))).
  Proof.
    induction gs as [|g gs IH]; intros m k R I Lm Ls; cbn [fold_left]; [now apply drawn_refl|].
    pose proof (fill_region_drawn n m k g mean sd R (I g (or_introl eq_refl)) Lm Ls) as D.
    destruct (fill_region draw mean sd (m, k) g) as [m1 k1]. cbn [fst] in D.
    eapply drawn_trans; [exact D|]. destruct D as (L1 & R1 & _). apply IH; auto. intros h J. rewrite L1. apply I. now right.
  Qed.
  Lemma forget_original n gs mean sd m m' : rectangular n m -> drawn draw n gs mean sd m m' -> forget m m' = m.
  Proof.
    intros R (L & R' & C). unfold forget. apply (nth_ext _ _ [] []); [rewrite length_map2; lia|].
    intros i Hi. rewrite length_map2 in Hi. rewrite (nth_map2 _ _ _ _ [] [] []) by lia.
    assert (Li : List.length (nth i m []) = n) by (apply R, nth_In; lia).
    assert (Li' : List.length (nth i m' []) = n) by (apply R', nth_In; lia).
    apply (nth_ext _ _ NaN NaN); [rewrite length_map2; lia|]. intros j Hj. rewrite length_map2 in Hj.
    rewrite (nth_map2 _ _ _ _ NaN NaN NaN) by lia. destruct (C i j ltac:(lia) ltac:(lia)) as (A & _).
    unfold cell in A. destruct (is_nan (nth j (nth i m []) NaN)) eqn:N; [|now apply A].
    destruct (nth j (nth i m []) NaN); try discriminate; reflexivity.
  Qed.
  Lemma flt_lt_max x y c : flt_lt (fmax2 x y) c = true -> flt_lt x c = true /\ flt_lt y c = true.
  Proof.
    unfold fmax2. destruct x as [a| | |], y as [b| | |], c as [q| | |]; cbn; try (intros; split; congruence); try discriminate;
      try (destruct (Qcltb a b) eqn:E; cbn; intros H; split; auto).
    - apply Qcltb_lt in E, H. apply Qcltb_lt. eapply Qclt_trans; eauto.
    - apply Qcltb_lt in H. apply Qcltb_lt. assert (N : ~ (a < b)%Qc) by (intros G; apply Qcltb_lt in G; congruence).
      apply Qcnot_lt_le in N. eapply Qcle_lt_trans; eauto.
  Qed.
  Lemma flt_lt_fold l c : forall a, flt_lt (fold_left fmax2 l a) c = true -> flt_lt a c = true /\ (forall x, In x l -> flt_lt x c = true).
  Proof.
    induction l as [|x l IH]; intros a H; cbn in H; [split; [exact H|intros ? []]|].
    destruct (IH _ H) as (A & B). destruct (flt_lt_max _ _ _ A) as (A1 & A2). split; [exact A1|]. intros y [<-|I]; auto.
  Qed.
  Lemma fmax_lt l p c : fmax l = Ok p -> flt_lt p c = true -> forall x, In x l -> flt_lt x c = true.
  Proof.
    destruct l as [|a l]; [discriminate|]. intros [= <-] H. destruct (flt_lt_fold _ _ _ H) as (A & B). intros x [<-|I]; auto.
  Qed.
  Lemma fmax_lt_conv l p q : fmax l = Ok p -> (forall x, In x l -> flt_lt x (Fin q) = true) -> flt_lt p (Fin q) = true.
  Proof.
    destruct l as [|a l]; [discriminate|]. intros [= <-]. revert a. induction l as [|x l IH]; intros a H; cbn; [apply H; now left|].
    apply IH. intros y [<-|I]; [|apply H; now right; right].
    pose proof (H a (or_introl eq_refl)) as A. pose proof (H x (or_intror (or_introl eq_refl))) as B. unfold fmax2.
    destruct (is_nan a) eqn:Na; [destruct a; discriminate|]. destruct (is_nan x) eqn:Nx; [destruct x; discriminate|].
    destruct (flt_lt a x); auto.
  Qed.
  Lemma column_stat {A} (f : list flt -> A) d n m j : j < n -> nth j (map f (transpose n m)) d = f (column j m).
  Proof.
    intros H. unfold transpose, range. rewrite map_map. rewrite nth_map_seq by exact H. reflexivity.
  Qed.
  Definition accepted n mean sd m' : bool :=
    match fmax (map2 (fun n o => fabs (fdiv (fsub n o) o)) (fst (calc_stat fsqrt n m')) mean),
          fmax (map fabs (map2 fsub (map2 fdiv (snd (calc_stat fsqrt n m')) (fst (calc_stat fsqrt n m'))) (map2 fdiv sd mean))) with
    | Ok p, Ok d => (flt_lt p five_percent && flt_lt d one_percent)%bool
    | _, _ => false
    end.
  Lemma calc_stat_length n m : List.length (fst (calc_stat fsqrt n m)) = n /\ List.length (snd (calc_stat fsqrt n m)) = n.
  Proof. unfold calc_stat, transpose, range. cbn [fst snd]. now rewrite !map_length, seq_length. Qed.
  Lemma nth_In_map2 {A B C} (f : A -> B -> C) l m c : In c (map2 f l m) <-> exists i, i < List.length l /\ i < List.length m /\
     (forall da db, c = f (nth i l da) (nth i m db)).
  Proof.
    split.
    - intros I. destruct (In_nth _ _ c I) as (i & Hi & E). rewrite length_map2 in Hi. exists i. split; [lia|]. split; [lia|].
      intros da db. rewrite <- E. apply nth_map2; lia.
    - intros (i & H1 & H2 & E). destruct l as [|a l]; [inversion H1|]. destruct m as [|b m]; [inversion H2|].
      rewrite (E a b), <- (nth_map2 f (a :: l) (b :: m) i a b (f a b) H1 H2). apply nth_In. rewrite length_map2. lia.
  Qed.
  Lemma accepted_iff n mean sd m' : 0 < n -> List.length mean = n -> List.length sd = n ->
    accepted n mean sd m' = true <-> close_statistics fsqrt n mean sd m'.
  Proof.
    intros Pn Lm Ls. unfold accepted. destruct (calc_stat_length n m') as (La & Lb).
    set (ms := fst (calc_stat fsqrt n m')) in *. set (ss := snd (calc_stat fsqrt n m')) in *.
    assert (Em : forall j, j < n -> nth j ms NaN = nanmean (column j m')) by (intros j H; exact (column_stat nanmean NaN n m' j H)).
    assert (Es : forall j, j < n -> nth j ss NaN = nanstd fsqrt (column j m')) by (intros j H; exact (column_stat (nanstd fsqrt) NaN n m' j H)).
    set (l1 := map2 _ ms mean). set (l2 := map fabs _).
    assert (L1 : List.length l1 = n) by (unfold l1; rewrite length_map2; lia).
    assert (L2 : List.length l2 = n) by (unfold l2; rewrite map_length, !length_map2; lia).
    assert (N1 : forall j, j < n -> nth j l1 NaN = fabs (fdiv (fsub (nanmean (column j m')) (nth j mean NaN)) (nth j mean NaN))).
    { intros j H. unfold l1. rewrite (nth_map2 _ _ _ _ NaN NaN NaN) by lia. now rewrite Em. }
    assert (N2 : forall j, j < n -> nth j l2 NaN = fabs (fsub (fdiv (nanstd fsqrt (column j m')) (nanmean (column j m'))) (fdiv (nth j sd NaN) (nth j mean NaN)))).
    { intros j H. unfold l2. change NaN with (fabs NaN) at 1. rewrite map_nth. rewrite (nth_map2 _ _ _ _ NaN NaN NaN) by (rewrite !length_map2; lia).
      rewrite !(nth_map2 _ _ _ _ NaN NaN NaN) by lia. now rewrite Em, Es. }
    destruct (fmax l1) as [p|] eqn:E1; [|destruct l1; [cbn in L1; lia|discriminate]].
    destruct (fmax l2) as [d|] eqn:E2; [|destruct l2; [cbn in L2; lia|discriminate]].
    rewrite andb_true_iff. split.
    - intros (A & B) j H. cbv zeta. rewrite <- N1, <- N2 by exact H. split.
      + eapply fmax_lt; [exact E1|exact A|]. apply nth_In. lia.
      + eapply fmax_lt; [exact E2|exact B|]. apply nth_In. lia.
    - intros C. split.
      + eapply fmax_lt_conv; [exact E1|]. intros x I. destruct (In_nth _ _ NaN I) as (j & H & <-). rewrite N1 by lia. apply (C j). lia.
      + eapply fmax_lt_conv; [exact E2|]. intros x I. destruct (In_nth _ _ NaN I) as (j & H & <-). rewrite N2 by lia. apply (C j). lia.
  Qed.
  Lemma replace_step a n gs mean sd m k : 0 < n -> rectangular n m -> (forall g, In g gs -> inside (List.length m) n g) ->
    List.length mean = n -> List.length sd = n ->
    let s := fold_left (fill_region draw mean sd) gs (m, k) in
    replace_missing draw fsqrt (S a) n gs mean sd m m k =
    if accepted n mean sd (fst s) then Ok (fst s) else replace_missing draw fsqrt a n gs mean sd m m (snd s).
  Proof.
    intros Pn R I Lm Ls. cbv zeta. cbn [replace_missing]. pose proof (regions_drawn n mean sd gs m k R I Lm Ls) as D.
    destruct (fold_left (fill_region draw mean sd) gs (m, k)) as [m' k']. cbn [fst snd] in *. rewrite (forget_original n gs mean sd m m' R D).
    destruct (calc_stat_length n m') as (La & Lb). unfold accepted. destruct (calc_stat fsqrt n m') as [ms ss]. cbn [fst snd] in *.
    destruct (fmax (map2 _ ms mean)) as [p|] eqn:E1; cbn [bind].
    2:{ apply (f_equal (@List.length _)) in La || idtac. destruct ms; [cbn in La; lia|]. destruct mean; [cbn in Lm; lia|discriminate]. }
    destruct (fmax (map fabs _)) as [d|] eqn:E2; cbn [bind]; [reflexivity|].
    destruct ms; [cbn in La; lia|]. destruct mean; [cbn in Lm; lia|]. destruct sd; [cbn in Ls; lia|]. destruct ss; [cbn in Lb; lia|discriminate].
  Qed.
  Lemma replace_spec n gs mean sd m : 0 < n -> rectangular n m -> (forall g, In g gs -> inside (List.length m) n g) ->
    List.length mean = n -> List.length sd = n -> forall attempts k m',
    replace_missing draw fsqrt attempts n gs mean sd m m k = Ok m' -> drawn draw n gs mean sd m m' /\ close_statistics fsqrt n mean sd m'.
  Proof.
    intros Pn R I Lm Ls attempts. induction attempts as [|a IH]; intros k m' H; [discriminate|].
    rewrite replace_step in H by assumption. cbv zeta in H. destruct (accepted _ _ _ _) eqn:E; [|now apply IH in H].
    injection H as <-. split; [now apply regions_drawn|now apply accepted_iff].
  Qed.
  Lemma replace_err n gs mean sd m : 0 < n -> rectangular n m -> (forall g, In g gs -> inside (List.length m) n g) ->
    List.length mean = n -> List.length sd = n -> forall attempts k e,
    replace_missing draw fsqrt attempts n gs mean sd m m k = Err e -> e = ValueError.
  Proof.
    intros Pn R I Lm Ls attempts. induction attempts as [|a IH]; intros k e H; [now injection H as <-|].
    rewrite replace_step in H by assumption. cbv zeta in H. destruct (accepted _ _ _ _) eqn:E; [discriminate|]. eapply IH, H.
  Qed.
  (** what every attempt would give is close: the first attempt is taken *)
  Lemma replace_returns n gs mean sd m : 0 < n -> rectangular n m -> (forall g, In g gs -> inside (List.length m) n g) ->
    List.length mean = n -> List.length sd = n ->
    (forall m', drawn draw n gs mean sd m m' -> close_statistics fsqrt n mean sd m') ->
    forall attempts k, 0 < attempts -> exists m', replace_missing draw fsqrt attempts n gs mean sd m m k = Ok m'.
  Proof.
    intros Pn R I Lm Ls C attempts k P. destruct attempts as [|a]; [lia|]. rewrite replace_step by assumption. cbv zeta.
    replace (accepted _ _ _ _) with true; [eauto|]. symmetry. apply accepted_iff; auto. apply C. now apply regions_drawn.
  Qed.
  Lemma replace_never n gs mean sd m : 0 < n -> rectangular n m -> (forall g, In g gs -> inside (List.length m) n g) ->
    List.length mean = n -> List.length sd = n ->
    (forall m', drawn draw n gs mean sd m m' -> ~ close_statistics fsqrt n mean sd m') ->
    forall attempts k, replace_missing draw fsqrt attempts n gs mean sd m m k = Err ValueError.
  Proof.
    intros Pn R I Lm Ls C attempts k. destruct (replace_missing _ _ _ _ _ _ _ _ _ _) as [m'|e] eqn:E.
    - apply replace_spec in E; auto. destruct E as (A & B). exfalso. now apply (C m').
    - f_equal. eapply replace_err; [| | | | |exact E]; auto.
  Qed.
End Replace.
