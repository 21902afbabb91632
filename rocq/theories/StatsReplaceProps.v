(* Properties C55 to C57, continued: replacing missing data, and filling correlations, cell by cell. *)
From Verif Require Import StatsModel StatsSpec StatsCorrSpec StatsCorrProofs StatsFillProofs StatsReplaceProofs NumFacts PyFacts.
Local Open Scope nat_scope.
Local Open Scope list_scope.

Definition w (n : Z) : flt := Fin (QcZ n).

(** ** C55, continued.  The loop that replaces missing data: what it returns keeps every
    observed value, holds in each missing cell of a region a value drawn with that column's
    mean and deviation, leaves the other missing cells missing, and has column means within
    5 % and coefficients of variation within 0.01 of those of the observed data. *)
Theorem C55_replacement : forall draw fsqrt n regions mean sd m attempts k m',
  0 < n -> rectangular n m -> (forall g, In g regions -> inside (List.length m) n g) ->
  List.length mean = n -> List.length sd = n ->
  replace_missing draw fsqrt attempts n regions mean sd m m k = Ok m' ->
  drawn draw n regions mean sd m m' /\ close_statistics fsqrt n mean sd m'.
Proof. intros draw fsqrt n gs mean sd m attempts k m' Pn R I Lm Ls H. eapply replace_spec; eauto. Qed.
Print Assumptions C55_replacement.
Definition gap : matrix := [[w 2; w 4]; [NaN; w 4]; [w 2; NaN]].
Lemma gap_rectangular : rectangular 2 gap.
Proof. intros r I. cbn in I. repeat (destruct I as [<-|I]; [reflexivity|]). destruct I. Qed.
Definition is_ok {A} (r : result A) : bool := match r with Ok _ => true | Err _ => false end.
(** The third draw is the first acceptable one; the second attempt makes it. *)
Definition some_draws (k : nat) (mu sd : flt) : flt := if Nat.ltb k 2 then w 9 else mu.
Example C55_replacement_nonvacuous : rectangular 2 gap /\ inside (List.length gap) 2 ((0, 0), (3, 2)) /\
  is_ok (replace_missing some_draws (fun x => x) 2 2 [((0, 0), (3, 2))] [w 2; w 4] [w 0; w 0] gap gap 0) = true /\
  is_ok (replace_missing some_draws (fun x => x) 1 2 [((0, 0), (3, 2))] [w 2; w 4] [w 0; w 0] gap gap 0) = false.
Proof. split; [exact gap_rectangular|]. split; [cbn; lia|]. split; vm_compute; reflexivity. Qed.
(** Its only error is the ValueError after too many attempts ... *)
Theorem C55_replacement_error : forall draw fsqrt n regions mean sd m attempts k e,
  0 < n -> rectangular n m -> (forall g, In g regions -> inside (List.length m) n g) ->
  List.length mean = n -> List.length sd = n ->
  replace_missing draw fsqrt attempts n regions mean sd m m k = Err e -> e = ValueError.
Proof. intros draw fsqrt n gs mean sd m attempts k e Pn R I Lm Ls H. eapply replace_err; [| | | | |exact H]; auto. Qed.
Print Assumptions C55_replacement_error.
(** ... which is raised when no replacement is acceptable ... *)
Theorem C55_replacement_hopeless : forall draw fsqrt n regions mean sd m attempts k,
  0 < n -> rectangular n m -> (forall g, In g regions -> inside (List.length m) n g) ->
  List.length mean = n -> List.length sd = n ->
  (forall m', drawn draw n regions mean sd m m' -> ~ close_statistics fsqrt n mean sd m') ->
  replace_missing draw fsqrt attempts n regions mean sd m m k = Err ValueError.
Proof. intros draw fsqrt n gs mean sd m attempts k Pn R I Lm Ls H. now apply replace_never. Qed.
Print Assumptions C55_replacement_hopeless.
(** ... and not when every replacement is acceptable and one attempt is allowed. *)
Theorem C55_replacement_returns : forall draw fsqrt n regions mean sd m attempts k,
  0 < n -> rectangular n m -> (forall g, In g regions -> inside (List.length m) n g) ->
  List.length mean = n -> List.length sd = n ->
  (forall m', drawn draw n regions mean sd m m' -> close_statistics fsqrt n mean sd m') -> 0 < attempts ->
  exists m', replace_missing draw fsqrt attempts n regions mean sd m m k = Ok m'.
Proof. intros draw fsqrt n gs mean sd m attempts k Pn R I Lm Ls H P. now apply replace_returns. Qed.
Print Assumptions C55_replacement_returns.
(** Data without missing values pass unchanged at the first attempt, if the means are
    finite and not zero and the deviations finite. *)
Lemma complete_drawn draw n regions mean sd m m' : rectangular n m -> (forall i j, i < List.length m -> j < n -> value m i j) ->
  drawn draw n regions mean sd m m' -> m' = m.
Proof.
  intros R V (L & R' & C). apply (nth_ext _ _ [] []); [exact L|]. intros i Hi. rewrite L in Hi.
  assert (A : List.length (nth i m []) = n) by (apply R, nth_In; lia).
  assert (B : List.length (nth i m' []) = n) by (apply R', nth_In; lia).
  apply (nth_ext _ _ NaN NaN); [congruence|]. intros j Hj. destruct (C i j Hi ltac:(lia)) as (K & _). apply K, V; lia.
Qed.
Lemma same_close mu s : is_finite mu = true -> mu <> Fin 0%Qc -> is_finite s = true ->
  flt_lt (fabs (fdiv (fsub mu mu) mu)) (Fin (Q2Qc (5 # 100))) = true /\
  flt_lt (fabs (fsub (fdiv s mu) (fdiv s mu))) (Fin (Q2Qc (1 # 100))) = true.
Proof.
  destruct mu as [a| | |]; try discriminate. destruct s as [b| | |]; try discriminate. intros _ N _.
  assert (Z : Qceqb a 0%Qc = false) by (apply not_true_is_false; intros G; apply Qceqb_eq in G; now subst).
  cbn. rewrite Z. cbn. replace (Qcabs ((a + - a) / a)) with 0%Qc; [|replace ((a + - a) / a)%Qc with 0%Qc by (unfold Qcdiv; ring); symmetry; reflexivity].
  replace (Qcabs (b / a + - (b / a))) with 0%Qc; [|replace (b / a + - (b / a))%Qc with 0%Qc by ring; reflexivity].
  split; vm_compute; reflexivity.
Qed.
Theorem C55_complete : forall draw fsqrt n regions m attempts k, 0 < n -> 0 < attempts ->
  rectangular n m -> (forall g, In g regions -> inside (List.length m) n g) ->
  (forall i j, i < List.length m -> j < n -> value m i j) ->
  (forall j, j < n -> is_finite (nanmean (column j m)) = true /\ nanmean (column j m) <> Fin 0%Qc /\
                      is_finite (nanstd fsqrt (column j m)) = true) ->
  let mean := map (fun j => nanmean (column j m)) (seq 0 n) in
  let sd := map (fun j => nanstd fsqrt (column j m)) (seq 0 n) in
  replace_missing draw fsqrt attempts n regions mean sd m m k = Ok m.
Proof.
  intros draw fsqrt n gs m attempts k Pn Pa R I V F mean sd.
  assert (Lm : List.length mean = n) by (unfold mean; now rewrite map_length, seq_length).
  assert (Ls : List.length sd = n) by (unfold sd; now rewrite map_length, seq_length).
  destruct (replace_returns draw fsqrt n gs mean sd m Pn R I Lm Ls) with (attempts := attempts) (k := k) as (m' & E); [|exact Pa|].
  - intros m' D. rewrite (complete_drawn _ _ _ _ _ _ _ R V D). intros j Hj. cbv zeta. unfold mean, sd.
    rewrite !nth_map_seq by exact Hj. cbn [Nat.add]. destruct (F j Hj) as (A & B & C). now apply same_close.
  - rewrite E. f_equal. apply replace_spec in E; auto. destruct E as (D & _). eapply complete_drawn; eauto.
Qed.
Print Assumptions C55_complete.
Definition full : matrix := [[w 2; w 4]; [w 3; w 4]; [w 2; w 7]].
Example C55_complete_nonvacuous : rectangular 2 full /\ existsb (existsb is_nan) full = false /\
  forallb (fun j => match nanmean (column j full) with Fin a => negb (Qceqb a 0%Qc) | _ => false end &&
                    is_finite (nanstd (fun x => x) (column j full)))%bool [0; 1] = true.
Proof.
  split; [intros r I; cbn in I; repeat (destruct I as [<-|I]; [reflexivity|]); destruct I|]. split; vm_compute; reflexivity.
Qed.

(** ** C56, continued.  What filling returns, whatever the sampling locations: row by row,
    each side of the diagonal is filled as [side_filled] says, and nothing else succeeds. *)
Theorem C56_filled : forall lg pw fit xx m m', rectangular (List.length xx) m ->
  fill_corr lg pw fit xx m = Ok m' <->
  List.length m' = List.length m /\ rectangular (List.length xx) m' /\
  forall i, i < List.length m ->
    side_filled lg pw fit xx (right_of (List.length xx) i) (nth i m []) (nth i m' []) /\
    side_filled lg pw fit xx (left_of (List.length xx) i) (nth i m []) (nth i m' []).
Proof. exact fill_corr_iff. Qed.
Print Assumptions C56_filled.
(** The errors are ValueError and those of the fit. *)
Theorem C56_errors : forall lg pw fit xx m e, rectangular (List.length xx) m -> fill_corr lg pw fit xx m = Err e ->
  e = ValueError \/ exists xs ys, fit xs ys = Err e.
Proof. exact fill_corr_err. Qed.
Print Assumptions C56_errors.
(** Refuted: only missing correlations are replaced.  With locations without a logarithm,
    observed ones are. *)
Definition some_log (x : flt) : flt := match x with Fin a => if Qceqb a (QcZ 1) then w 0 else NaN | _ => NaN end.
Theorem C56_overwrites_refuted : exists lg pw fit xx m m' i j, rectangular (List.length xx) m /\
  fill_corr lg pw fit xx m = Ok m' /\ cell m i j = w 1 /\ cell m' i j = w 10.
Proof.
  exists some_log, (fun _ _ => w 5), (fun _ _ => Ok (w 2, w 3)), [w 1; w (-1); w (-2)],
    [[w 1; NaN; w 1]; [w 1; w 1; w 1]; [w 1; w 1; w 1]], [[w 1; fmul (w 2) (w 5); fmul (w 2) (w 5)]; [w 1; w 1; w 1]; [w 1; w 1; w 1]], 0, 2.
  split; [intros r I; cbn in I; repeat (destruct I as [<-|I]; [reflexivity|]); destruct I|].
  split; [|split; [reflexivity|]].
  - apply C56_filled.
    + intros r I; cbn in I; repeat (destruct I as [<-|I]; [reflexivity|]); destruct I.
    + split; [reflexivity|]. split; [intros r I; cbn in I; repeat (destruct I as [<-|I]; [reflexivity|]); destruct I|].
      intros i Hi. cbn in Hi.
      assert (L1 : some_log (w 1) = w 0) by reflexivity. assert (L2 : some_log (w (-1)) = NaN) by reflexivity.
      assert (L3 : some_log (w (-2)) = NaN) by reflexivity.
      destruct i as [|[|[|i]]]; [| | |lia]; (split; unfold side_filled, right_of, left_of; cbv zeta;
        cbn -[some_log w fmul fsub]; try (intros j Hj; repeat (destruct Hj as [<-|Hj]; [reflexivity|]); destruct Hj; fail)).
      rewrite !L1, !L2, !L3. change (is_nan (fsub (w 0) (w 0))) with false. change (is_nan (fsub NaN (w 0))) with true. cbn [negb].
      split; [intros j [<-|[]]; split; reflexivity|]. exists (w 2), (w 3). split; [reflexivity|].
      intros j [<-|[<-|[<-|[]]]]; cbn [nth]; rewrite ?L1, ?L2, ?L3; reflexivity.
  - unfold cell. cbn [nth]. unfold w, fmul. apply f_equal. apply Qceqb_eq. vm_compute. reflexivity.
Qed.
Print Assumptions C56_overwrites_refuted.

(** ** C57, continued: the errors. *)
Theorem C57_constructor_error_refuted : forall xx mean stddev corr, new_statistics xx mean stddev corr = Err TypeError.
Proof. reflexivity. Qed.
Print Assumptions C57_constructor_error_refuted.
(** from_peakssuite fails with AttributeError whenever the suite can be resampled. *)
Theorem C57_suite_error_refuted : forall ps xx xtype ytype,
  stats_from_suite ps xx xtype ytype = Err (match to_array ps xtype ytype xx with Ok _ => AttributeError | Err e => e end).
Proof. intros. unfold stats_from_suite. now destruct (to_array ps xtype ytype xx). Qed.
Print Assumptions C57_suite_error_refuted.

(** ** C55, continued.  Without means and deviations those of the observed values of each column are used; a column with
    fewer than two observed values has no deviation. *)
Theorem C55_default : forall draw fsqrt n m k i j, rectangular n m -> i < List.length m -> j < n ->
  let m' := fst (fill_default draw fsqrt n m None None k) in
  let sd := if Nat.leb (count_observed (column j m)) 1 then NaN else nanstd fsqrt (column j m) in
  List.length m' = List.length m /\ rectangular n m' /\
  cell m' i j = if is_nan (cell m i j) then draw (k + missing_before m i j) (nanmean (column j m)) sd else cell m i j.
Proof.
  intros draw fsqrt n m k i j R Hi Hj. cbn zeta. unfold fill_default.
  assert (L : forall f : list flt -> flt, List.length (map f (transpose n m)) = n) by (intros f; rewrite map_length; unfold transpose, range; now rewrite map_length, seq_length).
  pose proof (fill_spec draw n m (map nanmean (transpose n m)) (map (nanstd fsqrt) (transpose n m)) k R (L _) (L _)) as F.
  destruct (fill_data draw n m (map nanmean (transpose n m)) (map (nanstd fsqrt) (transpose n m)) k) as [m' k']. cbn [fst].
  destruct F as (A & B & _ & D). split; [exact A|]. split; [exact B|]. rewrite D by auto. rewrite !column_stat by exact Hj.
  replace (if Nat.leb (count_observed (column j m)) 1 then NaN else nanstd fsqrt (column j m)) with (nanstd fsqrt (column j m)); [reflexivity|].
  unfold nanstd, count_observed, observed, nums. destruct (List.length _ <=? 1); reflexivity.
Qed.
Print Assumptions C55_default.
(** Given means and deviations are used as they are. *)
Theorem C55_given : forall draw fsqrt n m mu sd k, fill_default draw fsqrt n m (Some mu) (Some sd) k = fill_data draw n m mu sd k.
Proof. reflexivity. Qed.
Print Assumptions C55_given.
(** If drawing without a deviation gives no number (as numpy does), the missing values of a column with one observed value
    stay missing. *)
Theorem C55_lonely_refuted : forall draw fsqrt n m k i j, rectangular n m -> i < List.length m -> j < n ->
  (forall c mu, draw c mu NaN = NaN) -> count_observed (column j m) <= 1 ->
  cell (fst (fill_default draw fsqrt n m None None k)) i j = cell m i j.
Proof.
  intros draw fsqrt n m k i j R Hi Hj D C. destruct (C55_default draw fsqrt n m k i j R Hi Hj) as (_ & _ & ->). apply Nat.leb_le in C. rewrite C.
  destruct (cell m i j); cbn [is_nan]; auto.
Qed.
Print Assumptions C55_lonely_refuted.
Example C55_lonely_example : count_observed (column 1 [[Fin 1%Qc; NaN]; [Fin 1%Qc; Fin 1%Qc]]) = 1 /\ rectangular 2 [[Fin 1%Qc; NaN]; [Fin 1%Qc; Fin 1%Qc]].
Proof. split; [reflexivity|]. intros r [<-|[<-|[]]]; reflexivity. Qed.
