From Verif Require Import StatsModel StatsSpec StatsCorrSpec StatsProofs StatsRegionProofs StatsFillProofs NumFacts PyFacts.
Local Open Scope nat_scope.
Local Open Scope py_scope.
Local Open Scope list_scope.

Section Corr.
  Variables (lg : flt -> flt) (pw : flt -> flt -> flt) (fit : list flt -> list flt -> result (flt * flt)).
  Section Side.
    Variable y : nat -> flt.
    Lemma pick_from (c : nat -> bool) js : forall (pre : list flt) k, k = List.length pre ->
      pick (pre ++ map y js) (where_from k (map c js)) = Ok (map y (filter c js)).
    Proof.
      induction js as [|j js IH]; intros pre k ->; [reflexivity|]. cbn [map where_from filter].
      specialize (IH (pre ++ [y j]) (S (List.length pre))). rewrite <- app_assoc in IH. cbn [app] in IH.
      rewrite app_length in IH. cbn [List.length] in IH. specialize (IH ltac:(lia)).
      destruct (c j); [|exact IH]. unfold pick in *. cbn [mapM map]. rewrite nth_error_app2, Nat.sub_diag by lia.
      cbn [nth_error bind]. rewrite IH. reflexivity.
    Qed.
    Lemma set_nth_app pre (v a : flt) t : set_nth (List.length pre) v (pre ++ a :: t) = pre ++ v :: t.
    Proof. induction pre as [|b pre IH]; cbn; [reflexivity|now rewrite IH]. Qed.
    Lemma assign_from (c : nat -> bool) (g : nat -> flt) js : forall (pre : list flt) k, k = List.length pre ->
      assign (where_from k (map c js)) (map g (filter c js)) (pre ++ map y js) =
      pre ++ map (fun j => if c j then g j else y j) js.
    Proof.
      induction js as [|j js IH]; intros pre k ->; [reflexivity|]. cbn [map where_from filter].
      destruct (c j); cbn [map assign].
      - rewrite set_nth_app. specialize (IH (pre ++ [g j]) (S (List.length pre))).
        rewrite <- !app_assoc in IH. apply IH. rewrite app_length. cbn. lia.
      - specialize (IH (pre ++ [y j]) (S (List.length pre))).
        rewrite <- !app_assoc in IH. apply IH. rewrite app_length. cbn. lia.
    Qed.
    Lemma pick_where (c : nat -> bool) js : pick (map y js) (where_ (map c js)) = Ok (map y (filter c js)).
    Proof. rewrite where_eq. now apply (pick_from c js []). Qed.
  End Side.
  Lemma filler_eq (x y : nat -> flt) js :
    filler pw fit (map x js) (map y js) =
    let v := filter (fun j => negb (is_nan (x j))) js in
    do p <- curve_fit fit (map x v) (map y v);
    Ok (map (fun j => if is_nan (x j) then fmul (fst p) (pw (snd p) (x j)) else y j) js).
  Proof.
    unfold filler. rewrite !map_map. unfold observed. rewrite !(pick_where x), !(pick_where y). cbn [bind].
    destruct (curve_fit _ _ _) as [p|e]; cbn [bind]; [|reflexivity]. rewrite map_map, where_eq. f_equal.
    exact (assign_from y (fun j => is_nan (x j)) (fun j => exponential_decay pw (x j) (fst p) (snd p)) js [] 0 eq_refl).
  Qed.
  Lemma map_ext_iff {A} (f g : nat -> A) l : map f l = map g l <-> forall j, In j l -> f j = g j.
  Proof. split; [apply ext_in_map|intros H; apply map_ext_in; exact H]. Qed.
  Lemma existsb_map {A B} (f : B -> bool) (g : A -> B) l : existsb f (map g l) = existsb (fun a => f (g a)) l.
  Proof. induction l; cbn; congruence. Qed.
  Lemma forallb_map {A B} (f : B -> bool) (g : A -> B) l : forallb f (map g l) = forallb (fun a => f (g a)) l.
  Proof. induction l; cbn; congruence. Qed.
  Definition step (xs ys : list flt) : result (list flt) :=
    if missing ys then do d <- from_first xs; filler pw fit d ys else Ok ys.
  Lemma step_iff xx old new js :
    step (map (fun j => lg (nth j xx NaN)) js) (map (fun j => nth j old NaN) js) = Ok (map (fun j => nth j new NaN) js) <->
    side_filled lg pw fit xx js old new.
  Proof.
    unfold step, side_filled, missing. cbv zeta. rewrite existsb_map.
    destruct (existsb (fun j => is_nan (nth j old NaN)) js) eqn:M.
    - destruct js as [|j0 js]; [discriminate|]. cbn [map from_first bind hd]. remember (j0 :: js) as l eqn:El.
      change (fsub (lg (nth j0 xx NaN)) (lg (nth j0 xx NaN)) :: map _ (map _ js))
        with (map (fun a => fsub a (lg (nth j0 xx NaN))) (map (fun j => lg (nth j xx NaN)) (j0 :: js))).
      change (nth j0 old NaN :: map (fun j => nth j old NaN) js) with (map (fun j => nth j old NaN) (j0 :: js)).
      change (nth j0 new NaN :: map (fun j => nth j new NaN) js) with (map (fun j => nth j new NaN) (j0 :: js)).
      rewrite <- El, map_map. rewrite (filler_eq (fun j => fsub (lg (nth j xx NaN)) (lg (nth j0 xx NaN))) (fun j => nth j old NaN) l).
      cbv zeta. set (x := fun j => fsub _ _). set (v := filter _ l). unfold curve_fit. rewrite !forallb_map.
      destruct (forallb (fun j => is_finite (x j)) v) eqn:Fx; cbn [andb].
      2:{ split; [discriminate|]. intros [H _]. exfalso. apply not_true_iff_false in Fx. apply Fx.
          apply forallb_forall. intros j I. now apply H. }
      destruct (forallb (fun j => is_finite (nth j old NaN)) v) eqn:Fy.
      2:{ split; [discriminate|]. intros [H _]. exfalso. apply not_true_iff_false in Fy. apply Fy.
          apply forallb_forall. intros j I. now apply H. }
      rewrite forallb_forall in Fx, Fy.
      destruct (fit (map x v) (map (fun j => nth j old NaN) v)) as [[y0 d]|e]; cbn [bind fst snd].
      + split.
        * intros H. injection H as H. split; [intros j I; split; [now apply Fx|now apply Fy]|].
          exists y0, d. split; [reflexivity|]. intros j I. symmetry. exact (proj1 (map_ext_iff _ _ _) H j I).
        * intros (_ & y0' & d' & E & H). injection E as <- <-. f_equal. apply map_ext_iff. intros j I. symmetry. now apply H.
      + split; [discriminate|]. intros (_ & y0' & d' & E & _). discriminate.
    - split.
      + intros H j I. injection H as H. symmetry. exact (proj1 (map_ext_iff _ _ _) H j I).
      + intros H. f_equal. apply map_ext_iff. intros j I. symmetry. now apply H.
  Qed.
  Lemma map_nth_seq (l : list flt) a k : a + k <= List.length l -> map (fun j => nth j l NaN) (seq a k) = firstn k (skipn a l).
  Proof.
    revert l a. induction k as [|k IH]; intros l a H; [reflexivity|]. cbn [seq map].
    rewrite IH by lia. destruct (skipn a l) as [|b t] eqn:E.
    - apply (f_equal (@List.length flt)) in E. rewrite skipn_length in E. cbn in E. lia.
    - cbn [firstn]. assert (N : nth a l NaN = b).
      { rewrite <- (firstn_skipn a l) at 1. rewrite app_nth2; rewrite firstn_length; [|lia].
        replace (a - Nat.min a (List.length l)) with 0 by lia. now rewrite E. }
      rewrite N. f_equal. f_equal. clear -E. revert a E. induction l as [|c l IH]; intros [|a] E; cbn in *; try discriminate; [congruence|].
      rewrite <- (IH a E). reflexivity.
  Qed.
  Lemma right_part (l : list flt) n i : List.length l = n -> map (fun j => nth j l NaN) (right_of n i) = skipn i l.
  Proof.
    intros L. unfold right_of. destruct (Nat.le_gt_cases i n).
    - rewrite map_nth_seq by lia. apply firstn_all2. rewrite skipn_length. lia.
    - replace (n - i) with 0 by lia. cbn. symmetry. apply skipn_all2. lia.
  Qed.
  Lemma left_part (l : list flt) n i : List.length l = n -> map (fun j => nth j l NaN) (left_of n i) = rev (firstn i l).
  Proof.
    intros L. unfold left_of. rewrite map_rev. f_equal. rewrite map_nth_seq by lia. cbn [skipn].
    destruct (Nat.le_gt_cases i n); [now rewrite Nat.min_l by lia|].
    rewrite Nat.min_r by lia. rewrite !firstn_all2 by lia. reflexivity.
  Qed.
  Lemma fill_row_eq xs row r : List.length r = List.length xs ->
    fill_row pw fit xs row r =
    do right <- step (skipn row xs) (skipn row r);
    do left <- step (rev (firstn row xs)) (rev (firstn row r));
    Ok (rev left ++ (if Nat.leb row (List.length r) then right else [])).
  Proof.
    intros L. unfold fill_row, step.
    assert (Len : forall x, (if missing (skipn row r) then do d <- from_first (skipn row xs); filler pw fit d (skipn row r) else Ok (skipn row r)) = Ok x ->
                  List.length x = List.length (skipn row r)).
    { intros x. destruct (missing (skipn row r)) eqn:M; [|now intros [= <-]].
      destruct (from_first _) as [d|]; [|discriminate]. cbn [bind]. unfold filler.
      destruct (pick d _); [|discriminate]. cbn [bind]. destruct (pick (skipn row r) _); [|discriminate]. cbn [bind].
      destruct (curve_fit _ _ _); [|discriminate]. cbn [bind]. destruct (pick d _); [|discriminate]. cbn [bind].
      destruct (pick _ _); [|discriminate]. cbn [bind]. intros [= <-].
      match goal with |- context [assign _ ?v _] => generalize v end. generalize (where_ (map is_nan d)). generalize (skipn row r). clear.
      intros l ids. revert l. induction ids as [|i ids IH]; intros l [|v vs]; cbn; auto. rewrite IH.
      revert i. induction l as [|a l IHl]; intros [|i]; cbn; auto. }
    destruct (if missing (skipn row r) then _ else _) as [right|e] eqn:E; cbn [bind]; [|reflexivity].
    specialize (Len right eq_refl). rewrite skipn_length in Len.
    assert (F : firstn row (firstn row r ++ right) = firstn row r).
    { rewrite firstn_app, firstn_firstn, Nat.min_id, firstn_length.
      destruct (Nat.le_gt_cases row (List.length r)).
      - replace (row - Nat.min row (List.length r)) with 0 by lia. cbn. now rewrite app_nil_r.
      - destruct right; [now rewrite firstn_nil, app_nil_r|cbn in Len; lia]. }
    assert (K : skipn row (firstn row r ++ right) = if Nat.leb row (List.length r) then right else []).
    { rewrite skipn_app, firstn_length. rewrite (skipn_all2 (firstn row r)) by (rewrite firstn_length; lia).
      destruct (Nat.leb_spec row (List.length r)).
      - replace (row - Nat.min row (List.length r)) with 0 by lia. reflexivity.
      - destruct right; [now rewrite skipn_nil|cbn in Len; lia]. }
    rewrite F, K. destruct (missing (rev (firstn row r))) eqn:M; cbn [bind].
    - destruct (from_first (rev (firstn row xs))) as [d|]; cbn [bind]; [|reflexivity]. destruct (filler _ _ d _); cbn [bind]; reflexivity.
    - now rewrite rev_involutive.
  Qed.
  Lemma fill_row_iff xx row r r' : List.length r = List.length xx ->
    fill_row pw fit (map lg xx) row r = Ok r' <->
    List.length r' = List.length xx /\
    side_filled lg pw fit xx (right_of (List.length xx) row) r r' /\
    side_filled lg pw fit xx (left_of (List.length xx) row) r r'.
  Proof.
    intros L. set (n := List.length xx) in *. rewrite fill_row_eq by now rewrite map_length.
    assert (Xr : skipn row (map lg xx) = map (fun j => lg (nth j xx NaN)) (right_of n row)).
    { rewrite <- (right_part xx n row eq_refl) at 1 || idtac. rewrite skipn_map, <- (right_part xx n row eq_refl), map_map. reflexivity. }
    assert (Xl : rev (firstn row (map lg xx)) = map (fun j => lg (nth j xx NaN)) (left_of n row)).
    { rewrite firstn_map, <- map_rev, <- (left_part xx n row eq_refl), map_map. reflexivity. }
    rewrite Xr, Xl, <- (right_part r n row L), <- (left_part r n row L).
    assert (Lr : List.length (right_of n row) = n - row) by (unfold right_of; now rewrite seq_length).
    assert (Ll : List.length (left_of n row) = Nat.min row n) by (unfold left_of; now rewrite rev_length, seq_length).
    assert (StepLen : forall js l, step (map (fun j => lg (nth j xx NaN)) js) (map (fun j => nth j r NaN) js) = Ok l -> List.length l = List.length js).
    { intros js l. unfold step. destruct (missing _); [|intros [= <-]; now rewrite map_length].
      destruct js as [|j0 js]; cbn [map from_first bind]; [cbn; intros [= <-]; reflexivity || discriminate|].
      change (fsub (lg (nth j0 xx NaN)) (lg (nth j0 xx NaN)) :: map _ (map _ js))
        with (map (fun a => fsub a (lg (nth j0 xx NaN))) (map (fun j => lg (nth j xx NaN)) (j0 :: js))).
      change (nth j0 r NaN :: map (fun j => nth j r NaN) js) with (map (fun j => nth j r NaN) (j0 :: js)).
      rewrite map_map, (filler_eq (fun j => fsub (lg (nth j xx NaN)) (lg (nth j0 xx NaN))) (fun j => nth j r NaN) (j0 :: js)).
      cbv zeta. destruct (curve_fit _ _ _); cbn [bind]; [|discriminate]. intros [= <-]. cbn. now rewrite map_length. }
    rewrite <- !step_iff. split.
    - intros H. destruct (step _ _) as [a|] eqn:Ea in H; [|discriminate]. cbn [bind] in H.
      destruct (step _ _) as [b|] eqn:Eb in H; [|discriminate]. cbn [bind] in H. injection H as <-.
      pose proof (StepLen _ _ Ea) as La. pose proof (StepLen _ _ Eb) as Lb. rewrite Lr in La. rewrite Ll in Lb.
      assert (Len : List.length (rev b ++ (if row <=? List.length r then a else [])) = n).
      { rewrite app_length, rev_length, Lb. destruct (Nat.leb_spec row (List.length r)); cbn [List.length]; lia. }
      split; [exact Len|]. rewrite Ea, Eb, (right_part _ n row Len), (left_part _ n row Len). split.
      + f_equal. rewrite skipn_app, rev_length, Lb. destruct (Nat.leb_spec row (List.length r)).
        * rewrite skipn_all2 by (rewrite rev_length; lia). replace (row - Nat.min row n) with 0 by lia. reflexivity.
        * rewrite skipn_all2 by (rewrite rev_length; lia). rewrite skipn_nil. destruct a; [reflexivity|cbn in La; lia].
      + f_equal. rewrite firstn_app, rev_length, Lb. destruct (Nat.leb_spec row (List.length r)).
        * replace (row - Nat.min row n) with 0 by lia. cbn. rewrite app_nil_r, firstn_all2 by (rewrite rev_length; lia). now rewrite rev_involutive.
        * rewrite firstn_nil, app_nil_r, firstn_all2 by (rewrite rev_length; lia). now rewrite rev_involutive.
    - intros (Len & Ea & Eb). rewrite Ea, Eb. cbn [bind]. f_equal.
      rewrite (right_part _ n row Len), (left_part _ n row Len), rev_involutive.
      destruct (Nat.leb_spec row (List.length r)); [apply firstn_skipn|].
      rewrite app_nil_r. apply firstn_all2. lia.
  Qed.
  Lemma fill_rows_iff xx : forall m row m', rectangular (List.length xx) m ->
    fill_rows pw fit (map lg xx) row m = Ok m' <->
    List.length m' = List.length m /\ rectangular (List.length xx) m' /\
    forall i, i < List.length m ->
      side_filled lg pw fit xx (right_of (List.length xx) (row + i)) (nth i m []) (nth i m' []) /\
      side_filled lg pw fit xx (left_of (List.length xx) (row + i)) (nth i m []) (nth i m' []).
  Proof.
    induction m as [|r m IH]; intros row m' R; cbn [fill_rows].
    - split; [intros [= <-]; split; [reflexivity|split; [intros ? []|intros i H; inversion H]]|].
      intros (L & _). destruct m'; [reflexivity|discriminate].
    - assert (Lr : List.length r = List.length xx) by (apply R; now left).
      assert (Rm : rectangular (List.length xx) m) by (intros q I; apply R; now right). split.
      + intros H. destruct (fill_row _ _ _ _ _) as [r'|] eqn:Er in H; [|discriminate]. cbn [bind] in H.
        destruct (fill_rows _ _ _ _ _) as [t'|] eqn:Et in H; [|discriminate]. cbn [bind] in H. injection H as <-.
        apply fill_row_iff in Er; [|exact Lr]. apply IH in Et; [|exact Rm]. destruct Er as (L1 & A & B). destruct Et as (L2 & R2 & C).
        split; [cbn; congruence|]. split; [intros q [<-|I]; auto|]. intros [|i] Hi; cbn [nth].
        * rewrite Nat.add_0_r. now split.
        * replace (row + S i) with (S row + i) by lia. apply C. cbn in Hi. lia.
      + intros (L & R' & H). destruct m' as [|r' m']; [discriminate|].
        assert (E1 : fill_row pw fit (map lg xx) row r = Ok r').
        { apply fill_row_iff; [exact Lr|]. split; [apply R'; now left|]. specialize (H 0). cbn [nth List.length] in H. rewrite Nat.add_0_r in H. apply H. lia. }
        assert (E2 : fill_rows pw fit (map lg xx) (S row) m = Ok m').
        { apply IH; [exact Rm|]. split; [cbn in L; lia|]. split; [intros q I; apply R'; now right|].
          intros i Hi. specialize (H (S i)). cbn [nth List.length] in H. replace (row + S i) with (S row + i) in H by lia. apply H. lia. }
        rewrite E1. cbn [bind]. rewrite E2. reflexivity.
  Qed.
  Lemma fill_corr_iff xx m m' : rectangular (List.length xx) m ->
    fill_corr lg pw fit xx m = Ok m' <->
    List.length m' = List.length m /\ rectangular (List.length xx) m' /\
    forall i, i < List.length m ->
      side_filled lg pw fit xx (right_of (List.length xx) i) (nth i m []) (nth i m' []) /\
      side_filled lg pw fit xx (left_of (List.length xx) i) (nth i m []) (nth i m' []).
  Proof. exact (fill_rows_iff xx m 0 m'). Qed.
  (** errors *)
  Lemma step_err xx old js e : step (map (fun j => lg (nth j xx NaN)) js) (map (fun j => nth j old NaN) js) = Err e ->
    e = ValueError \/ exists a b, fit a b = Err e.
  Proof.
    unfold step. destruct (missing _) eqn:M; [|discriminate]. destruct js as [|j0 js]; [discriminate|]. cbn [map from_first bind].
    change (fsub (lg (nth j0 xx NaN)) (lg (nth j0 xx NaN)) :: map _ (map _ js))
      with (map (fun a => fsub a (lg (nth j0 xx NaN))) (map (fun j => lg (nth j xx NaN)) (j0 :: js))).
    change (nth j0 old NaN :: map (fun j => nth j old NaN) js) with (map (fun j => nth j old NaN) (j0 :: js)).
    rewrite map_map, (filler_eq (fun j => fsub (lg (nth j xx NaN)) (lg (nth j0 xx NaN))) (fun j => nth j old NaN) (j0 :: js)).
    cbv zeta. unfold curve_fit. destruct (_ && _)%bool; [|cbn; intros [= <-]; now left].
    destruct (fit _ _) eqn:E; cbn [bind]; [discriminate|]. intros [= <-]. right. eauto.
  Qed.
  Lemma fill_corr_err xx m e : rectangular (List.length xx) m -> fill_corr lg pw fit xx m = Err e ->
    e = ValueError \/ exists a b, fit a b = Err e.
  Proof.
    unfold fill_corr. generalize 0 as row. induction m as [|r m IH]; intros row R; [discriminate|]. cbn [fill_rows].
    assert (Lr : List.length r = List.length xx) by (apply R; now left).
    destruct (fill_row _ _ _ _ _) as [r'|e'] eqn:Er; cbn [bind].
    - destruct (fill_rows _ _ _ _ _) eqn:Et; cbn [bind]; [discriminate|]. intros [= <-]. eapply IH; [|exact Et]. intros q I. apply R. now right.
    - intros [= <-]. rewrite fill_row_eq in Er by now rewrite map_length.
      rewrite skipn_map, <- (right_part xx _ row eq_refl), map_map in Er.
      rewrite firstn_map, <- map_rev, <- (left_part xx _ row eq_refl), map_map in Er.
      rewrite <- (right_part r _ row Lr), <- (left_part r _ row Lr) in Er.
      destruct (step _ _) eqn:Ea in Er; cbn [bind] in Er; [|injection Er as <-; eapply step_err; exact Ea].
      destruct (step _ _) eqn:Eb in Er; cbn [bind] in Er; [discriminate|injection Er as <-; eapply step_err; exact Eb].
  Qed.
End Corr.
