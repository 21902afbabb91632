(* Proofs about filling data and correlation matrices. *)
From Verif Require Import StatsModel StatsSpec PyFacts NumFacts SuiteProofs StatsProofs StatsRegionProofs.
From Coq Require Import Sorting.Sorted.
Local Open Scope nat_scope.
Local Open Scope list_scope.

Definition tick (mask : list bool) (r : nat) : nat := if nth r mask false then 1 else 0.
Lemma sum_seq_shift (f : nat -> nat) n : list_sum (map f (seq 1 n)) = list_sum (map (fun r => f (S r)) (seq 0 n)).
Proof. now rewrite <- seq_shift, map_map. Qed.
Lemma where_from_pos mask : forall k i, nth i mask false = true ->
  nth_error (where_from k mask) (list_sum (map (tick mask) (seq 0 i))) = Some (k + i).
Proof.
  induction mask as [|b t IH]; intros k i H; [destruct i; discriminate|]. destruct i as [|i].
  - cbn in H. subst b. cbn. f_equal. lia.
  - cbn [seq map]. rewrite sum_cons, sum_seq_shift. unfold tick at 1. cbn [nth] in *.
    replace (list_sum (map (fun r => tick (b :: t) (S r)) (seq 0 i))) with (list_sum (map (tick t) (seq 0 i))) by reflexivity.
    cbn [where_from]. destruct b; cbn [Nat.add nth_error]; rewrite IH by auto; f_equal; lia.
Qed.
Lemma where_from_length mask : forall k, List.length (where_from k mask) = list_sum (map (tick mask) (seq 0 (List.length mask))).
Proof.
  induction mask as [|b t IH]; intros k; auto. cbn [List.length seq map]. rewrite sum_cons, sum_seq_shift. unfold tick at 1. cbn [nth].
  replace (list_sum (map (fun r => tick (b :: t) (S r)) (seq 0 (List.length t)))) with (list_sum (map (tick t) (seq 0 (List.length t)))) by reflexivity.
  cbn [where_from]. destruct b; cbn [List.length Nat.add]; now rewrite IH.
Qed.
Lemma column_mask m j r : nth r (map is_nan (column j m)) false = (is_nan (cell m r j) && Nat.ltb r (List.length m))%bool.
Proof.
  destruct (Nat.ltb_spec r (List.length m)) as [H|H].
  - unfold column. rewrite map_map, (nth_map_lt _ m r false []) by auto. now rewrite andb_true_r.
  - rewrite nth_overflow, andb_false_r; auto. unfold column. now rewrite !map_length.
Qed.
Definition lost (m : matrix) (j r : nat) : nat := if is_nan (cell m r j) then 1 else 0.
Lemma nan_ids_pos m i j : i < List.length m -> is_nan (cell m i j) = true ->
  nth_error (where_ (map is_nan (column j m))) (sum_over 0 i (lost m j)) = Some i.
Proof.
  intros H N. rewrite where_eq. change (Some i) with (Some (0 + i)). rewrite <- (where_from_pos (map is_nan (column j m)) 0 i).
  - f_equal. unfold sum_over. rewrite Nat.sub_0_r. apply sum_ext. intros r I. apply in_seq in I. unfold lost, tick.
    rewrite column_mask. destruct (Nat.ltb_spec r (List.length m)); [|lia]. now rewrite andb_true_r.
  - rewrite column_mask, N. destruct (Nat.ltb_spec i (List.length m)); [auto|lia].
Qed.
Lemma nan_ids_length m j : List.length (where_ (map is_nan (column j m))) = sum_over 0 (List.length m) (lost m j).
Proof.
  rewrite where_eq, where_from_length. unfold column at 2. rewrite !map_length. unfold sum_over. rewrite Nat.sub_0_r.
  apply sum_ext. intros r I. apply in_seq in I. unfold lost, tick.
  rewrite column_mask. destruct (Nat.ltb_spec r (List.length m)); [|lia]. now rewrite andb_true_r.
Qed.
Lemma nan_ids_in m i j : In i (where_ (map is_nan (column j m))) <-> i < List.length m /\ is_nan (cell m i j) = true.
Proof. rewrite where_in, column_mask, andb_true_iff, Nat.ltb_lt. tauto. Qed.

Section Fill.
  Variable draw : nat -> flt -> flt -> flt.
  Variable n : nat.
  Lemma set2_length i j v m : List.length (set2 i j v m) = List.length m.
  Proof. apply set_nth_length. Qed.
  Lemma set2_rectangular i j v m : rectangular n m -> rectangular n (set2 i j v m).
  Proof.
    intros R r I. unfold set2 in I. destruct (Nat.lt_ge_cases i (List.length m)) as [H|H].
    - apply In_set_nth in I. destruct I as [->|I]; auto. rewrite set_nth_length. apply R. now apply nth_In.
    - apply (In_nth _ _ []) in I. destruct I as (p & Hp & <-). rewrite nth_set_nth. destruct (Nat.ltb_spec i (List.length m)); [lia|].
      rewrite andb_false_r. apply R, nth_In. now rewrite set_nth_length in Hp.
  Qed.
  Lemma set2_cell i j v m a b : rectangular n m -> i < List.length m -> j < n ->
    cell (set2 i j v m) a b = if (Nat.eqb a i && Nat.eqb b j)%bool then v else cell m a b.
  Proof.
    intros R Hi Hj. unfold cell, set2. rewrite nth_set_nth. destruct (Nat.ltb_spec i (List.length m)); [|lia]. rewrite andb_true_r.
    destruct (Nat.eqb_spec a i) as [->|]; auto. cbn [andb]. rewrite nth_set_nth.
    rewrite (R (nth i m [])) by now apply nth_In. destruct (Nat.ltb_spec j n); [|lia]. now rewrite andb_true_r.
  Qed.
  Lemma fill_ids_spec mu sd j ids : j < n -> NoDup ids -> forall m k, rectangular n m -> (forall i, In i ids -> i < List.length m) ->
    let (m', k') := fill_ids draw mu sd j ids (m, k) in
    k' = k + List.length ids /\ List.length m' = List.length m /\ rectangular n m' /\
    (forall a b, b <> j \/ ~ In a ids -> cell m' a b = cell m a b) /\
    (forall p i, nth_error ids p = Some i -> cell m' i j = draw (k + p) mu sd).
  Proof.
    intros Hj. induction ids as [|i ids IH]; intros Nd m k R Lt; cbn [fill_ids].
    - split; [cbn; lia|]. split; auto. split; auto. split; auto. intros [|p] i E; discriminate.
    - inversion Nd as [|? ? Ni Nd']; subst. cbn [fst snd].
      specialize (IH Nd' (set2 i j (draw k mu sd) m) (S k) (set2_rectangular _ _ _ _ R)).
      destruct (fill_ids draw mu sd j ids (set2 i j (draw k mu sd) m, S k)) as [m' k'].
      rewrite set2_length in IH. destruct IH as (E1 & E2 & E3 & E4 & E5); [intros; apply Lt; now right|].
      assert (Hi : i < List.length m) by (apply Lt; now left).
      split; [cbn; lia|]. split; auto. split; auto. split.
      + intros a b H. rewrite E4 by (destruct H as [H|H]; [now left|right; intros I; apply H; now right]).
        rewrite set2_cell by auto. destruct (Nat.eqb_spec a i) as [->|]; auto. destruct (Nat.eqb_spec b j) as [->|]; auto.
        exfalso. destruct H as [H|H]; [congruence|]. apply H. now left.
      + intros [|p] i' E; cbn in E.
        * injection E as <-. rewrite E4 by now right. rewrite set2_cell, !Nat.eqb_refl by auto. cbn. f_equal. lia.
        * rewrite (E5 p i' E). f_equal. lia.
  Qed.
  Lemma sorted_nodup l : StronglySorted lt l -> NoDup l.
  Proof.
    induction 1 as [|a l Ss IH F]; constructor; auto. intros I. rewrite Forall_forall in F. specialize (F a I). lia.
  Qed.
  Definition lost_in (m : matrix) (a b : nat) : nat := sum_over a b (fun c => sum_over 0 (List.length m) (lost m c)).
  Lemma fill_columns_spec stats : forall j m k, rectangular n m -> j + List.length stats <= n ->
    let (m', k') := fill_columns draw j stats (m, k) in
    k' = k + lost_in m j (j + List.length stats) /\ List.length m' = List.length m /\ rectangular n m' /\
    (forall a b, is_nan (cell m a b) = false -> cell m' a b = cell m a b) /\
    (forall a b, b < j \/ j + List.length stats <= b -> cell m' a b = cell m a b) /\
    (forall a b mu sd, a < List.length m -> is_nan (cell m a b) = true -> j <= b ->
       nth_error stats (b - j) = Some (mu, sd) ->
       cell m' a b = draw (k + lost_in m j b + sum_over 0 a (lost m b)) mu sd).
  Proof.
    induction stats as [|[mu sd] stats IH]; intros j m k R Hn; cbn [fill_columns fst].
    - split; [cbn; rewrite Nat.add_0_r; unfold lost_in; rewrite sum_over_nil; lia|]. split; auto. split; auto. split; auto. split; auto.
      intros a b mu sd _ _ _ E. destruct (b - j); discriminate.
    - cbn [List.length] in Hn.
      pose proof (fill_ids_spec mu sd j (where_ (map is_nan (column j m))) ltac:(lia) (sorted_nodup _ (where_sorted _)) m k R) as S.
      destruct (fill_ids draw mu sd j (where_ (map is_nan (column j m))) (m, k)) as [m1 k1].
      destruct S as (E1 & E2 & E3 & E4 & E5); [intros i I; now apply nan_ids_in in I|].
      specialize (IH (Datatypes.S j) m1 k1 E3 ltac:(lia)). destruct (fill_columns draw (Datatypes.S j) stats (m1, k1)) as [m' k'].
      destruct IH as (F1 & F2 & F3 & F4 & F5 & F6).
      assert (Oth : forall c r, c <> j -> lost m1 c r = lost m c r) by (intros c r Hc; unfold lost; now rewrite E4 by now left).
      assert (Li : forall b, Datatypes.S j <= b -> k1 + lost_in m1 (Datatypes.S j) b = k + lost_in m j b).
      { intros b Hb. rewrite E1, nan_ids_length. unfold lost_in. rewrite E2.
        rewrite (sum_over_ext (Datatypes.S j) b _ (fun c => sum_over 0 (List.length m) (lost m c))).
        2:{ intros c Hc. apply sum_over_ext. intros r _. apply Oth. lia. }
        unfold sum_over at 4. replace (b - j) with (Datatypes.S (b - Datatypes.S j)) by lia. cbn [seq map]. rewrite sum_cons.
        unfold sum_over at 2. lia. }
      split; [|split; [lia|split; [auto|split; [|split]]]].
      + rewrite F1. replace (j + List.length ((mu, sd) :: stats)) with (Datatypes.S j + List.length stats) by (cbn; lia). apply Li. lia.
      + intros a b H.
        assert (Q : cell m1 a b = cell m a b).
        { apply E4. destruct (Nat.eq_dec b j) as [->|]; [right|now left]. intros I. apply nan_ids_in in I. destruct I as [_ I]. congruence. }
        rewrite <- Q. apply F4. now rewrite Q.
      + intros a b H. cbn [List.length] in H. rewrite F5 by lia. apply E4. left. lia.
      + intros a b mu' sd' Ha N Hb E. destruct (Nat.eq_dec b j) as [->|Nb].
        * rewrite Nat.sub_diag in E. injection E as <- <-. rewrite F5 by (left; lia).
          unfold lost_in. rewrite sum_over_nil, Nat.add_0_r. apply E5. now apply nan_ids_pos.
        * replace (b - j) with (Datatypes.S (b - Datatypes.S j)) in E by lia. cbn in E.
          rewrite (F6 a b mu' sd'); auto; try lia.
          -- f_equal. rewrite Li by lia. f_equal. apply sum_over_ext. intros r _. now apply Oth.
          -- now rewrite E4 by now left.
  Qed.
End Fill.
Lemma fill_spec draw n m means sds k : rectangular n m -> List.length means = n -> List.length sds = n ->
  let (m', k') := fill_data draw n m means sds k in
  List.length m' = List.length m /\ rectangular n m' /\
  k' = k + missing_before m 0 n /\
  forall i j, i < List.length m -> j < n ->
    cell m' i j = if is_nan (cell m i j) then draw (k + missing_before m i j) (nth j means NaN) (nth j sds NaN) else cell m i j.
Proof.
  intros R Lm Ls. unfold fill_data. rewrite firstn_all2 by (rewrite combine_length; lia).
  assert (Lc : List.length (combine means sds) = n) by (rewrite combine_length; lia).
  pose proof (fill_columns_spec draw n (combine means sds) 0 m k R ltac:(lia)) as S.
  destruct (fill_columns draw 0 (combine means sds) (m, k)) as [m' k'].
  destruct S as (F1 & F2 & F3 & F4 & F5 & F6). rewrite Lc in *. split; auto. split; auto. split.
  - rewrite F1. unfold missing_before, lost_in. rewrite (sum_over_nil 0). cbn [Nat.add]. unfold lost. lia.
  - intros i j Hi Hj. destruct (is_nan (cell m i j)) eqn:E; [|now apply F4].
    rewrite (F6 i j (nth j means NaN) (nth j sds NaN)); auto; try lia.
    + f_equal. unfold missing_before, lost_in, lost. lia.
    + rewrite Nat.sub_0_r. rewrite <- (combine_nth means sds j NaN NaN) by lia. apply nth_error_nth'. lia.
Qed.

(** * Correlations *)
Section Corr.
  Variables (lg : flt -> flt) (pw : flt -> flt -> flt) (fit : list flt -> list flt -> result (flt * flt)).
  Lemma where_observed_all l : (forall x, In x l -> is_nan x = false) -> where_ (map observed l) = seq 0 (List.length l).
  Proof.
    rewrite where_eq. generalize 0 as k. induction l as [|x l IH]; intros k H; auto. cbn. unfold observed at 1.
    rewrite (H x (or_introl eq_refl)). cbn. f_equal. apply IH. intros; apply H; now right.
  Qed.
  Lemma pick_all ys : forall k l, l = skipn k ys -> pick ys (seq k (List.length l)) = Ok l.
  Proof.
    intros k l. revert k. induction l as [|y l IH]; intros k E; auto. cbn.
    assert (N : nth_error ys k = Some y) by (rewrite <- (Nat.add_0_r k), <- nth_error_skipn, <- E; reflexivity).
    rewrite N. cbn [bind]. unfold pick in IH. rewrite IH; [reflexivity|].
    clear -E. revert k E. induction ys as [|z ys IHy]; intros [|k] E; cbn in *; try discriminate; [congruence|].
    rewrite <- (IHy k E). reflexivity.
  Qed.
  Lemma filler_err xs ys : List.length xs = List.length ys -> forallb is_finite xs = true -> existsb is_nan ys = true ->
    filler pw fit xs ys = Err ValueError.
  Proof.
    intros L F N. unfold filler. rewrite where_observed_all.
    - rewrite (pick_all xs 0 xs) by reflexivity. cbn [bind]. rewrite L, (pick_all ys 0 ys) by reflexivity. cbn [bind].
      unfold curve_fit. rewrite F. cbn [andb].
      replace (forallb is_finite ys) with false; [reflexivity|]. symmetry. apply existsb_exists in N. destruct N as (y & I & Ny).
      apply not_true_is_false. intros H. rewrite forallb_forall in H. specialize (H y I). destruct y; discriminate.
    - intros x I. rewrite forallb_forall in F. specialize (F x I). destruct x; auto; discriminate.
  Qed.
  Lemma from_first_finite xs : xs <> [] -> forallb is_finite xs = true ->
    exists l, from_first xs = Ok l /\ List.length l = List.length xs /\ forallb is_finite l = true.
  Proof.
    intros N F. destruct xs as [|x0 xs]; [congruence|]. eexists. split; [reflexivity|]. split; [now rewrite map_length|].
    rewrite forallb_forall in F |- *. intros y I. apply in_map_iff in I. destruct I as (x & <- & I).
    pose proof (F x I) as Fx. pose proof (F x0 (or_introl eq_refl)) as F0. destruct x, x0; try discriminate; reflexivity.
  Qed.
  Lemma finite_sub (l k : list flt) : (forall x, In x k -> In x l) -> forallb is_finite l = true -> forallb is_finite k = true.
  Proof. rewrite !forallb_forall. auto. Qed.
  Lemma existsb_rev {A} (f : A -> bool) l : existsb f (rev l) = existsb f l.
  Proof.
    apply eq_true_iff_eq. rewrite !existsb_exists. split; intros (x & I & E); exists x; split; auto; [now apply in_rev|now apply in_rev in I].
  Qed.
  Lemma fill_row_spec xs row r : List.length r = List.length xs -> forallb is_finite xs = true ->
    fill_row pw fit xs row r = if existsb is_nan r then Err ValueError else Ok r.
  Proof.
    intros L F. unfold fill_row, missing. 
    assert (Q : existsb is_nan r = (existsb is_nan (firstn row r) || existsb is_nan (skipn row r))%bool)
      by (rewrite <- existsb_app, firstn_skipn; reflexivity). rewrite Q.
    destruct (existsb is_nan (skipn row r)) eqn:Nr.
    - rewrite orb_true_r. destruct (from_first_finite (skipn row xs)) as (l & -> & Ll & Fl).
      + intros E. assert (K : List.length (skipn row xs) = List.length (skipn row r)) by (rewrite !skipn_length; lia).
        rewrite E in K. destruct (skipn row r); [discriminate Nr|discriminate K].
      + eapply finite_sub; [|exact F]. intros x I. rewrite <- (firstn_skipn row xs). apply in_or_app. now right.
      + cbn [bind]. rewrite filler_err; auto. rewrite Ll, !skipn_length. lia.
    - rewrite orb_false_r. cbn [bind]. rewrite firstn_skipn. rewrite existsb_rev.
      destruct (existsb is_nan (firstn row r)) eqn:Nl.
      + destruct (from_first_finite (rev (firstn row xs))) as (l & -> & Ll & Fl).
        * intros E. assert (K : List.length (rev (firstn row xs)) = List.length (firstn row r)) by (rewrite rev_length, !firstn_length; lia).
          rewrite E in K. destruct (firstn row r); [discriminate Nl|discriminate K].
        * eapply finite_sub; [|exact F]. intros x I. apply in_rev in I. rewrite <- (firstn_skipn row xs). apply in_or_app. now left.
        * cbn [bind]. rewrite filler_err; auto; [|now rewrite existsb_rev]. rewrite Ll, !rev_length, !firstn_length. lia.
      + cbn [bind]. now rewrite firstn_skipn.
  Qed.
  Lemma fill_corr_spec xx m : rectangular (List.length xx) m -> (forall x, In x xx -> is_finite (lg x) = true) ->
    fill_corr lg pw fit xx m = if existsb (existsb is_nan) m then Err ValueError else Ok m.
  Proof.
    intros R F. unfold fill_corr.
    assert (Fx : forallb is_finite (map lg xx) = true).
    { apply forallb_forall. intros y I. apply in_map_iff in I. destruct I as (x & <- & I). auto. }
    generalize 0 as row. induction m as [|r m IH]; intros row; auto. cbn [fill_rows existsb].
    rewrite fill_row_spec; auto.
    - destruct (existsb is_nan r); auto. cbn [bind orb]. rewrite IH by (intros q I; apply R; now right).
      now destruct (existsb (existsb is_nan) m).
    - rewrite map_length. apply R. now left.
  Qed.
End Corr.
