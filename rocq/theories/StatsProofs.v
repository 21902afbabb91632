(* Proofs about the Statistics class. *)
From Verif Require Import StatsModel StatsSpec PyFacts NumFacts SuiteProofs.
From Coq Require Import Permutation Sorting.Sorted.
Local Open Scope nat_scope.
Local Open Scope list_scope.

(** * Positions of true entries *)
Fixpoint where_from (k : nat) (mask : list bool) : list nat :=
  match mask with
  | [] => []
  | b :: t => if b then k :: where_from (S k) t else where_from (S k) t
  end.
Lemma where_eq mask : where_ mask = where_from 0 mask.
Proof.
  unfold where_, range. generalize 0 as k. induction mask as [|b t IH]; intros k; auto.
  cbn [List.length seq combine filter fst where_from]. destruct b; cbn [map snd]; now rewrite IH.
Qed.
Lemma where_from_in mask : forall k i, In i (where_from k mask) <-> k <= i /\ nth (i - k) mask false = true.
Proof.
  induction mask as [|b t IH]; intros k i; cbn [where_from].
  - split; [intros []|]. intros [_ H]. destruct (i - k); discriminate.
  - assert (K : k <= i -> i <> k -> i - k = S (i - S k)) by lia.
    destruct b; cbn [In]; rewrite ?IH.
    + split.
      * intros [<-|[L H]]; [rewrite Nat.sub_diag; auto|]. split; [lia|]. now rewrite K by lia.
      * intros [L H]. destruct (Nat.eq_dec i k) as [->|N]; [now left|]. right. rewrite K in H by lia. split; [lia|exact H].
    + split.
      * intros [L H]. split; [lia|]. now rewrite K by lia.
      * intros [L H]. destruct (Nat.eq_dec i k) as [->|N]; [rewrite Nat.sub_diag in H; discriminate|].
        rewrite K in H by lia. split; [lia|exact H].
Qed.
Lemma where_in mask i : In i (where_ mask) <-> nth i mask false = true.
Proof. rewrite where_eq, where_from_in, Nat.sub_0_r. intuition lia. Qed.
Lemma where_lt mask i : In i (where_ mask) -> i < List.length mask.
Proof.
  rewrite where_in. intros H. destruct (Nat.lt_ge_cases i (List.length mask)); auto. rewrite nth_overflow in H by auto. discriminate.
Qed.
Lemma where_sorted mask : StronglySorted lt (where_ mask).
Proof.
  rewrite where_eq. generalize 0 as k. induction mask as [|b t IH]; intros k; [constructor|].
  cbn. destruct b; auto. constructor; auto. apply Forall_forall. intros i I. apply where_from_in in I. lia.
Qed.
(** * _sort *)
Lemma lead_here r j : j <= lead r -> is_nan (nth j r NaN) = false -> lead r = j.
Proof.
  revert j. induction r as [|x r IH]; intros j L O; cbn in *; [destruct j; discriminate|].
  destruct (is_nan x) eqn:E; destruct j; auto; try lia; try congruence. f_equal. apply IH; auto. lia.
Qed.
Lemma lead_after r j : j <= lead r -> j < List.length r -> is_nan (nth j r NaN) = true -> S j <= lead r.
Proof.
  revert j. induction r as [|x r IH]; intros j L N O; cbn in *; [lia|].
  destruct (is_nan x) eqn:E; destruct j; try lia; try congruence. apply le_n_S, IH; auto; lia.
Qed.
Lemma lead_le r : lead r <= List.length r.
Proof. induction r as [|x r IH]; cbn; auto. destruct (is_nan x); lia. Qed.
Lemma lead_value r : lead r < List.length r -> is_nan (nth (lead r) r NaN) = false.
Proof. induction r as [|x r IH]; cbn; [lia|]. destruct (is_nan x) eqn:E; auto. intros. apply IH. lia. Qed.
Lemma lead_before r j : j < lead r -> is_nan (nth j r NaN) = true.
Proof. revert j. induction r as [|x r IH]; cbn; [lia|]. intros j. destruct (is_nan x) eqn:E; destruct j; auto; try lia. intros. apply IH. lia. Qed.
Lemma swap_length i j m : List.length (swap i j m) = List.length m.
Proof. unfold swap. now rewrite !set_nth_length. Qed.
Lemma swap_nth i j m p : i < List.length m -> j < List.length m ->
  nth p (swap i j m) [] = if Nat.eqb p j then nth i m [] else if Nat.eqb p i then nth j m [] else nth p m [].
Proof.
  intros Li Lj. unfold swap. rewrite nth_set_nth, set_nth_length. destruct (Nat.ltb_spec j (List.length m)); [|lia].
  rewrite andb_true_r. destruct (Nat.eqb p j); auto. rewrite nth_set_nth. destruct (Nat.ltb_spec i (List.length m)); [|lia].
  now rewrite andb_true_r.
Qed.
Lemma swap_permutation i j m : i < List.length m -> j < List.length m -> Permutation m (swap i j m).
Proof.
  intros Li Lj. apply (Permutation_nth _ _ []). split; [apply swap_length|].
  exists (fun p => if Nat.eqb p j then i else if Nat.eqb p i then j else p). split; [|split].
  - intros p Hp. destruct (Nat.eqb_spec p j), (Nat.eqb_spec p i); lia.
  - intros p q Hp Hq. destruct (Nat.eqb_spec p j), (Nat.eqb_spec p i), (Nat.eqb_spec q j), (Nat.eqb_spec q i); lia.
  - intros p Hp. rewrite swap_nth by auto. destruct (Nat.eqb p j); auto. destruct (Nat.eqb p i); auto.
Qed.
Lemma rectangular_permutation n m m' : Permutation m m' -> rectangular n m -> rectangular n m'.
Proof. intros P R r I. apply R. eapply Permutation_in; [apply Permutation_sym; eauto|auto]. Qed.
Lemma place_spec n j ids : j < n -> StronglySorted lt ids -> forall c m, rectangular n m ->
  (forall v, In v ids -> c <= v < List.length m) ->
  (forall p, c <= p < List.length m -> (is_nan (cell m p j) = false <-> In p ids)) ->
  (forall p, c <= p < List.length m -> j <= lead (nth p m [])) ->
  c <= List.length m ->
  let (c', m') := place ids c m in
  Permutation m m' /\ c <= c' <= List.length m /\ (forall p, p < c -> nth p m' [] = nth p m []) /\
  (forall p, c <= p < c' -> lead (nth p m' []) = j) /\
  (forall p, c' <= p < List.length m -> S j <= lead (nth p m' [])).
Proof.
  intros Hj. induction ids as [|v ids IH]; intros Ss c m R B V L Lc.
  - cbn [place]. split; [apply Permutation_refl|]. split; [lia|]. split; auto. split; [intros; lia|].
    intros p Hp. apply lead_after; auto.
    + rewrite (R (nth p m [])); auto. apply nth_In. lia.
    + destruct (is_nan (nth j (nth p m []) NaN)) eqn:E; auto. destruct (proj1 (V p Hp) E).
  - cbn [place]. inversion Ss as [|? ? Ss' Fv]; subst. rewrite Forall_forall in Fv.
    pose proof (B v (or_introl eq_refl)) as Hv.
    assert (Lm : List.length (swap c v m) = List.length m) by apply swap_length.
    assert (P : Permutation m (swap c v m)) by (apply swap_permutation; lia).
    specialize (IH Ss' (S c) (swap c v m)). destruct (place ids (S c) (swap c v m)) as [c' m'] eqn:E.
    destruct IH as (P' & Cc & Pre & Mid & Post).
    + eapply rectangular_permutation; eauto.
    + intros w Iw. specialize (Fv w Iw). specialize (B w (or_intror Iw)). rewrite Lm. lia.
    + intros p Hp. rewrite Lm in Hp. unfold cell. rewrite swap_nth by lia.
      destruct (Nat.eqb_spec p v) as [->|Nv]; [|destruct (Nat.eqb_spec p c) as [->|Nc]; [lia|]].
      * split; intros H.
        -- exfalso. apply (V c) in H; [|lia]. destruct H as [H|H]; [lia|]. specialize (Fv c H). lia.
        -- specialize (Fv v H). lia.
      * fold (cell m p j). rewrite V by lia. cbn. intuition congruence.
    + intros p Hp. rewrite Lm in Hp. rewrite swap_nth by lia.
      destruct (Nat.eqb_spec p v); [apply L; lia|]. destruct (Nat.eqb_spec p c); [lia|apply L; lia].
    + rewrite Lm. lia.
    + rewrite Lm in *. split; [eapply Permutation_trans; eauto|]. split; [lia|]. split; [|split; auto].
      * intros p Hp. rewrite Pre by lia. rewrite swap_nth by lia. destruct (Nat.eqb_spec p v); [lia|]. destruct (Nat.eqb_spec p c); [lia|auto].
      * intros p Hp. destruct (Nat.eq_dec p c) as [->|N]; [|apply Mid; lia].
        rewrite Pre by lia. rewrite swap_nth by lia.
        assert (K : (if Nat.eqb c v then nth c m [] else if Nat.eqb c c then nth v m [] else nth c m []) = nth v m []).
        { rewrite Nat.eqb_refl. destruct (Nat.eqb_spec c v) as [->|]; auto. }
        rewrite K. apply lead_here; [apply L; lia|]. apply (V v); [lia|now left].
Qed.
Lemma val_ids_in c j m p : In p (val_ids c (column j m)) <-> c <= p < List.length m /\ is_nan (cell m p j) = false.
Proof.
  unfold val_ids. rewrite where_in. destruct (Nat.lt_ge_cases p (List.length m)) as [Hp|Hp].
  - rewrite nth_map2 with (da := NaN) (db := 0); unfold column; rewrite ?map_length; unfold range; rewrite ?seq_length; auto.
    rewrite seq_nth by auto. rewrite (nth_map_lt _ m p NaN []) by auto. fold (cell m p j). unfold observed.
    rewrite andb_true_iff, negb_true_iff, Nat.leb_le. cbn. intuition lia.
  - rewrite nth_overflow; [split; [discriminate|lia]|]. rewrite length_map2. unfold column, range. rewrite seq_length, map_length. lia.
Qed.
Lemma sort_columns_spec n k : forall j c m, j + k = n -> rectangular n m -> c <= List.length m ->
  (forall p q, p < q < c -> lead (nth p m []) <= lead (nth q m [])) ->
  (forall p, p < c -> lead (nth p m []) <= j) ->
  (forall p, c <= p < List.length m -> j <= lead (nth p m [])) ->
  Permutation m (sort_columns (seq j k) c m) /\
  (forall p q, p < q < List.length m -> lead (nth p (sort_columns (seq j k) c m) []) <= lead (nth q (sort_columns (seq j k) c m) [])).
Proof.
  induction k as [|k IH]; intros j c m E R Lc So Lo Hi; cbn [seq sort_columns].
  - split; [apply Permutation_refl|]. intros p q Hpq. destruct (Nat.lt_ge_cases q c) as [Hq|Hq]; [apply So; lia|].
    assert (Lq : j <= lead (nth q m [])) by (apply Hi; lia).
    destruct (Nat.lt_ge_cases p c) as [Hp|Hp]; [specialize (Lo p Hp); lia|].
    pose proof (lead_le (nth p m [])). rewrite (R (nth p m [])) in H by (apply nth_In; lia). lia.
  - pose proof (place_spec n j (val_ids c (column j m)) ltac:(lia) (where_sorted _) c m R) as S.
    destruct (place (val_ids c (column j m)) c m) as [c' m'].
    destruct S as (P & Cc & Pre & Mid & Post); auto.
    + intros v I. apply val_ids_in in I. lia.
    + intros p Hp. rewrite val_ids_in. tauto.
    + assert (Lm : List.length m' = List.length m) by (apply Permutation_length, Permutation_sym, P).
      destruct (IH (S j) c' m') as [P2 S2]; rewrite ?Lm in *; try lia; auto.
      * eapply rectangular_permutation; eauto.
      * intros p q Hpq. destruct (Nat.lt_ge_cases q c) as [Hq|Hq].
        -- rewrite !Pre by lia. apply So. lia.
        -- rewrite (Mid q) by lia. destruct (Nat.lt_ge_cases p c); [rewrite Pre by lia; auto|]. rewrite Mid by lia. lia.
      * intros p Hp. destruct (Nat.lt_ge_cases p c) as [Hq|Hq]; [rewrite Pre by lia; specialize (Lo p Hq); lia|].
        rewrite Mid by lia. lia.
      * split; [eapply Permutation_trans; eauto|]. auto.
Qed.
Lemma sort_spec n m : rectangular n m ->
  Permutation m (sort_rows n m) /\
  (forall p q, p < q < List.length m -> lead (nth p (sort_rows n m) []) <= lead (nth q (sort_rows n m) [])).
Proof. intros R. unfold sort_rows, range. apply (sort_columns_spec n n 0 0 m); auto; intros; lia. Qed.
(** the first cell of a sorted matrix *)
Lemma sort_first n m i : rectangular n m -> i < List.length m -> value m i 0 -> value (sort_rows n m) 0 0.
Proof.
  intros R Hi V. destruct (sort_spec n m R) as [P So].
  assert (I : In (nth i m []) (sort_rows n m)) by (eapply Permutation_in; [exact P|now apply nth_In]).
  apply (In_nth _ _ []) in I. destruct I as (q & Hq & E). rewrite <- (Permutation_length P) in Hq.
  assert (Lq : lead (nth q (sort_rows n m) []) = 0) by (apply lead_here; [lia|rewrite E; exact V]).
  assert (L0 : lead (nth 0 (sort_rows n m) []) = 0).
  { destruct q; auto. specialize (So 0 (S q) ltac:(lia)). lia. }
  unfold value, cell. rewrite <- L0 at 1. apply lead_value. rewrite L0.
  rewrite (rectangular_permutation n m _ P R (nth 0 (sort_rows n m) [])) by (apply nth_In; rewrite <- (Permutation_length P); lia).
  unfold value, cell in V. rewrite <- (R (nth i m [])) by now apply nth_In.
  destruct (nth i m []); [discriminate|cbn; lia].
Qed.
