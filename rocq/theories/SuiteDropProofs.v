(* Proofs about the choice made by PeaksSuite._drop. *)
From Verif Require Import PyFacts NumFacts SuiteModel SuiteSpec SuiteStatProofs SuiteDropSpec.
From Coq Require Import Sorted.
Local Open Scope nat_scope.
Local Open Scope list_scope.

Definition remaining (idx : list nat) (n : nat) : list nat := kept (keep idx n).
Lemma delete_remaining {A} (d : A) idx l : delete idx l = map (fun i => nth i l d) (remaining idx (List.length l)).
Proof. rewrite delete_select. unfold remaining. apply select_kept. now rewrite keep_length. Qed.
Lemma In_remaining idx n i : In i (remaining idx n) <-> i < n /\ ~ In i idx.
Proof.
  unfold remaining. rewrite kept_In, keep_length. split; intros [H K]; (split; [exact H|]).
  - rewrite keep_nth in K by exact H. intros I. apply existsb_nat in I. now rewrite I in K.
  - rewrite keep_nth by exact H. destruct (existsb (Nat.eqb i) idx) eqn:E; [|reflexivity]. apply existsb_nat in E. contradiction.
Qed.
Lemma remaining_sorted idx n : StronglySorted lt (remaining idx n).
Proof. apply kept_sorted. Qed.
Lemma counts l : missing_in l + observed_in l = List.length l.
Proof. unfold missing_in, observed_in. induction l as [|a l IH]; cbn [filter List.length]; [reflexivity|]. destruct (is_nan a); cbn [negb List.length]; lia. Qed.
Lemma count_observed l : List.length l - count_nan l = observed_in l.
Proof. pose proof (counts l). unfold missing_in, count_nan in *. lia. Qed.
Lemma drop_test_spec pct cnt l : l <> [] -> (drop_test pct cnt l = true <-> too_sparse pct cnt l).
Proof.
  intros N. unfold drop_test, too_sparse. rewrite count_observed, orb_true_iff, Z.ltb_lt, Qcltb_lt. intuition.
Qed.
Lemma total_zero m n : Forall (fun r : list flt => List.length r = n) m -> total m = List.length m * n.
Proof. intros F. unfold total. induction F as [|r m Hr F IH]; cbn [List.concat List.length]; [reflexivity|]. rewrite app_length, IH, Hr. lia. Qed.
Lemma In_drop_uniform m n pct cnt i : Forall (fun r => List.length r = n) m ->
  (In i (drop_indices m pct cnt) <-> i < List.length m /\ too_sparse pct cnt (nth i m [])).
Proof.
  intros F. pose proof (total_zero m n F) as T. destruct (Nat.eq_dec (total m) 0) as [Z|Z].
  - rewrite (drop_indices_empty m pct cnt Z). split; [intros []|]. intros [Hi [N _]]. exfalso. apply N.
    assert (L : List.length (nth i m []) = n) by (rewrite Forall_forall in F; apply F, nth_In, Hi).
    destruct (nth i m []); [reflexivity|]. cbn in L. rewrite T in Z. destruct n; [lia|]. destruct m; cbn in *; lia.
  - rewrite (In_drop_indices m pct cnt i Z). split; intros [Hi H]; (split; [exact Hi|]).
    + apply drop_test_spec; [|exact H]. intros E. assert (L : List.length (nth i m []) = n) by (rewrite Forall_forall in F; apply F, nth_In, Hi).
      rewrite E in L. cbn in L. subst n. rewrite Nat.mul_0_r in T. contradiction.
    + apply drop_test_spec; [apply H|exact H].
Qed.
Lemma utility_gain m is_ js : utility m (part m is_ js) = gain m is_ js.
Proof.
  unfold utility, gain, nans, total. rewrite <- (counts (concat m)), <- (counts (concat (part m is_ js))).
  change (count_nan (concat m)) with (missing_in (concat m)). change (count_nan (concat (part m is_ js))) with (missing_in (concat (part m is_ js))).
  rewrite !Nat2Z.inj_add. 
  generalize (missing_in (concat m)) (missing_in (concat (part m is_ js))) (observed_in (concat m)) (observed_in (concat (part m is_ js))).
  intros a b c d. unfold QcN. f_equal; [apply QcZ_sub|]. f_equal. rewrite <- QcZ_1, <- QcZ_sub, <- QcZ_add. f_equal. lia.
Qed.
Lemma part_map m is_ js : part m is_ js = map (fun i => map (fun j => nth j (nth i m []) NaN) js) is_.
Proof. reflexivity. Qed.
Lemma seq_entries m i nc : List.length (nth i m []) = nc -> row_part m i (seq 0 nc) = nth i m [].
Proof.
  intros <-. unfold row_part, entry. apply nth_ext with (d := NaN) (d' := NaN); [now rewrite map_length, seq_length|].
  intros k Hk. rewrite map_length, seq_length in Hk. rewrite (nth_map_seq (fun j => nth j (nth i m []) NaN) 0 _ k NaN Hk). reflexivity.
Qed.
Lemma column_rows (m : list (list flt)) j is_ : map (fun r => nth j r NaN) (map (fun i => nth i m []) is_) = column_part m j is_.
Proof. unfold column_part, entry. now rewrite map_map. Qed.
Lemma all_rows (m : list (list flt)) : map (fun i => nth i m []) (seq 0 (List.length m)) = m.
Proof.
  apply nth_ext with (d := []) (d' := []); [now rewrite map_length, seq_length|].
  intros k Hk. rewrite map_length, seq_length in Hk. now rewrite (nth_map_seq (fun i => nth i m []) 0 _ k [] Hk).
Qed.
Lemma transpose_uniform nc (m : list (list flt)) : Forall (fun r => List.length r = List.length m) (transpose nc m).
Proof. apply Forall_forall. intros r I. apply in_map_iff in I. destruct I as (j & <- & _). apply map_length. Qed.
Lemma transpose_nth nc m j : j < nc -> nth j (transpose nc m) [] = map (fun r => nth j r NaN) m.
Proof. intros H. unfold transpose, range. now rewrite (nth_map_seq (fun j => map (fun r => nth j r NaN) m) 0 nc j [] H). Qed.
Lemma transpose_length nc m : List.length (transpose nc m) = nc.
Proof. unfold transpose, range. now rewrite map_length, seq_length. Qed.

Lemma drop_option_1_spec pr pc cnt xx m : rectangular (List.length xx) m ->
  exists is_ js, columns_first pr pc cnt (List.length m) (List.length xx) m is_ js /\
    drop_option_1 pr pc cnt xx m = (map (fun j => nth j xx NaN) js, part m is_ js).
Proof.
  intros R. unfold rectangular in R. unfold drop_option_1. set (cols := drop_indices _ pc cnt). set (js := remaining cols (List.length xx)).
  assert (E1 : map (delete cols) m = map (fun r => map (fun j => nth j r NaN) js) m).
  { apply map_ext_in. intros r I. rewrite Forall_forall in R. rewrite (delete_remaining NaN). now rewrite (R r I). }
  cbv zeta. rewrite E1. set (m1 := map _ m). set (rws := drop_indices m1 pr 0). set (is_ := remaining rws (List.length m)).
  assert (L1 : List.length m1 = List.length m) by apply map_length.
  assert (N1 : forall i, i < List.length m -> nth i m1 [] = row_part m i js).
  { intros i Hi. unfold m1. rewrite (nth_map_lt _ m i [] []) by exact Hi. reflexivity. }
  exists is_, js. split; [split; split; try apply remaining_sorted|].
  - intros j. unfold js. rewrite In_remaining. unfold cols. rewrite (In_drop_uniform _ (List.length m)) by apply transpose_uniform.
    rewrite transpose_length. split; intros [Hj H]; (split; [exact Hj|]).
    + intros T. apply H. split; [exact Hj|]. rewrite transpose_nth by exact Hj. rewrite <- column_rows, all_rows in T. exact T.
    + intros [_ T]. apply H. rewrite transpose_nth in T by exact Hj. now rewrite <- column_rows, all_rows.
  - intros i. unfold is_. rewrite In_remaining. unfold rws. rewrite (In_drop_uniform m1 (List.length js)).
    + rewrite L1. split; intros [Hi H]; (split; [exact Hi|]).
      * intros T. apply H. split; [exact Hi|]. now rewrite N1.
      * intros [_ T]. apply H. now rewrite N1 in T.
    + apply Forall_forall. intros r I. apply in_map_iff in I. destruct I as (r' & <- & _). apply map_length.
  - rewrite (delete_remaining NaN cols xx), (delete_remaining [] rws m1), L1. fold js is_. f_equal.
    rewrite part_map. apply map_ext_in. intros i I. apply In_remaining in I. now rewrite N1.
Qed.
Lemma drop_option_2_spec pr pc cnt xx m : rectangular (List.length xx) m ->
  exists is_ js, rows_first pr pc cnt (List.length m) (List.length xx) m is_ js /\
    drop_option_2 pr pc cnt xx m = (map (fun j => nth j xx NaN) js, part m is_ js).
Proof.
  intros R. unfold rectangular in R. unfold drop_option_2. cbv zeta. set (rws := drop_indices m pr 0). set (is_ := remaining rws (List.length m)).
  rewrite (delete_remaining [] rws m). fold is_. set (m2 := map _ is_). set (cols := drop_indices _ pc cnt). set (js := remaining cols (List.length xx)).
  exists is_, js. split; [split; split; try apply remaining_sorted|].
  - intros i. unfold is_. rewrite In_remaining. unfold rws. rewrite (In_drop_uniform m _ pr 0 i R). 
    rewrite Forall_forall in R. split; intros [Hi H]; (split; [exact Hi|]).
    + intros T. apply H. split; [exact Hi|]. rewrite seq_entries in T; [exact T|]. now apply R, nth_In.
    + intros [_ T]. apply H. rewrite seq_entries; [exact T|]. now apply R, nth_In.
  - intros j. unfold js. rewrite In_remaining. unfold cols. rewrite (In_drop_uniform _ (List.length m2)) by apply transpose_uniform.
    rewrite transpose_length. split; intros [Hj H]; (split; [exact Hj|]).
    + intros T. apply H. split; [exact Hj|]. rewrite transpose_nth by exact Hj. unfold m2. now rewrite column_rows.
    + intros [_ T]. apply H. rewrite transpose_nth in T by exact Hj. unfold m2 in T. now rewrite column_rows in T.
  - rewrite (delete_remaining NaN cols xx). fold js. f_equal. unfold m2. rewrite map_map, part_map. apply map_ext_in.
    intros i I. apply In_remaining in I. rewrite (delete_remaining NaN cols (nth i m [])). rewrite Forall_forall in R.
    rewrite (R (nth i m [])) by (apply nth_In; tauto). reflexivity.
Qed.
Lemma drop_choice pr pc cnt xx m : rectangular (List.length xx) m ->
  exists is1 js1 is2 js2, columns_first pr pc cnt (List.length m) (List.length xx) m is1 js1 /\
    rows_first pr pc cnt (List.length m) (List.length xx) m is2 js2 /\
    ((gain m is2 js2 < gain m is1 js1)%Qc /\ drop pr pc cnt xx m = (map (fun j => nth j xx NaN) js1, part m is1 js1) \/
     (gain m is1 js1 <= gain m is2 js2)%Qc /\ drop pr pc cnt xx m = (map (fun j => nth j xx NaN) js2, part m is2 js2)).
Proof.
  intros R. destruct (drop_option_1_spec pr pc cnt xx m R) as (is1 & js1 & C1 & E1). destruct (drop_option_2_spec pr pc cnt xx m R) as (is2 & js2 & C2 & E2).
  exists is1, js1, is2, js2. split; [exact C1|]. split; [exact C2|]. unfold drop. rewrite E1, E2. cbn [snd]. rewrite !utility_gain.
  destruct (Qcltb (gain m is2 js2) (gain m is1 js1)) eqn:B.
  - left. split; [now apply Qcltb_lt|reflexivity].
  - right. split; [|reflexivity]. apply Qcnot_lt_le. intros H. apply Qcltb_lt in H. congruence.
Qed.
