(* Proofs about SuiteModel.v: suites, histories, files, trimming. *)
From Verif Require Import PyFacts NumFacts PeaksModel PeaksSpec PeaksProofs PeaksJsonProofs.
From Verif Require Import SuiteModel SuiteSpec.
Local Open Scope nat_scope.
Local Open Scope list_scope.

Lemma existsb_eqb k l : existsb (String.eqb k) l = true <-> In k l.
Proof.
  rewrite existsb_exists. split.
  - intros (x & Hx & E). apply String.eqb_eq in E. subst. auto.
  - intros H. exists k. split; [auto|apply String.eqb_refl].
Qed.

Lemma NoDup_app_remove_r {A} (l m : list A) : NoDup (l ++ m) -> NoDup l.
Proof.
  induction l as [|a l IH]; cbn; intros H; [constructor|].
  inversion H; subst. constructor; [|auto]. rewrite in_app_iff in *. tauto.
Qed.
Section Suites.
  Context {M : Type} (ident : M -> string).
  Lemma append_all_ok s ms : NoDup (ids s ++ map ident ms) ->
    append_all ident s ms = Ok (mkSuite (members s ++ ms) (ids s ++ map ident ms)).
  Proof.
    revert s. induction ms as [|m ms IH]; intros s H; cbn [append_all map].
    - rewrite !app_nil_r. destruct s; reflexivity.
    - unfold append. destruct (existsb _ (ids s)) eqn:E.
      + exfalso. apply existsb_eqb in E. cbn [map] in H.
        apply NoDup_remove_2 in H. apply H. apply in_or_app. auto.
      + cbn [bind]. rewrite IH; cbn [members ids].
        * rewrite <- !app_assoc. reflexivity.
        * rewrite <- app_assoc. exact H.
  Qed.
  Lemma NoDup_snoc {A} (l : list A) a : NoDup l -> ~ In a l -> NoDup (l ++ [a]).
  Proof.
    intros N H. induction N as [|b l Hb N IH]; cbn.
    - repeat constructor; auto.
    - cbn in H. constructor; [|apply IH; tauto]. rewrite in_app_iff. cbn. intuition.
  Qed.
  Lemma append_all_err s ms : NoDup (ids s) -> ~ NoDup (ids s ++ map ident ms) ->
    append_all ident s ms = Err KeyError.
  Proof.
    revert s. induction ms as [|m ms IH]; intros s N H; cbn [append_all map] in *.
    - rewrite app_nil_r in H. contradiction.
    - unfold append. destruct (existsb _ (ids s)) eqn:E; [reflexivity|]. cbn [bind].
      apply IH; cbn [ids].
      + apply NoDup_snoc; auto. intros Hi. apply existsb_eqb in Hi. congruence.
      + rewrite <- app_assoc. exact H.
  Qed.
  Lemma from_peaks_ok ms : ms <> [] -> NoDup (map ident ms) ->
    from_peaks ident ms = Ok (mkSuite ms (map ident ms)).
  Proof.
    destruct ms as [|m ms]; [congruence|]. intros _ N. cbn [from_peaks].
    rewrite append_all_ok; [reflexivity|exact N].
  Qed.
  Lemma from_peaks_err ms : ms <> [] -> ~ NoDup (map ident ms) ->
    from_peaks ident ms = Err KeyError.
  Proof.
    destruct ms as [|m ms]; [congruence|]. intros _ N. cbn [from_peaks].
    apply append_all_err; [repeat constructor; auto|exact N].
  Qed.
  Lemma append_suites_ok s ss : NoDup (ids s ++ map ident (concat (map members ss))) ->
    append_suites ident s ss
    = Ok (mkSuite (members s ++ concat (map members ss)) (ids s ++ map ident (concat (map members ss)))).
  Proof.
    revert s. induction ss as [|s' ss IH]; intros s H; cbn [append_suites map concat] in *.
    - cbn. rewrite !app_nil_r. destruct s; reflexivity.
    - rewrite map_app, app_assoc in H. rewrite append_all_ok.
      2:{ clear - H. apply NoDup_app_remove_r in H. exact H. }
      cbn [bind]. rewrite IH; cbn [members ids]; [|exact H].
      rewrite map_app, !app_assoc. reflexivity.
  Qed.
  Lemma NoDup_string_dec (l : list string) : NoDup l \/ ~ NoDup l.
  Proof. destruct (ListDec.NoDup_dec string_dec l); auto. Qed.
  Lemma append_suites_err s ss : NoDup (ids s) -> ~ NoDup (ids s ++ map ident (concat (map members ss))) ->
    append_suites ident s ss = Err KeyError.
  Proof.
    revert s. induction ss as [|s' ss IH]; intros s N H; cbn [append_suites map concat] in *.
    - rewrite app_nil_r in H. contradiction.
    - rewrite map_app, app_assoc in H.
      destruct (NoDup_string_dec (ids s ++ map ident (members s'))) as [D|D].
      + rewrite append_all_ok by auto. cbn [bind]. apply IH; cbn [ids]; auto.
      + rewrite append_all_err by auto. reflexivity.
  Qed.
  Lemma from_peakssuite_ok s ss : members s <> [] ->
    NoDup (map ident (concat (map members (s :: ss)))) ->
    from_peakssuite ident (s :: ss)
    = Ok (mkSuite (concat (map members (s :: ss))) (map ident (concat (map members (s :: ss))))).
  Proof.
    intros H N. cbn [from_peakssuite map concat] in *. rewrite map_app in *.
    rewrite from_peaks_ok; auto.
    2:{ apply NoDup_app_remove_r in N. exact N. }
    cbn [bind]. rewrite append_suites_ok; auto.
  Qed.
  Lemma from_peakssuite_err s ss : members s <> [] ->
    ~ NoDup (map ident (concat (map members (s :: ss)))) ->
    from_peakssuite ident (s :: ss) = Err KeyError.
  Proof.
    intros H N. cbn [from_peakssuite map concat] in *. rewrite map_app in *.
    destruct (NoDup_string_dec (map ident (members s))) as [D|D].
    - rewrite from_peaks_ok by auto. cbn [bind]. apply append_suites_err; auto.
    - rewrite from_peaks_err by auto. reflexivity.
  Qed.
End Suites.

(** * Histories *)

Lemma do_reject_identifier p x : identifier (fst (do_reject p x)) = identifier p.
Proof.
  assert (R : forall b, identifier (fst (reject p b)) = identifier p).
  { intros b. unfold reject. destruct (shape_eqb _ _); reflexivity. }
  destruct x; cbn [do_reject]; unfold reject_limits, reject_box.
  - destruct (limits_mask p attr lo hi); auto.
  - destruct (box_mask p xt xl yt yl); auto.
Qed.
Lemma set_nth_length {A} n (a : A) l : List.length (set_nth n a l) = List.length l.
Proof. revert n; induction l as [|b l IH]; intros [|n]; cbn; auto. Qed.
Lemma nth_set_nth {A} n (a d : A) l i :
  nth i (set_nth n a l) d = if (i =? n) && (n <? List.length l) then a else nth i l d.
Proof.
  revert n i. induction l as [|b l IH]; intros n i.
  - cbn [set_nth]. rewrite andb_comm. cbn. destruct n; reflexivity.
  - destruct n, i; cbn [set_nth nth]; auto.
    rewrite IH. cbn [List.length]. change (S i =? S n) with (i =? n).
    replace (S n <? S (List.length l)) with (n <? List.length l); [reflexivity|].
    apply eq_true_iff_eq. rewrite !Nat.ltb_lt. lia.
Qed.
Lemma In_set_nth {A} n (a b : A) l : In b (set_nth n a l) -> b = a \/ In b l.
Proof.
  revert n. induction l as [|c l IH]; intros [|n]; cbn; auto.
  - intros [<-|H]; auto.
  - intros [<-|H]; auto. apply IH in H. tauto.
Qed.

Definition suite_ok (w : world) (s : suite nat) : Prop :=
  members s <> [] /\ Forall (fun r => r < List.length (objs w)) (members s)
  /\ NoDup (ids s) /\ ids s = map (ident_of w) (members s).
Definition world_ok (w : world) : Prop := Forall (suite_ok w) (suites w).

(* two worlds with the same identifiers *)
Definition same_ids (w w' : world) : Prop :=
  List.length (objs w') >= List.length (objs w)
  /\ forall r, r < List.length (objs w) -> ident_of w' r = ident_of w r.
Lemma suite_ok_same w w' s : same_ids w w' -> suite_ok w s -> suite_ok w' s.
Proof.
  intros [L I] (NE & F & N & E). split; [auto|]. split; [|split; [auto|]].
  - eapply Forall_impl; [|exact F]. cbn; intros; lia.
  - rewrite E. apply map_ext_in. intros r Hr. symmetry. apply I.
    rewrite Forall_forall in F. auto.
Qed.
Lemma same_ids_refl w : same_ids w w.
Proof. split; auto. Qed.
Lemma same_ids_trans w1 w2 w3 : same_ids w1 w2 -> same_ids w2 w3 -> same_ids w1 w3.
Proof.
  intros [L1 I1] [L2 I2]. split; [lia|]. intros r Hr. rewrite I2, I1; auto; lia.
Qed.
Lemma set_obj_same w r p : identifier p = ident_of w r -> same_ids w (set_obj w r p).
Proof.
  intros H. split; cbn [set_obj objs]; [rewrite set_nth_length; lia|].
  intros r' Hr'. unfold ident_of, deref, set_obj; cbn [objs]. rewrite nth_set_nth.
  destruct ((r' =? r) && _) eqn:E; [|reflexivity].
  apply andb_true_iff in E as [E _]. apply Nat.eqb_eq in E. subst. exact H.
Qed.
Lemma reject_refs_same w rs x :
  same_ids w (fst (reject_refs w rs x)) /\ suites (fst (reject_refs w rs x)) = suites w.
Proof.
  revert w. induction rs as [|r rs IH]; intros w; cbn [reject_refs].
  - split; [apply same_ids_refl|reflexivity].
  - pose proof (do_reject_identifier (deref w r) x) as I.
    destruct (do_reject (deref w r) x) as [p [u|e]]; cbn [fst] in *.
    + destruct (IH (set_obj w r p)) as [S E]. split; [|rewrite E; reflexivity].
      eapply same_ids_trans; [|exact S]. apply set_obj_same. exact I.
    + split; [|reflexivity]. apply set_obj_same. exact I.
Qed.

Lemma world_ok_same w w' : world_ok w -> same_ids w w' -> suites w' = suites w -> world_ok w'.
Proof.
  intros W S E. unfold world_ok in *. rewrite E. eapply Forall_impl; [|exact W].
  intros s. apply suite_ok_same. exact S.
Qed.
Lemma append_ok w s r : suite_ok w s -> r < List.length (objs w) ->
  suite_ok w (fst (append (ident_of w) s r)).
Proof.
  intros (NE & F & N & E) Hr. unfold append. destruct (existsb _ _) eqn:X; cbn [fst].
  - split; [auto|]. auto.
  - split; cbn [members ids]; [destruct (members s); discriminate|]. split; [|split].
    + apply Forall_app. auto.
    + apply NoDup_snoc; auto. intros H. apply existsb_eqb in H. congruence.
    + rewrite map_app, E. reflexivity.
Qed.
Lemma concat_members_lt w ss : Forall (suite_ok w) ss ->
  Forall (fun r => r < List.length (objs w)) (concat (map members ss)).
Proof.
  induction 1 as [|s ss (_ & F & _) _ IH]; cbn; [constructor|]. apply Forall_app. auto.
Qed.
Lemma act_ok w a : renames a = false -> world_ok w -> world_ok (fst (act w a)).
Proof.
  intros R W. unfold act. destruct (exists_all w a) eqn:X; cbn [negb]; [|exact W].
  destruct a as [p|r|s r|rs|ss|s x|r x|r name]; cbn [exists_all renames] in *; try discriminate.
  - cbn [fst]. apply (world_ok_same w); auto. split; cbn [objs]; [rewrite app_length; lia|].
    intros r Hr. unfold ident_of, deref; cbn [objs]. rewrite app_nth1 by auto. reflexivity.
  - apply Nat.ltb_lt in X. cbn [fst]. unfold world_ok, add_suite; cbn [suites].
    apply Forall_app. split.
    + eapply Forall_impl; [|exact W]. intros s. apply suite_ok_same. split; auto.
    + constructor; [|constructor]. unfold new_suite, suite_ok; cbn [members ids objs].
      split; [discriminate|]. split; [auto|]. split; [repeat constructor; auto|reflexivity].
  - apply andb_true_iff in X as [Xs Xr]. apply Nat.ltb_lt in Xs, Xr.
    destruct (append (ident_of w) (the_suite w s) r) as [s' res] eqn:A. cbn [fst].
    unfold world_ok; cbn [suites]. rewrite Forall_forall. intros t Ht.
    apply In_set_nth in Ht. unfold world_ok in W. rewrite Forall_forall in W.
    apply (suite_ok_same w); [split; auto|]. destruct Ht as [->|Ht]; [|auto].
    replace s' with (fst (append (ident_of w) (the_suite w s) r)) by (rewrite A; reflexivity).
    apply append_ok; auto. apply W. apply nth_In. exact Xs.
  - destruct rs as [|r rs]; [cbn; exact W|].
    destruct (NoDup_string_dec (map (ident_of w) (r :: rs))) as [N|N].
    + rewrite from_peaks_ok by (auto; discriminate). cbn [fst]. unfold world_ok, add_suite; cbn [suites].
      apply Forall_app. split.
      * eapply Forall_impl; [|exact W]. intros s. apply suite_ok_same. split; auto.
      * constructor; [|constructor]. unfold suite_ok; cbn [members ids objs].
        split; [discriminate|]. split; [|split; [exact N|reflexivity]].
        rewrite forallb_forall in X. rewrite Forall_forall. intros y Hy.
        apply Nat.ltb_lt. auto.
    + rewrite from_peaks_err by (auto; discriminate). exact W.
  - destruct ss as [|s ss]; [cbn; exact W|].
    assert (F : Forall (suite_ok w) (map (the_suite w) (s :: ss))).
    { rewrite Forall_forall. intros t Ht. apply in_map_iff in Ht as (n & <- & Hn).
      unfold world_ok in W. rewrite Forall_forall in W. apply W. apply nth_In.
      rewrite forallb_forall in X. apply Nat.ltb_lt. auto. }
    pose proof (concat_members_lt w _ F) as L. inversion F as [|? ? (NE & _) _]; subst.
    cbn [map] in *.
    destruct (NoDup_string_dec (map (ident_of w) (concat (map members (the_suite w s :: map (the_suite w) ss)))))
      as [N|N].
    + rewrite from_peakssuite_ok by auto. cbn [fst]. unfold world_ok, add_suite; cbn [suites].
      apply Forall_app. split.
      * eapply Forall_impl; [|exact W]. intros t. apply suite_ok_same. split; auto.
      * constructor; [|constructor]. unfold suite_ok; cbn [members ids objs].
        split; [|split; [exact L|split; [exact N|reflexivity]]].
        cbn [map concat]. destruct (members (the_suite w s)); [congruence|discriminate].
    + rewrite from_peakssuite_err by auto. exact W.
  - destruct (reject_refs_same w (members (the_suite w s)) x) as [S E].
    apply (world_ok_same w); auto.
  - pose proof (do_reject_identifier (deref w r) x) as I.
    destruct (do_reject (deref w r) x) as [p res]. cbn [fst] in *.
    apply (world_ok_same w); auto. apply set_obj_same. exact I.
Qed.
Lemma run_ok l w : forallb (fun a => negb (renames a)) l = true -> world_ok w -> world_ok (run w l).
Proof.
  revert w. induction l as [|a l IH]; intros w R W; cbn in *; [exact W|].
  apply andb_true_iff in R as [R1 R2]. apply negb_true_iff in R1.
  apply IH; auto. apply act_ok; auto.
Qed.

(** * Files *)

Definition entry (p : peaks) : string * json := (identifier p, JObj (to_dict p)).

Lemma suite_append_states done t :
  NoDup (map identifier (done ++ t)) ->
  suite_to_json_from true t (Doc (JObj (map entry done)))
  = (flat_map (fun k => [Broken; Doc (JObj (map entry (done ++ firstn k t)))]) (seq 1 (List.length t)),
     Ok tt).
Proof.
  revert done. induction t as [|p t IH]; intros done N; [reflexivity|].
  cbn [suite_to_json_from]. unfold to_json at 1; cbn [json_load].
  assert (K : has_key (identifier p) (map entry done) = false).
  { destruct (has_key _ _) eqn:K; auto. apply has_key_In in K. exfalso.
    rewrite map_map in K. change (map (fun x => fst (entry x)) done) with (map identifier done) in K.
    rewrite map_app in N. cbn [map] in N. apply NoDup_remove_2 in N.
    apply N. apply in_or_app. auto. }
  rewrite K, dict_set_absent by exact K. unfold dump_states, final; cbn [last].
  replace (map entry done ++ [(identifier p, JObj (to_dict p))]) with (map entry (done ++ [p]))
    by (rewrite map_app; reflexivity).
  rewrite IH by (rewrite <- app_assoc; exact N). f_equal.
  cbn [List.length seq flat_map app firstn]. do 2 f_equal.
  rewrite <- (seq_shift (List.length t) 1), !flat_map_concat_map, map_map.
  f_equal. apply map_ext. intros k. cbn [firstn]. rewrite <- app_assoc. reflexivity.
Qed.
Lemma suite_states ps f : NoDup (map identifier ps) ->
  suite_to_json ps f
  = (flat_map (fun k => [Broken; Doc (JObj (map entry (firstn k ps)))]) (seq 1 (List.length ps)), Ok tt).
Proof.
  destruct ps as [|p t]; [reflexivity|]. intros N. unfold suite_to_json.
  cbn [suite_to_json_from]. unfold to_json at 1. unfold dump_states, final; cbn [last].
  change (Doc (JObj [(identifier p, JObj (to_dict p))])) with (Doc (JObj (map entry [p]))).
  rewrite (suite_append_states [p] t N). f_equal. cbn [List.length seq flat_map app firstn].
  do 2 f_equal. rewrite <- (seq_shift (List.length t) 1), !flat_map_concat_map, map_map.
  f_equal.
Qed.
Lemma read_entries ps : Forall (fun p => exists s, well_formed s p) ps ->
  mapM entry_peaks (map entry ps) = Ok (map squash_peaks ps).
Proof.
  induction 1 as [|p ps (s & W) _ IH]; cbn [map mapM]; [reflexivity|].
  unfold entry_peaks, entry; cbn [fst snd].
  rewrite (from_to_dict s p W). cbn [snd bind].
  fold entry_peaks. change (map (fun x => entry x) ps) with (map entry ps).
  unfold entry in IH. rewrite IH. reflexivity.
Qed.
Lemma squash_storable ps : Forall storable ps -> map squash_peaks ps = ps.
Proof.
  induction 1 as [|p ps (s & W & H) _ IH]; cbn [map]; [reflexivity|].
  rewrite IH, (squash_peaks_id s p W H). reflexivity.
Qed.
Lemma suite_read_back ps : ps <> [] -> NoDup (map identifier ps) ->
  Forall (fun p => exists s, well_formed s p) ps ->
  suite_from_json [Doc (JObj (map entry ps))] = Ok (mkSuite (map squash_peaks ps) (map identifier ps)).
Proof.
  intros NE N F. unfold suite_from_json, suite_from_dicts. cbn [mapM json_load bind].
  unfold doc_peaks. rewrite (read_entries ps F). cbn [bind concat]. rewrite app_nil_r.
  assert (E : map identifier (map squash_peaks ps) = map identifier ps) by (rewrite map_map; reflexivity).
  rewrite <- E. apply from_peaks_ok; [destruct ps; [congruence|discriminate]|]. rewrite E. exact N.
Qed.
Lemma squash_same_all ps : Forall2 same_content ps (map squash_peaks ps).
Proof. induction ps; cbn; constructor; auto using squash_same. Qed.
Lemma nth_flat_pairs {A} (f g : nat -> A) n a k d : k < n ->
  nth (2 * k) (flat_map (fun i => [f i; g i]) (seq a n)) d = f (a + k)
  /\ nth (2 * k + 1) (flat_map (fun i => [f i; g i]) (seq a n)) d = g (a + k).
Proof.
  revert a k. induction n as [|n IH]; intros a k H; [lia|].
  cbn [seq flat_map app]. destruct k as [|k].
  - rewrite Nat.add_0_r. split; reflexivity.
  - replace (2 * S k) with (S (S (2 * k))) by lia. cbn [nth].
    replace (S (S (2 * k)) + 1) with (S (S (2 * k + 1))) by lia. cbn [nth].
    destruct (IH (S a) k ltac:(lia)) as [E1 E2]. rewrite E1, E2.
    replace (S a + k) with (a + S k) by lia. auto.
Qed.
