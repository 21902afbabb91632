(* The numbers of the groups in a match of the SPAC patterns. *)
From Verif Require Import MaxModel MaxSpec RegexProofs MaxProofs SpacModel SpacSpec SpacProofs.
Local Open Scope nat_scope.
Local Open Scope list_scope.

Lemma lang_in_finditer r c : forall s n, In c (finditer_from r n s) -> exists u, lang r u [] c.
Proof.
  induction s as [|a s IH]; intros n H; cbn [finditer_from] in H; [destruct H|].
  destruct n as [|n]; [|eapply IH; eauto].
  destruct (match_at r (a :: s)) as [[rest k]|] eqn:M; [|eapply IH; eauto].
  destruct H as [<- |H]; [|eapply IH; eauto].
  destruct (match_sound _ _ _ _ M) as (u & _ & L). eauto.
Qed.
Lemma quantifier_no_groups b q p : quantifier b = Some q -> no_groups (q p) = true.
Proof.
  unfold quantifier. intros H.
  repeat match type of H with (if ?b then _ else _) = _ => destruct b; [injection H as <-; reflexivity|] end. discriminate.
Qed.
Lemma pattern_no_groups n : forall t r, List.length t <= n -> pattern_of t = Some r -> no_groups r = true.
Proof.
  induction n as [|n IH]; intros t r Hn H; destruct t as [|a t]; cbn [List.length] in Hn; try lia;
    cbn [pattern_of] in H; try (injection H as <-; reflexivity).
  destruct (special a); [discriminate|]. destruct (quantifier a); [discriminate|].
  destruct t as [|b t]; [injection H as <-; reflexivity|].
  destruct (quantifier b) as [q|] eqn:Q.
  - destruct (pattern_of t) as [r'|] eqn:P; [|discriminate]. cbn [option_map] in H. injection H as <-.
    cbn [no_groups]. rewrite (quantifier_no_groups b q _ Q). cbn [andb]. apply (IH t); [cbn [List.length] in Hn; lia|exact P].
  - destruct (pattern_of (b :: t)) as [r'|] eqn:P; [|discriminate]. cbn [option_map] in H. injection H as <-.
    cbn [no_groups]. apply (IH (b :: t)); [lia|exact P].
Qed.

(** Numbered from [n] on, in the order of the text. *)
Definition counted (n : nat) (gs : list text) : caps := combine (seq n (List.length gs)) gs.
Lemma fields_counted l : forall n u c c', Forall (fun p => no_groups (snd p) = true) l ->
  lang (fields n l) u c c' ->
  exists gs, c' = rev (counted n gs) ++ c /\ List.length gs = List.length (filter fst l).
Proof.
  induction l as [|p l IH]; intros n u c c' F L.
  - cbn [fields] in L. inversion L; subst. exists []. auto.
  - inversion F as [|? ? Np F']; subst.
    assert (One : forall v k k', lang (part_re n p) v k k' ->
              k' = (if fst p then [(n, v)] else []) ++ k).
    { intros v k k' H. destruct p as [[|] q]; cbn [fst snd part_re] in *.
      - apply lang_grp in H; auto. tauto.
      - exact (lang_no_groups _ _ _ _ H Np). }
    destruct l as [|p' l].
    + cbn [fields] in L. rewrite (One _ _ _ L). cbn [filter].
      destruct (fst p); [exists [u]|exists []]; auto.
    + change (fields n (p :: p' :: l)) with (Seq (part_re n p) (Seq SP (fields (next n p) (p' :: l)))) in L.
      apply lang_seq in L as (a & b & c1 & -> & L1 & L2). apply lang_seq in L2 as (d & e & c2 & -> & L2 & L3).
      apply lang_no_groups in L2; [|reflexivity]. subst c2.
      destruct (IH _ _ _ _ F' L3) as (gs & -> & G). rewrite (One _ _ _ L1).
      unfold next. change (filter fst (p :: p' :: l)) with (if fst p then p :: filter fst (p' :: l) else filter fst (p' :: l)).
      destruct (fst p).
      * exists (a :: gs). cbn [List.length]. rewrite G. split; [|reflexivity].
        unfold counted. cbn [List.length seq combine rev]. rewrite <- app_assoc. reflexivity.
      * exists gs. auto.
Qed.
Lemma all_groups_counted n gs : all_groups (rev (counted n gs)) = gs.
Proof.
  unfold all_groups, counted. rewrite rev_involutive. revert n. induction gs as [|g gs IH]; intros n; cbn; [reflexivity|].
  now rewrite IH.
Qed.
Lemma group_app k c d : group k (c ++ d) = match group k c with Some t => Some t | None => group k d end.
Proof. induction c as [|[i t] c IH]; cbn; [reflexivity|]. destruct (k =? i); auto. Qed.
Lemma group_counted gs : forall n k, group k (rev (counted n gs)) = if n <=? k then nth_error gs (k - n) else None.
Proof.
  induction gs as [|g gs IH]; intros n k.
  - cbn. destruct (n <=? k); [destruct (k - n)|]; reflexivity.
  - unfold counted. cbn [List.length seq combine rev]. rewrite group_app. fold (counted (S n) gs). rewrite IH.
    destruct (Nat.leb_spec (S n) k) as [H|H].
    + destruct (Nat.leb_spec n k); [|lia]. replace (k - n) with (S (k - S n)) by lia. cbn [nth_error].
      destruct (nth_error gs (k - S n)); [reflexivity|]. cbn [group]. destruct (Nat.eqb_spec k n); [lia|reflexivity].
    + cbn [group]. destruct (Nat.eqb_spec k n).
      * subst. rewrite Nat.leb_refl, Nat.sub_diag. reflexivity.
      * destruct (Nat.leb_spec n k); [lia|reflexivity].
Qed.

Lemma ratio_numbered time component ring p s c : get_spac_ratio time component ring = Ok p ->
  In c (finditer p s) ->
  List.length (all_groups c) = 2 + (if String.eqb component "(0)" then 1 else 0)
      + (match time with None => 1 | Some _ => 0 end) + (match ring with None => 1 | Some _ => 0 end)
  /\ group 0 c = None /\ forall k, group (S k) c = nth_error (all_groups c) k.
Proof.
  unfold get_spac_ratio. intros H I.
  destruct (if String.eqb component "(0)" then Ok (true, Chr (is "0"%char)) else if String.eqb component "0" then Ok (false, Chr (is "0"%char))
    else Err NotImplementedError) as [pc|] eqn:C; cbn [bind] in H; [|discriminate].
  assert (Hc : no_groups (snd pc) = true /\ fst pc = String.eqb component "(0)").
  { destruct (String.eqb component "(0)"); [injection C as <-; auto|].
    destruct (String.eqb component "0"); [injection C as <-; auto|discriminate]. }
  assert (Hp : forall d o pt, caller_part d o = Ok pt -> no_groups (snd d) = true -> fst d = true ->
            no_groups (snd pt) = true /\ fst pt = match o with None => true | Some _ => false end).
  { intros d [t|] pt E N B; cbn [caller_part] in E; [|injection E as <-; auto].
    destruct (pattern_of t) as [r|] eqn:P; [|discriminate]. injection E as <-. cbn [snd fst]. split; [|reflexivity].
    exact (pattern_no_groups _ t r (le_n _) P). }
  destruct (caller_part grouped_number time) as [pt|] eqn:Et; cbn [bind] in H; [|discriminate].
  destruct (caller_part (true, Plus digit) ring) as [pr|] eqn:Er; cbn [bind] in H; [|discriminate].
  injection H as <-. destruct (Hp _ _ _ Et eq_refl eq_refl) as [Nt Ft]. destruct (Hp _ _ _ Er eq_refl eq_refl) as [Nr Fr].
  destruct Hc as [Nc Fc]. destruct (lang_in_finditer _ _ _ _ I) as (u & L).
  apply (fields_counted [pt; grouped_number; pc; pr; grouped_number] 1) in L; [|repeat constructor; auto]. destruct L as (gs & -> & G).
  rewrite app_nil_r. rewrite all_groups_counted. split.
  - rewrite G. cbn [filter]. rewrite Ft, Fc, Fr. cbn [grouped_number fst].
    destruct time, ring, (String.eqb component "(0)"); reflexivity.
  - split; [rewrite group_counted; reflexivity|]. intros k. rewrite group_counted. cbn [Nat.leb].
    replace (S k - 1) with k by lia. reflexivity.
Qed.
