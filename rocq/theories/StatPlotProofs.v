From Verif Require Import StatPlotModel StatPlotSpec PlotProofs SuiteProofs.
Local Open Scope string_scope.
Local Open Scope nat_scope.
Local Open Scope list_scope.

Definition user (o : option (dict kw)) : dict kw := match o with None => [] | Some d => d end.
Definition clash (kws : dict kw) : bool := existsb (fun kv => existsb (String.eqb (fst kv)) ["x"; "y"; "yerr"]) kws.

Lemma assoc_in {A} k v (d : dict A) : assoc k d = Some v -> In (k, v) d.
Proof.
  induction d as [|[k' v'] d IH]; cbn; [discriminate|]. destruct (String.eqb_spec k k') as [->|N].
  - intros [= ->]. now left.
  - intros H. right. now apply IH.
Qed.
Lemma in_assoc {A} k v (d : dict A) : NoDup (map fst d) -> In (k, v) d -> assoc k d = Some v.
Proof.
  induction d as [|[k' v'] d IH]; cbn; [contradiction|]. intros N [E|I].
  - injection E as -> ->. now rewrite String.eqb_refl.
  - destruct (String.eqb_spec k k') as [->|Nk]; [|apply IH; [now inversion N|exact I]].
    inversion N as [|? ? Nk _]; subst. exfalso. apply Nk. change k' with (fst (k', v)). now apply in_map.
Qed.
Lemma usual_iff k v : usual k v <-> assoc k errorbar_defaults = Some v.
Proof.
  split; [intros []; reflexivity|]. intros H. apply assoc_in in H. cbn in H.
  repeat (destruct H as [H|H]; [injection H as <- <-; constructor|]). contradiction.
Qed.
Lemma given_iff o k v : a_dict o -> (given o k v <-> assoc k (user o) = Some v).
Proof.
  intros D. split.
  - intros [d [-> I]]. apply in_assoc; [now apply D|exact I].
  - intros H. destruct o as [d|]; [|discriminate]. exists d. split; [reflexivity|now apply assoc_in].
Qed.
Lemma user_nodup o : a_dict o -> NoDup (map fst (user o)).
Proof. intros D. destruct o as [d|]; [now apply D|constructor]. Qed.
Lemma wanted_iff o k v : a_dict o -> (wanted o k v <-> assoc k (merge errorbar_defaults (user o)) = Some v).
Proof.
  intros D. rewrite assoc_merge by now apply user_nodup. unfold wanted. rewrite usual_iff. split.
  - intros [G|[A U]].
    + now rewrite (proj1 (given_iff o k v D) G).
    + destruct (assoc k (user o)) as [w|] eqn:E; [|exact U]. exfalso. exact (A w (proj2 (given_iff o k w D) E)).
  - destruct (assoc k (user o)) as [w|] eqn:E.
    + intros [= <-]. left. now apply given_iff.
    + intros U. right. split; [|exact U]. intros w G. apply given_iff in G; [|exact D]. congruence.
Qed.
Lemma dict_set_in {A} k (v : A) d k' v' : In (k', v') (dict_set k v d) -> (k' = k) \/ In (k', v') d.
Proof.
  induction d as [|[k1 v1] d IH]; cbn.
  - intros [E|[]]. injection E as -> ->. now left.
  - destruct (String.eqb_spec k k1) as [->|N]; cbn; intros [E|I].
    + injection E as -> ->. now left.
    + right. now right.
    + right. now left.
    + destruct (IH I) as [->|J]; [now left|right; now right].
Qed.
Lemma dict_set_key {A} k (v : A) d : In k (map fst (dict_set k v d)).
Proof.
  induction d as [|[k1 v1] d IH]; cbn; [now left|]. destruct (String.eqb_spec k k1) as [->|N]; cbn; [now left|now right].
Qed.
Lemma dict_set_keeps {A} k (v : A) d k' : In k' (map fst d) -> In k' (map fst (dict_set k v d)).
Proof.
  induction d as [|[k1 v1] d IH]; cbn; [contradiction|]. destruct (String.eqb_spec k k1) as [->|N]; cbn; [tauto|].
  intros [->|I]; [now left|right; now apply IH].
Qed.
Lemma merge_keys {A} (d e : dict A) k : In k (map fst (merge d e)) <-> In k (map fst d) \/ In k (map fst e).
Proof.
  unfold merge. revert d. induction e as [|[k1 v1] e IH]; intros d; cbn [fold_left map fst snd]; [cbn; tauto|].
  rewrite IH. split.
  - intros [I|I]; [|now right; right]. apply in_map_iff in I. destruct I as [[k2 v2] [E I]]. cbn in E. subst k2.
    apply dict_set_in in I. destruct I as [->|I]; [right; now left|left]. change k with (fst (k, v2)). now apply in_map.
  - intros [I|[->|I]]; [left; now apply dict_set_keeps|left; apply dict_set_key|now right].
Qed.
Lemma clash_iff kws : clash kws = true <-> exists k, In k (map fst kws) /\ reserved k.
Proof.
  unfold clash. rewrite existsb_exists. split.
  - intros [[k v] [I E]]. apply existsb_exists in E. destruct E as [r [Ir Er]]. apply String.eqb_eq in Er. cbn in Er. subst r.
    exists k. split; [change k with (fst (k, v)); now apply in_map|]. unfold reserved. cbn in Ir. intuition congruence.
  - intros [k [I R]]. apply in_map_iff in I. destruct I as [[k' v] [E I]]. cbn in E. subst k'. exists (k, v). split; [exact I|].
    apply existsb_exists. exists k. split; [|apply String.eqb_refl]. unfold reserved in R. cbn. intuition.
Qed.
Lemma clash_merge o : clash (merge errorbar_defaults (user o)) = true <-> exists k v, reserved k /\ given o k v.
Proof.
  rewrite clash_iff. split.
  - intros [k [I R]]. apply merge_keys in I. destruct I as [I|I].
    + exfalso. unfold reserved in R. cbn in I. intuition congruence.
    + apply in_map_iff in I. destruct I as [[k' v] [E I]]. cbn in E. subst k'. exists k, v. split; [exact R|].
      destruct o as [d|]; [|contradiction]. now exists d.
  - intros [k [v [R [d [-> I]]]]]. exists k. split; [|exact R]. apply merge_keys. right. change k with (fst (k, v)).
    now apply in_map.
Qed.
Lemma plot_form ax xx mean sd o : plot_statistics ax xx mean sd o = errorbar ax xx mean sd (merge errorbar_defaults (user o)).
Proof. reflexivity. Qed.
Lemma errorbar_ok ax xx mean sd kws : clash kws = false -> plottable xx mean sd ->
  errorbar ax xx mean sd kws = Ok (ax ++ [mkBars xx mean (if List.length sd =? List.length mean then sd
                              else repeat (hd NaN sd) (List.length mean)) kws]).
Proof.
  intros C [L [S F]]. unfold errorbar. fold (clash kws). rewrite C. rewrite L, Nat.eqb_refl. cbn [negb].
  assert (E : (List.length sd =? List.length xx) || (List.length sd =? 1) = true).
  { apply Bool.orb_true_iff. rewrite !Nat.eqb_eq. exact S. }
  rewrite E. cbn [negb]. destruct (existsb (fun e => flt_lt e f0) sd) eqn:B; [|reflexivity].
  apply existsb_exists in B. destruct B as [s [I B]]. rewrite Forall_forall in F. now destruct (F s I).
Qed.
Lemma errorbar_ok_inv ax xx mean sd kws ax' : errorbar ax xx mean sd kws = Ok ax' -> clash kws = false /\ plottable xx mean sd.
Proof.
  unfold errorbar. fold (clash kws). destruct (clash kws); [discriminate|].
  destruct (Nat.eqb_spec (List.length xx) (List.length mean)) as [L|]; [|discriminate]. cbn [negb].
  destruct ((List.length sd =? List.length mean) || (List.length sd =? 1)) eqn:E; [|discriminate]. cbn [negb].
  destruct (existsb (fun e => flt_lt e f0) sd) eqn:B; [discriminate|]. intros _. split; [reflexivity|]. split; [now symmetry|]. split.
  - apply Bool.orb_true_iff in E. rewrite !Nat.eqb_eq in E. rewrite L. exact E.
  - apply Forall_forall. intros s I N. enough (existsb (fun e => flt_lt e f0) sd = true) by congruence.
    apply existsb_exists. now exists s.
Qed.
Lemma errorbar_err ax xx mean sd kws e : errorbar ax xx mean sd kws = Err e ->
  (clash kws = true /\ e = TypeError) \/ (clash kws = false /\ e = ValueError).
Proof.
  unfold errorbar. fold (clash kws). destruct (clash kws); [intros [= <-]; now left|]. right. split; [reflexivity|].
  repeat match goal with H : context [if ?c then _ else _] |- _ => destruct c end; congruence.
Qed.
Lemma transpose_len (n : nat) (m : list (list flt)) : List.length (transpose n m) = n.
Proof. unfold transpose. unfold range; now rewrite map_length, seq_length. Qed.
Lemma nanstd_not_negative fsqrt l : (forall q, ~ negative (fsqrt q)) -> ~ negative (nanstd fsqrt l).
Proof. intros H. unfold nanstd. destruct (List.length (nums l) <=? 1); [discriminate|apply H]. Qed.
Lemma statistics_plottable fsqrt C (cc : list (list flt) -> C) ps xt yt xx ic cnt ms xx' mean sd corr :
  (forall q, ~ negative (fsqrt q)) ->
  statistics fsqrt cc ps xt yt xx ic cnt ms = Ok (xx', mean, sd, corr) -> plottable xx' mean sd.
Proof.
  intros Q H. unfold statistics in H. destruct (List.length ps <? 3); [discriminate|].
  destruct (to_array ps xt yt xx) as [a|]; [|discriminate]. cbn [bind] in H.
  destruct (drop _ _ cnt (fst a) (snd a)) as [x m]. injection H as <- <- <- _.
  split; [|split].
  - now rewrite map_length, transpose_len.
  - left. now rewrite map_length, transpose_len.
  - apply Forall_forall. intros s I. apply in_map_iff in I. destruct I as [l [<- _]]. now apply nanstd_not_negative.
Qed.
