(* Properties of shared members: C52, exactly what a change of one suite does to
   the others, and what from_dict leaves of its argument. *)
From Verif Require Import PyFacts NumFacts PeaksModel PeaksSpec PeaksProofs PeaksJsonProofs PeaksProps.
From Verif Require Import SuiteModel SuiteSpec SuiteProofs SuiteProps SuiteShareSpec SuiteShareProofs.
Local Open Scope string_scope.
Local Open Scope nat_scope.
Local Open Scope list_scope.

Lemma reject_act w s x : s < List.length (suites w) ->
  act w (SuiteReject s x) = reject_refs w (members (the_suite w s)) x.
Proof. intros H. unfold act; cbn [exists_all]. apply Nat.ltb_lt in H. rewrite H. reflexivity. Qed.
Lemma same_suites w w' t : suites w' = suites w -> the_suite w' t = the_suite w t.
Proof. intros E. unfold the_suite. rewrite E. reflexivity. Qed.
Lemma history_suite l s : forallb (fun a => negb (renames a)) l = true ->
  s < List.length (suites (run empty_world l)) ->
  Forall (fun r => r < List.length (objs (run empty_world l))) (members (the_suite (run empty_world l) s))
  /\ NoDup (members (the_suite (run empty_world l) s)).
Proof.
  intros R H. assert (W : world_ok (run empty_world l)) by (apply run_ok; [exact R|constructor]).
  unfold world_ok in W. rewrite Forall_forall in W.
  destruct (W (the_suite (run empty_world l) s)) as (_ & F & N & E); [apply nth_In; exact H|].
  split; [exact F|]. rewrite E in N. exact (NoDup_map_inv _ _ N).
Qed.

(** ** C52: a rejection in a suite changes the objects of that suite, wherever else
    they are held, and nothing else. *)
Theorem C52_reject_shared : forall l s x, forallb (fun a => negb (renames a)) l = true ->
  let w := run empty_world l in
  s < List.length (suites w) ->
  (forall p, In p (shown w s) -> accepts p x) ->
  exists w', act w (SuiteReject s x) = (w', Ok tt)
    /\ suites w' = suites w
    /\ forall t, shown w' t = map (fun r => if holds w s r then after x (deref w r) else deref w r)
                                  (members (the_suite w t)).
Proof.
  intros l s x R w Hs A. destruct (history_suite l s R Hs) as [F N]. fold w in F, N.
  destruct (reject_refs_all (members (the_suite w s)) w x N F) as [Q1 Q2].
  { intros r Hr. apply A. apply in_map. exact Hr. }
  destruct (reject_refs_same w (members (the_suite w s)) x) as [_ E].
  exists (fst (reject_refs w (members (the_suite w s)) x)).
  split; [rewrite reject_act by exact Hs; rewrite <- Q1; apply surjective_pairing|].
  split; [exact E|]. intros t. unfold shown. rewrite (same_suites _ _ t E).
  apply map_ext. intros r.
  unfold holds. destruct (in_dec _ _ _) as [i|i].
  - apply Q2. exact i.
  - apply reject_refs_outside. exact i.
Qed.
Print Assumptions C52_reject_shared.

(** When a member refuses, the members before it are changed and those after it
    are not: the call stops half way. *)
Theorem C52_reject_stops : forall l s x pre r post e,
  forallb (fun a => negb (renames a)) l = true ->
  let w := run empty_world l in
  s < List.length (suites w) ->
  members (the_suite w s) = pre ++ r :: post ->
  (forall i, In i pre -> accepts (deref w i) x) ->
  snd (do_reject (deref w r) x) = Err e ->
  exists w', act w (SuiteReject s x) = (w', Err e)
    /\ suites w' = suites w
    /\ (forall i, In i pre \/ i = r -> deref w' i = after x (deref w i))
    /\ (forall i, ~ In i pre -> i <> r -> deref w' i = deref w i).
Proof.
  intros l s x pre r post e R w Hs M A E. destruct (history_suite l s R Hs) as [F N]. fold w in F, N.
  rewrite M in F, N. destruct (reject_refs_stop pre r post w x e N F A E) as (Q1 & Q2 & Q3).
  exists (fst (reject_refs w (pre ++ r :: post) x)).
  split; [rewrite reject_act by exact Hs; rewrite M, <- Q1; apply surjective_pairing|].
  split; [apply reject_refs_same|]. split; [exact Q2|].
  intros i H1 H2. destruct (in_dec Nat.eq_dec i post) as [K|K]; [apply Q3; exact K|].
  apply reject_refs_outside. intros H. apply in_app_or in H as [H|[H|H]]; auto.
Qed.
Print Assumptions C52_reject_stops.

(** Suites that hold no object in common never affect each other, whatever is
    rejected in the one and whether or not it succeeds. *)
Theorem C52_apart : forall xs w s t, apart w s t ->
  shown (run w (map (SuiteReject s) xs)) t = shown w t.
Proof.
  induction xs as [|x xs IH]; intros w s t A; [reflexivity|].
  cbn [map]. unfold run. cbn [fold_left]. fold (run (fst (act w (SuiteReject s x))) (map (SuiteReject s) xs)).
  destruct (Nat.ltb_spec s (List.length (suites w))) as [H|H].
  - rewrite reject_act by exact H.
    destruct (reject_refs_same w (members (the_suite w s)) x) as [_ E].
    pose proof (fun t => same_suites _ _ t E) as T.
    rewrite IH.
    + unfold shown. rewrite T. apply map_ext_in. intros r Hr.
      apply reject_refs_outside. intros K. exact (A r K Hr).
    + intros r. rewrite !T. apply A.
  - unfold act; cbn [exists_all]. apply Nat.ltb_ge in H. rewrite H. cbn [negb fst]. apply IH. exact A.
Qed.
Print Assumptions C52_apart.

(** The caller's dictionary loses its mask and nothing else.  A second object built
    from it has the same curves and every peak with a velocity valid. *)
Theorem C52_dict_outcome : forall d ident,
  fst (from_dict d ident) = filter (fun kv => negb (String.eqb "valid" (fst kv))) d
  /\ forall p, snd (from_dict d ident) = Ok p ->
       exists p', snd (from_dict (fst (from_dict d ident)) ident) = Ok p'
         /\ identifier p' = identifier p /\ fields p' = fields p
         /\ forall v, assoc "velocity" (fields p) = Some v ->
              valid p' = nd_map (fun x => negb (is_nan x)) v.
Proof.
  intros d ident. split; [reflexivity|]. intros p H.
  unfold from_dict in *. cbv zeta in *. cbn [fst snd] in *.
  assert (D : dict_del "valid" (dict_del "valid" d) = dict_del "valid" d).
  { apply dict_del_absent. unfold dict_del. intros K. apply in_map_iff in K as ([k v] & E & K).
    apply filter_In in K as [_ K]. cbn [fst] in *. subst. discriminate. }
  assert (V : assoc "valid" (dict_del "valid" d) = None).
  { induction d as [|[k v] d IH]; [reflexivity|]. unfold dict_del. cbn [filter fst].
    destruct ("valid" =? k)%string eqn:E; cbn [negb].
    - clear -d. induction d as [|[k v] d IH]; [reflexivity|]. cbn [filter fst].
      destruct ("valid" =? k)%string eqn:E; cbn [negb assoc]; [exact IH|]. rewrite E. exact IH.
    - cbn [assoc]. rewrite E.
      clear -d. induction d as [|[k v] d IH]; [reflexivity|]. cbn [filter fst].
      destruct ("valid" =? k)%string eqn:E; cbn [negb assoc]; [exact IH|]. rewrite E. exact IH. }
  rewrite D, V. destruct (has_key "identifier" (dict_del "valid" d) || has_key "self" (dict_del "valid" d)); [discriminate|].
  destruct (assoc "frequency" _) as [jf|]; [|discriminate].
  destruct (assoc "velocity" _) as [jv|]; [|discriminate].
  destruct (to_nd leaf_num jf) as [f|]; [|discriminate]. cbn [bind] in *.
  destruct (to_nd leaf_num jv) as [v|]; [|discriminate]. cbn [bind] in *.
  destruct (mapM _ _) as [kw|]; [|discriminate]. cbn [bind] in *.
  unfold new_peaks in *. destruct (existsb _ kw); [discriminate|]. cbn [bind] in *.
  eexists. split; [reflexivity|].
  assert (X : identifier p = ident /\ fields p = ("frequency", f) :: ("velocity", v) :: kw).
  { destruct (assoc "valid" d) as [j|]; [destruct j|]; cbn [bind] in H;
      try (match type of H with context [to_nd leaf_bool ?j] =>
             destruct (to_nd leaf_bool j); cbn [bind] in H; [|discriminate] end);
      injection H as <-; auto. }
  destruct X as [X1 X2]. cbn [identifier fields valid]. rewrite X1, X2.
  split; [reflexivity|]. split; [reflexivity|]. intros v' Hv. cbn in Hv. injection Hv as <-. reflexivity.
Qed.
Print Assumptions C52_dict_outcome.

(** Two suites that share the object "b": rejecting in the second changes what the
    first shows of it, and not its own "a". *)
Definition sharing : list action :=
  [NewPeaks c1; NewPeaks c2; NewPeaks c3; FromPeaks [0; 1]; FromPeaks [1; 2]; NewSuite 0].
Example C52_share_example :
  let w := run empty_world sharing in
  let x := Limits "frequency" None (Some (z 3)) in
  forallb (fun a => negb (renames a)) sharing = true
  /\ 1 < List.length (suites w)
  /\ (forall p, In p (shown w 1) -> accepts p x)
  /\ apart w 1 2 /\ ~ apart w 1 0
  /\ map (fun p => map (is_valid p) [0; 1; 2]) (shown (fst (act w (SuiteReject 1 x))) 0)
     = [[true; true; false]; [true; false; true]].
Proof.
  cbv zeta. split; [reflexivity|]. split; [vm_compute; lia|].
  assert (M : forall t, members (the_suite (run empty_world sharing) t)
              = nth t [[0; 1]; [1; 2]; [0]] []) by (intros [|[|[|[|t]]]]; reflexivity).
  unfold apart, shown. rewrite !M. cbn [nth map].
  split; [intros p [<- |[<- | []]]; vm_compute; reflexivity|].
  split; [cbn; intuition lia|]. split; [intros H; apply (H 1); cbn; auto|]. vm_compute. reflexivity.
Qed.
(** A rejection by a field the third curve lacks stops there. *)
Example C52_stop_example :
  let w := run empty_world sharing in
  snd (do_reject (deref w 1) (Limits "azimuth" None None)) = Err AttributeError
  /\ members (the_suite w 1) = [] ++ 1 :: [2].
Proof. vm_compute. auto. Qed.
