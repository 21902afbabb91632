(* Proofs about interactive picking. *)
From Verif Require Import InteractModel InteractSpec PyFacts NumFacts.
Local Open Scope nat_scope.
Local Open Scope list_scope.

Lemma truthy_iff w : truthy w = true <-> w = Some true.
Proof. destruct w as [[]|]; cbn; split; congruence. Qed.
Lemma until_key_ok w w' : until_key w = Some w' <-> exists idle, w = (idle ++ [Some true]) ++ w' /\ ~ In (Some true) idle.
Proof.
  revert w'. induction w as [|a t IH]; intros w'; cbn.
  - split; [discriminate|]. intros ([|? ?] & H & _); discriminate.
  - destruct (truthy a) eqn:T.
    + apply truthy_iff in T. subst a. split.
      * intros H; inversion H; subst. exists []. split; auto.
      * intros ([|b idle] & H & N); cbn in *; [congruence|]. inversion H; subst. exfalso. apply N. now left.
    + assert (Na : a <> Some true) by (intros ->; discriminate). rewrite IH. split.
      * intros (idle & -> & N). exists (a :: idle). split; auto. intros [Q|Q]; auto.
      * intros ([|b idle] & H & N); cbn in H; inversion H; subst; [congruence|]. exists idle. split; auto. intros Q; apply N; now right.
Qed.
Lemma accepted_rev r : accepted r = match rev r with [] => None | p :: _ => Some p end.
Proof.
  unfold accepted. destruct r as [|a r] using rev_ind; auto. rewrite map_app, rev_app_distr. cbn [map]. rewrite last_last. reflexivity.
Qed.
Lemma select_spec npts ask : forall cl npt xs ys w xs' ys' u,
  select_points npts ask npt xs ys cl w = Returned (xs', ys') u ->
  exists rounds wd stopped, cl = rounds ++ clicks u /\ w = wd ++ waits u /\
    let ps := accepted_points rounds in
    xs' = xs ++ map fst ps /\ ys' = ys ++ map snd ps /\ wait_log ask (length ps) stopped wd /\
    (if stopped then (npt + Z.of_nat (length ps) <= npts)%Z else Z.of_nat (length ps) = Z.max 0 (npts - npt)) /\
    (ps = [] \/ exists r0 r, rounds = r0 ++ [r] /\ r <> []) /\ (ps = [] -> rounds = []).
Proof.
  induction cl as [|vals cl IH]; intros npt xs ys w xs' ys' u H; cbn [select_points] in H.
  - destruct (npt <? npts)%Z eqn:L; [discriminate|]. inversion H; subst. exists [], [], false. cbn. rewrite !app_nil_r.
    repeat (split; [reflexivity|]). split; [constructor|]. split; [lia|]. auto.
  - destruct (npt <? npts)%Z eqn:L.
    2: { inversion H; subst. exists [], [], false. cbn. rewrite !app_nil_r. repeat (split; [reflexivity|]). split; [constructor|]. split; [lia|]. auto. }
    pose proof (accepted_rev vals) as A. destruct (rev vals) as [|[x y] rv] eqn:R.
    + apply IH in H as (rounds & wd & stopped & -> & -> & H). exists (vals :: rounds), wd, stopped. cbn [accepted_points]. rewrite A.
      split; auto. split; auto. cbv zeta in *. destruct H as (H1 & H2 & H3 & H4 & H5 & H6). repeat (split; [assumption|]).
      split; [|].
      * destruct H5 as [H5|(r0 & r & -> & N)]; [auto|]. right. exists (vals :: r0), r. auto.
      * intros Q. destruct stopped; [rewrite Q in H3; inversion H3|]. rewrite Q in H4. cbn in H4. lia.
    + assert (Nv : vals <> []) by (intros ->; discriminate).
      destruct (if ask then until_key w else Some w) as [[|k w']|] eqn:U; try discriminate.
      assert (P : exists pre, w = pre ++ k :: w' /\ (if ask then exists idle, pre = idle ++ [Some true] /\ ~ In (Some true) idle else pre = [])).
      { destruct ask; [apply until_key_ok in U as (idle & -> & N); eauto|]. inversion U. exists []. auto. }
      destruct P as (pre & -> & P). destruct (truthy k) eqn:K.
      * inversion H; subst. apply truthy_iff in K. subst k. exists [vals], (pre ++ [Some true]), true. cbn [accepted_points]. rewrite A. cbn.
        split; auto. split; [rewrite <- app_assoc; auto|]. repeat (split; [reflexivity|]). split; [now constructor|]. split; [lia|].
        split; [right; exists [], vals; auto|discriminate].
      * apply IH in H as (rounds & wd & stopped & -> & -> & H). cbv zeta in H. destruct H as (H1 & H2 & H3 & H4 & H5 & H6).
        exists (vals :: rounds), (pre ++ k :: wd), stopped. cbn [accepted_points]. rewrite A. cbv zeta. cbn [map length fst snd].
        split; auto. split; [rewrite <- app_assoc; auto|]. split; [rewrite H1, <- app_assoc; auto|]. split; [rewrite H2, <- app_assoc; auto|].
        split; [constructor; auto; intros ->; discriminate|]. split; [destruct stopped; lia|]. split; [|discriminate].
        right. destruct H5 as [H5|(r0 & r & -> & N)]; [|exists (vals :: r0), r; auto]. rewrite (H6 H5). exists [], vals. auto.
Qed.
Lemma session_spec initial npts ask u xs ys u' : ginput_session initial npts ask u = Returned (xs, ys) u' ->
  exists rounds pre wd stopped, clicks u = rounds ++ clicks u' /\ waits u = pre ++ wd ++ waits u' /\
    (if initial then exists idle, pre = idle ++ [Some true] /\ ~ In (Some true) idle else pre = []) /\
    combine xs ys = accepted_points rounds /\ length xs = length ys /\
    wait_log ask (length xs) stopped wd /\
    (if stopped then (Z.of_nat (length xs) <= npts)%Z else Z.of_nat (length xs) = Z.max 0 npts) /\
    (xs = [] -> rounds = []) /\ (xs <> [] -> exists r0 r, rounds = r0 ++ [r] /\ r <> []).
Proof.
  unfold ginput_session. intros H. destruct (if initial then until_key (waits u) else Some (waits u)) as [w|] eqn:I; [|discriminate].
  assert (P : exists pre, waits u = pre ++ w /\ (if initial then exists idle, pre = idle ++ [Some true] /\ ~ In (Some true) idle else pre = [])).
  { destruct initial; [apply until_key_ok in I as (idle & -> & N); eauto|]. inversion I. exists []. auto. }
  destruct P as (pre & -> & P). apply select_spec in H as (rounds & wd & stopped & -> & -> & H). cbv zeta in H.
  destruct H as (-> & -> & H3 & H4 & H5 & H6). cbn [app] in *. exists rounds, pre, wd, stopped. split; auto. split; auto. split; auto.
  rewrite !map_length. split; [|split; [auto|split; [auto|split; [destruct stopped; [rewrite Z.add_0_l in H4|rewrite Z.sub_0_r in H4]; exact H4|split]]]].
  - clear. induction (accepted_points rounds) as [|[x y] l IH]; cbn; [reflexivity|]. exact (f_equal (cons (x, y)) IH).
  - intros Q. apply H6. destruct (accepted_points rounds); [auto|discriminate].
  - intros Q. destruct H5 as [H5|H5]; auto. rewrite H5 in Q. now destruct Q.
Qed.
(** With answers to all questions, the session ends. *)
Lemma select_ends npts ask : forall cl npt xs ys w, 
  (npts - npt <= Z.of_nat (length (accepted_points cl)))%Z -> 
  ask = false -> (npts - npt <= Z.of_nat (length w))%Z ->
  exists r u, select_points npts ask npt xs ys cl w = Returned r u.
Proof.
  induction cl as [|vals cl IH]; intros npt xs ys w H -> W; cbn [select_points].
  - cbn in H. destruct (npt <? npts)%Z eqn:L; [lia|]. eauto.
  - destruct (npt <? npts)%Z eqn:L; [|eauto]. cbn [accepted_points] in H. rewrite accepted_rev in H.
    destruct (rev vals) as [|[x y] rv]; [apply IH; auto|]. destruct w as [|k w]; [cbn in W; lia|]. destruct (truthy k); [eauto|].
    apply IH; auto; cbn [length] in *; lia.
Qed.

(** * interactive_mute *)
Lemma pick_line_ok ax w u r u' : pick_line ax w u = Returned r u' ->
  r = Err IndexError \/ exists o, r = Ok o /\ (w = false <-> o = None).
Proof.
  unfold pick_line. destruct w; intros H.
  - destruct (ginput_session false 2 false u) as [|[xs ys] u1] eqn:G; [discriminate|]. inversion H; subst. clear H.
    apply session_spec in G as (rounds & pre & wd & stopped & _ & _ & _ & _ & L & _ & N & _).
    assert (length xs <= 2) by (destruct stopped; lia). unfold parse_line.
    destruct xs as [|x0 [|x1 [|? ?]]], ys as [|y0 [|y1 [|? ?]]]; cbn in *; try lia; destruct (String.eqb ax "y"); cbn; auto; right; eexists; split; eauto; split; discriminate.
  - inversion H; subst. right. exists None. split; auto. split; auto.
Qed.
Lemma pick_stopped ax c1 cl w : accepted c1 <> None ->
  pick_line ax true (mkUser (c1 :: cl) (Some true :: w)) = Returned (Err IndexError) (mkUser cl w).
Proof.
  intros A. rewrite accepted_rev in A. unfold pick_line, ginput_session. cbn [clicks waits select_points]. change (0 <? 2)%Z with true. cbv iota.
  destruct (rev c1) as [|[x y] rv]; [now destruct A|]. cbn [truthy]. unfold parse_line. destruct (String.eqb ax "y"); reflexivity.
Qed.
Lemma select_full xs ys cl w : select_points 2 false 2 xs ys cl w = Returned (xs, ys) (mkUser cl w).
Proof. now destruct cl. Qed.
Lemma pick_two ax c1 c2 cl k1 k2 w p1 p2 : accepted c1 = Some p1 -> accepted c2 = Some p2 -> k1 <> Some true -> k2 <> Some true ->
  pick_line ax true (mkUser (c1 :: c2 :: cl) (k1 :: k2 :: w)) =
  Returned (Ok (Some (if String.eqb ax "y" then (p1, p2) else ((snd p1, fst p1), (snd p2, fst p2))))) (mkUser cl w).
Proof.
  intros A B H1 H2. rewrite accepted_rev in A, B. unfold pick_line, ginput_session. cbn [clicks waits select_points]. change (0 <? 2)%Z with true. cbv iota.
  destruct (rev c1) as [|[x y] rv]; inversion A; subst. assert (T1 : truthy k1 = false) by (destruct k1 as [[]|]; cbn; congruence). rewrite T1.
  change (0 + 1 <? 2)%Z with true. cbv iota. destruct (rev c2) as [|[x2 y2] rv2]; inversion B; subst.
  assert (T2 : truthy k2 = false) by (destruct k2 as [[]|]; cbn; congruence). rewrite T2. change (0 + 1 + 1)%Z with 2%Z. rewrite select_full.
  unfold parse_line. destruct (String.eqb ax "y"); reflexivity.
Qed.
Lemma mute_first_stopped a taper ax loc c1 cl w : loc = "before"%string \/ loc = "both"%string -> accepted c1 <> None ->
  interactive_mute a taper loc ax (mkUser (c1 :: cl) (Some true :: w)) = Returned (a, Err IndexError) (mkUser cl w).
Proof.
  intros H A. unfold interactive_mute. assert (T : (String.eqb loc "before" || String.eqb loc "both")%bool = true) by (destruct H as [-> | ->]; reflexivity).
  rewrite T. now rewrite pick_stopped.
Qed.
