(* Proofs about interactive_trimming. *)
From Verif Require Import PyFacts NumFacts PeaksModel PeaksSpec PeaksProofs.
From Verif Require Import SuiteModel SuiteSpec.
Local Open Scope nat_scope.
Local Open Scope list_scope.

Definition wf_any (p : peaks) : Prop := exists s, well_formed s p.

Lemma F2_In_l {A B} (R : A -> B -> Prop) l m a : Forall2 R l m -> In a l -> exists b, In b m /\ R a b.
Proof. induction 1; intros []; subst; firstorder. Qed.
Lemma F2_In_r {A B} (R : A -> B -> Prop) l m b : Forall2 R l m -> In b m -> exists a, In a l /\ R a b.
Proof. induction 1; intros []; subst; firstorder. Qed.

Lemma draw_box_none gs : draw_box gs = None -> boxes_of gs = [].
Proof.
  induction gs as [|g gs IH]; [reflexivity|]. cbn [draw_box].
  unfold boxes_of in *; cbn [flat_map]. unfold drawn at 1.
  destruct (points g) as [|[x1 y1] [|[x2 y2] [|]]]; try discriminate.
  destruct (clicked g) as [|a [|b [|]]]; auto.
  destruct (a =? b); [discriminate|auto].
Qed.
Lemma draw_box_some gs b gs' : draw_box gs = Some (Ok b, gs') ->
  boxes_of gs = b :: boxes_of gs' /\ List.length gs' < List.length gs.
Proof.
  induction gs as [|g gs IH]; [discriminate|]. cbn [draw_box].
  unfold boxes_of in *; cbn [flat_map]. unfold drawn at 1.
  destruct (points g) as [|[x1 y1] [|[x2 y2] [|]]]; try discriminate.
  destruct (clicked g) as [|a [|b' [|]]]; cbn [app List.length];
    try (intros H; destruct (IH H); split; [auto|lia]).
  destruct (a =? b').
  - intros [= <- <-]. split; [reflexivity|lia].
  - cbn [app]. intros H; destruct (IH H); split; [auto|lia].
Qed.
Lemma next_decision_none ans : next_decision ans = None -> decisions_of ans = [].
Proof.
  induction ans as [|a ans IH]; [reflexivity|]. cbn [next_decision].
  unfold decisions_of in *; cbn [flat_map]. unfold typed at 1.
  destruct (String.eqb a "0"); [discriminate|]. destruct (String.eqb a "1"); [discriminate|].
  destruct (String.eqb a "2"); [discriminate|]. auto.
Qed.
Lemma next_decision_some ans d ans' : next_decision ans = Some (d, ans') ->
  decisions_of ans = d :: decisions_of ans'.
Proof.
  induction ans as [|a ans IH]; [discriminate|]. cbn [next_decision].
  unfold decisions_of in *; cbn [flat_map]. unfold typed at 1.
  destruct (String.eqb a "0"); [intros [= <- <-]; reflexivity|].
  destruct (String.eqb a "1"); [intros [= <- <-]; reflexivity|].
  destruct (String.eqb a "2"); [intros [= <- <-]; reflexivity|]. auto.
Qed.

Section Trim.
  Variables xt yt : list string.

  Definition mask_shape (p : peaks) (m : nd bool) : Prop :=
    forall s, well_formed s p -> shp m = s /\ List.length (dat m) = size s.
  (* m is the mask of the valid peaks in one of the boxes *)
  Definition acc_rel (pend : list box) (p : peaks) (m : nd bool) : Prop :=
    mask_shape p m
    /\ forall i, nth i (dat m) false = is_valid p i && existsb (fun b => hit xt yt p b i) pend.

  Lemma has_attr_dec p k : has_attr p k \/ ~ has_attr p k.
  Proof. exact (applicable_dec p (Limits k None None)). Qed.
  Lemma box_mask_hit p x y xl yl m : wf_any p -> box_mask p x xl y yl = Ok m ->
    mask_shape p m
    /\ forall i, nth i (dat m) false
                 = is_valid p i && (strictly_between xl (value p x i) && strictly_between yl (value p y i)).
  Proof.
    intros [s0 W] E.
    assert (has_attr p x /\ has_attr p y) as [Hx Hy].
    { destruct (has_attr_dec p x) as [Hx|Hx].
      2:{ unfold box_mask in E. rewrite (stored_err p x Hx) in E. discriminate. }
      split; [auto|]. destruct (has_attr_dec p y) as [Hy|Hy]; [auto|].
      unfold box_mask in E. destruct (stored_ok s0 p W x Hx) as (a & Ea & _).
      rewrite Ea, (stored_err p y Hy) in E. discriminate. }
    destruct (box_mask_ok s0 p x xl y yl W Hx Hy) as (m' & E' & S & L & N).
    rewrite E in E'. injection E' as <-. split; [|exact N].
    intros s W'. assert (s = s0); [|subst; auto].
    destruct W as (_ & _ & V & _). destruct W' as (_ & _ & V' & _). congruence.
  Qed.
  Lemma box_masks_spec ps b ms : Forall wf_any ps -> box_masks xt yt ps b = Ok ms ->
    Forall2 (acc_rel [b]) ps ms.
  Proof.
    intros F E. unfold box_masks in E. apply mapM_ok in E.
    revert F. induction E as [|p m ps ms H E IH]; intros F; [constructor|].
    inversion F; subst. constructor; [|auto].
    destruct (nth_error xt (baxis b)) as [x|] eqn:X; [|discriminate].
    destruct (nth_error yt (baxis b)) as [y|] eqn:Y; [|discriminate].
    apply box_mask_hit in H; [|auto]. destruct H as [S N]. split; [exact S|].
    intros i. rewrite N. cbn [existsb]. unfold hit. rewrite X, Y, orb_false_r. reflexivity.
  Qed.
  Lemma nth_map2_orb l m i : List.length l = List.length m ->
    nth i (map2 orb l m) false = nth i l false || nth i m false.
  Proof.
    revert m i. induction l as [|a l IH]; intros [|b m] i H; cbn in *; try discriminate.
    - destruct i; reflexivity.
    - destruct i; [reflexivity|]. apply IH. lia.
  Qed.
  Lemma acc_or pend b ps acc ms : Forall wf_any ps ->
    Forall2 (acc_rel pend) ps acc -> Forall2 (acc_rel [b]) ps ms ->
    Forall2 (acc_rel (pend ++ [b])) ps (map2 nd_or acc ms).
  Proof.
    intros F A. revert ms. induction A as [|p a ps acc [Sa Na] A IH]; intros ms M;
      inversion M as [|? m ? ms' [Sm Nm] M']; subst; cbn [map2]; [constructor|].
    inversion F as [|? ? [s W] F']; subst. constructor; [|auto].
    destruct (Sa s W) as [S1 L1]. destruct (Sm s W) as [S2 L2]. split.
    - intros s' W'. destruct (Sa s' W') as [S1' L1']. destruct (Sm s' W') as [S2' L2'].
      unfold nd_or; cbn [shp dat]. rewrite length_map2. split; [auto|lia].
    - intros i. unfold nd_or; cbn [dat]. rewrite nth_map2_orb by lia. rewrite Na, Nm.
      rewrite existsb_app. destruct (is_valid p i); reflexivity.
  Qed.
  Lemma any_true_nth l : existsb (fun b => b) l = true <-> exists i, nth i l false = true.
  Proof.
    rewrite existsb_exists. split.
    - intros (x & H & ->). destruct (In_nth l true false H) as (i & _ & E). eauto.
    - intros [i E]. exists true. split; [|auto]. rewrite <- E. apply nth_In.
      destruct (Nat.lt_ge_cases i (List.length l)); [auto|]. rewrite nth_overflow in E by auto. discriminate.
  Qed.
  Lemma any_spec ps b ms : Forall2 (acc_rel [b]) ps ms ->
    existsb any_true ms = true <-> holds_some xt yt [] ps b.
  Proof.
    intros M. rewrite existsb_exists. unfold holds_some. split.
    - intros (m & Hm & E). destruct (F2_In_r _ _ _ _ M Hm) as (p & Hp & [_ N]).
      unfold any_true in E. apply any_true_nth in E as [i E]. rewrite N in E.
      apply andb_true_iff in E as [E1 E2]. cbn [existsb] in E2. rewrite orb_false_r in E2.
      exists p, i. auto.
    - intros (p & i & Hp & V & _ & H). destruct (F2_In_l _ _ _ _ M Hp) as (m & Hm & [_ N]).
      exists m. split; [auto|]. unfold any_true. apply any_true_nth. exists i. rewrite N, V.
      cbn [existsb]. rewrite H. reflexivity.
  Qed.

  (* one step of committing or undoing *)
  Definition after (log : list group) (p p' : peaks) : Prop :=
    fields p' = fields p /\ identifier p' = identifier p
    /\ (forall s, well_formed s p -> well_formed s p')
    /\ forall i, is_valid p' i = is_valid p i && negb (removed xt yt log p i).
  Lemma hit_fields p p' b i : fields p' = fields p -> hit xt yt p' b i = hit xt yt p b i.
  Proof.
    intros F. unfold hit. destruct (nth_error xt (baxis b)); auto.
    destruct (nth_error yt (baxis b)); auto.
    unfold value, vel, frq, raw. rewrite F. reflexivity.
  Qed.
  Lemma removed_fields log p p' i : fields p' = fields p ->
    removed xt yt log p' i = removed xt yt log p i.
  Proof.
    intros F. unfold removed.
    induction log as [|g log IH]; cbn [existsb]; [reflexivity|]. rewrite IH. f_equal. f_equal.
    induction (fst g) as [|b bs IHb]; cbn [existsb]; [reflexivity|].
    rewrite IHb, (hit_fields p p' b i F). reflexivity.
  Qed.
  Lemma after_nil p : after [] p p.
  Proof. split; [auto|]. split; [auto|]. split; [auto|]. intros i. cbn. rewrite andb_true_r. reflexivity. Qed.
  Lemma after_nil_all ps : Forall2 (after []) ps ps.
  Proof. induction ps; constructor; auto using after_nil. Qed.
  Lemma after_cons g log p p' p'' : after [g] p p' -> after log p' p'' -> after (g :: log) p p''.
  Proof.
    intros (F1 & I1 & W1 & V1) (F2 & I2 & W2 & V2).
    split; [congruence|]. split; [congruence|]. split; [auto|]. intros i.
    rewrite V2, V1, (removed_fields log p p' i F1).
    unfold removed at 3; cbn [existsb]. fold (removed xt yt log p i).
    unfold removed at 1; cbn [existsb]. rewrite orb_false_r, negb_orb, andb_assoc. reflexivity.
  Qed.
  Lemma after_cons_all g log ps ps' ps'' :
    Forall2 (after [g]) ps ps' -> Forall2 (after log) ps' ps'' -> Forall2 (after (g :: log)) ps ps''.
  Proof.
    intros A. revert ps''. induction A; intros ps'' B; inversion B; subst; constructor; auto.
    eapply after_cons; eauto.
  Qed.
  Lemma undo_after pend ps : Forall2 (after [(pend, Undo)]) ps ps.
  Proof. induction ps; constructor; auto. apply after_nil. Qed.
  Lemma reject_all_after d pend ps acc : d <> Undo -> Forall wf_any ps -> Forall2 (acc_rel pend) ps acc ->
    Forall2 (after [(pend, d)]) ps (reject_all ps acc).
  Proof.
    intros Hd F A. revert F. induction A as [|p m ps acc [S N] A IH]; intros F; [constructor|].
    inversion F as [|? ? [s W] F']; subst. cbn [reject_all map2]. constructor; [|apply IH; auto].
    destruct (S s W) as [Sm Lm].
    destruct (reject_ok s p m W Sm Lm) as (p' & E & W' & Ff & I & _ & V). rewrite E. cbn [fst].
    split; [auto|]. split; [auto|]. split.
    - intros s' W''. assert (s' = s); [|subst; auto].
      destruct W as (_ & _ & X & _). destruct W'' as (_ & _ & X' & _). congruence.
    - intros i. rewrite V, N. unfold removed; cbn [existsb]. rewrite orb_false_r.
      assert (committed (pend, d) = true) as -> by (unfold committed; cbn; destruct d; congruence).
      cbn [fst andb]. destruct (is_valid p i); reflexivity.
  Qed.
  Lemma after_wf log ps ps' : Forall wf_any ps -> Forall2 (after log) ps ps' -> Forall wf_any ps'.
  Proof.
    intros F A. revert F. induction A as [|p p' ps ps' (_ & _ & W & _) A IH]; intros F; [constructor|].
    inversion F as [|? ? [s Ws] F']; subst. constructor; [exists s; auto|auto].
  Qed.
  Lemma zeros_acc ps : Forall wf_any ps -> Forall2 (acc_rel []) ps (map (fun p => zeros_like (valid p)) ps).
  Proof.
    induction 1 as [|p ps [s W] F IH]; cbn [map]; constructor; auto.
    destruct W as (_ & _ & S & L & _). split.
    - intros s' (_ & _ & S' & L' & _). destruct (zeros_like_ok s' (valid p) S' L'). tauto.
    - intros i. destruct (zeros_like_ok s (valid p) S L) as (_ & _ & Z). rewrite Z.
      cbn. rewrite andb_false_r. reflexivity.
  Qed.
  Lemma holds_some_step g log ps ps' b : Forall2 (after [g]) ps ps' ->
    holds_some xt yt (g :: log) ps b <-> holds_some xt yt log ps' b.
  Proof.
    intros A. unfold holds_some. split.
    - intros (p & i & Hp & V & R & H). destruct (F2_In_l _ _ _ _ A Hp) as (p' & Hp' & (F & _ & _ & V')).
      exists p', i. split; [auto|]. unfold removed in R; cbn [existsb] in R.
      apply orb_false_iff in R as [R1 R2]. split.
      + rewrite V', V. unfold removed; cbn [existsb]. rewrite R1. reflexivity.
      + split; [rewrite (removed_fields log p p' i F); exact R2|].
        rewrite (hit_fields p p' b i F). exact H.
    - intros (p' & i & Hp' & V & R & H). destruct (F2_In_r _ _ _ _ A Hp') as (p & Hp & (F & _ & _ & V')).
      exists p, i. rewrite V' in V. apply andb_true_iff in V as [V1 V2]. apply negb_true_iff in V2.
      split; [auto|]. split; [auto|]. split.
      + unfold removed in V2; cbn [existsb] in V2. rewrite orb_false_r in V2.
        unfold removed; cbn [existsb]. rewrite V2. cbn [orb].
        change (removed xt yt log p i = false). rewrite <- (removed_fields log p p' i F). exact R.
      + rewrite <- (hit_fields p p' b i F). exact H.
  Qed.

  Definition groups_ok (ps : list peaks) (log : list group) : Prop :=
    forall l1 g d l2, log = l1 ++ (g, d) :: l2 ->
      exists bs b, g = bs ++ [b] /\ (forall b', In b' bs -> holds_some xt yt l1 ps b')
                   /\ ~ holds_some xt yt l1 ps b.

  Lemma trim_loop_spec fuel : forall ps acc gs ans pend ps' out,
    Forall wf_any ps -> Forall2 (acc_rel pend) ps acc ->
    (forall b, In b pend -> holds_some xt yt [] ps b) ->
    List.length gs < fuel ->
    trim_loop fuel xt yt ps acc gs ans = (ps', out) ->
    exists log open rest,
      Forall2 (after log) ps ps'
      /\ pend ++ boxes_of gs = concat (map fst log) ++ open ++ rest
      /\ prefix (map snd log) (decisions_of ans)
      /\ groups_ok ps log
      /\ (out = Finished <-> exists l g, log = l ++ [(g, Quit)])
      /\ (forall l1 g l2, log = l1 ++ (g, Quit) :: l2 -> l2 = [])
      /\ (out = Finished -> open = [])
      /\ (out = Waiting -> rest = [] \/ decisions_of ans = map snd log).
  Proof.
    induction fuel as [|fuel IH]; intros ps acc gs ans pend ps' out F A P L E; [lia|].
    assert (stop : forall o rest, o <> Finished -> pend ++ boxes_of gs = [] ++ pend ++ rest ->
              (o = Waiting -> rest = [] \/ decisions_of ans = []) ->
              exists log open rest,
      Forall2 (after log) ps ps
      /\ pend ++ boxes_of gs = concat (map fst log) ++ open ++ rest
      /\ prefix (map snd log) (decisions_of ans)
      /\ groups_ok ps log
      /\ (o = Finished <-> exists l g, log = l ++ [(g, Quit)])
      /\ (forall l1 g l2, log = l1 ++ (g, Quit) :: l2 -> l2 = [])
      /\ (o = Finished -> open = [])
      /\ (o = Waiting -> rest = [] \/ decisions_of ans = map snd log)).
    { intros o rest O B Wt. exists [], pend, rest. split; [apply after_nil_all|]. split; [exact B|].
      split; [exists (decisions_of ans); reflexivity|].
      split; [intros [|? ?] g d l2 X; discriminate|].
      split; [split; [contradiction|intros ([|? ?] & g & X); discriminate]|].
      split; [intros [|? ?] g l2 X; discriminate|].
      split; [intros; contradiction|]. exact Wt. }
    cbn [trim_loop] in E. destruct (draw_box gs) as [[[b|e] gs']|] eqn:D.
    2:{ injection E as <- <-. apply (stop _ (boxes_of gs)); auto; discriminate. }
    2:{ injection E as <- <-. apply draw_box_none in D. apply (stop _ []); auto; try discriminate.
        rewrite D. reflexivity. }
    apply draw_box_some in D as [D1 D2].
    destruct (box_masks xt yt ps b) as [ms|e] eqn:M.
    2:{ injection E as <- <-. apply (stop _ (boxes_of gs)); auto; discriminate. }
    apply box_masks_spec in M; [|auto].
    pose proof (acc_or pend b ps acc ms F A M) as A'.
    destruct (existsb any_true ms) eqn:X.
    { destruct (IH ps (map2 nd_or acc ms) gs' ans (pend ++ [b]) ps' out F A') as
        (log & open & rest & C1 & C2 & C3); auto; try lia.
      { intros b' Hb. apply in_app_or in Hb as [Hb|[<-|[]]]; [auto|]. apply (any_spec ps b ms M). exact X. }
      exists log, open, rest. split; [auto|]. split; [|exact C3].
      rewrite D1. rewrite <- app_assoc in C2. exact C2. }
    assert (NH : ~ holds_some xt yt [] ps b).
    { intros H. apply (any_spec ps b ms M) in H. congruence. }
    destruct (next_decision ans) as [[d ans']|] eqn:N.
    2:{ injection E as <- <-. apply next_decision_none in N. apply (stop _ (boxes_of gs)); auto.
        discriminate. }
    apply next_decision_some in N.
    set (ps1 := match d with Undo => ps | _ => reject_all ps (map2 nd_or acc ms) end) in *.
    assert (A1 : Forall2 (after [(pend ++ [b], d)]) ps ps1).
    { destruct d; cbn; [apply reject_all_after; auto; discriminate
                       |apply reject_all_after; auto; discriminate|apply undo_after]. }
    assert (G0 : exists bs b', pend ++ [b] = bs ++ [b']
                  /\ (forall b0, In b0 bs -> holds_some xt yt [] ps b0) /\ ~ holds_some xt yt [] ps b').
    { exists pend, b. auto. }
    assert (E' : (d = Quit /\ ps' = ps1 /\ out = Finished)
                 \/ (d <> Quit /\ trim_loop fuel xt yt ps1 (map (fun p => zeros_like (valid p)) ps1) gs' ans'
                                  = (ps', out))).
    { destruct d; [left|right|right]; cbn in ps1; try (split; [discriminate|exact E]).
      injection E as <- <-. auto. }
    destruct E' as [(-> & -> & ->)|(Hd & E')].
    { exists [(pend ++ [b], Quit)], [], (boxes_of gs'). split; [exact A1|].
      split; [cbn; rewrite D1, app_nil_r, <- app_assoc; reflexivity|].
      split; [rewrite N; exists (decisions_of ans'); reflexivity|].
      split.
      { intros [|? [|? ?]] g d l2 Q; try discriminate. injection Q as <- <- _. exact G0. }
      split; [split; [intros _; exists [], (pend ++ [b]); reflexivity|auto]|].
      split; [intros [|? [|? ?]] g l2 Q; try discriminate; injection Q; auto|].
      split; [auto|discriminate]. }
    pose proof (after_wf _ _ _ F A1) as F1.
    destruct (IH ps1 _ gs' ans' [] ps' out F1 (zeros_acc ps1 F1)) as
        (log & open & rest & C1 & C2 & C3 & C4 & C5 & C6 & C7 & C8); auto; try lia.
    { intros b' []. }
    exists ((pend ++ [b], d) :: log), open, rest.
    split; [eapply after_cons_all; eauto|].
    split; [cbn [map concat fst]; rewrite D1; cbn [app] in C2; rewrite C2, <- !app_assoc; reflexivity|].
    split; [destruct C3 as [t C3]; exists t; rewrite N, C3; reflexivity|].
    split.
    { intros [|g1 l1] g d' l2 Q.
      - injection Q as <- <- _. exact G0.
      - injection Q as <- Q. destruct (C4 _ _ _ _ Q) as (bs & b' & Eg & H1 & H2).
        exists bs, b'. split; [auto|]. split.
        + intros b0 Hb. apply (holds_some_step _ l1 ps ps1 b0 A1). auto.
        + intros H. apply H2. apply (holds_some_step _ l1 ps ps1 b' A1). exact H. }
    split.
    { rewrite C5. split.
      - intros (l & g & ->). exists ((pend ++ [b], d) :: l), g. reflexivity.
      - intros ([|g1 l] & g & Q).
        + injection Q as _ Q _. contradiction.
        + injection Q as _ Q. eauto. }
    split.
    { intros [|g1 l1] g l2 Q.
      - injection Q as _ Q _. contradiction.
      - injection Q as _ Q. eauto. }
    split; [auto|]. intros O. destruct (C8 O) as [C|C]; [auto|]. right. rewrite N, C. reflexivity.
  Qed.
End Trim.

Lemma trimming_spec xt yt ps gs ans ps' out :
  List.length xt = List.length yt -> Forall wf_any ps ->
  interactive_trimming xt yt ps gs ans = (ps', out) ->
  exists log open rest,
    Forall2 (after xt yt log) ps ps'
    /\ boxes_of gs = concat (map fst log) ++ open ++ rest
    /\ prefix (map snd log) (decisions_of ans)
    /\ groups_ok xt yt ps log
    /\ (out = Finished <-> exists l g, log = l ++ [(g, Quit)])
    /\ (forall l1 g l2, log = l1 ++ (g, Quit) :: l2 -> l2 = [])
    /\ (out = Finished -> open = [])
    /\ (out = Waiting -> rest = [] \/ decisions_of ans = map snd log).
Proof.
  intros Le F E. unfold interactive_trimming in E. rewrite Le, Nat.eqb_refl in E. cbn [negb] in E.
  destruct (trim_loop_spec xt yt (S (List.length gs)) ps _ gs ans [] ps' out F (zeros_acc xt yt ps F))
    as (log & open & rest & C); auto.
  - intros b [].
  - exists log, open, rest. exact C.
Qed.
