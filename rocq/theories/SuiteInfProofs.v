(* Proofs about resampling with infinite values. *)
From Verif Require Import PyFacts NumFacts PeaksModel PeaksSpec PeaksProofs SuiteModel SuiteSpec SuiteProofs SuiteStatProofs SuiteInfSpec.
Local Open Scope string_scope.
Local Open Scope nat_scope.
Local Open Scope list_scope.

(** * Interpolation *)
Definition G (a : Qc * flt) : flt * flt := (Fin (fst a), snd a).
Fixpoint insert_q_f (a : Qc * flt) (l : list (Qc * flt)) : list (Qc * flt) :=
  match l with
  | [] => [a]
  | b :: t => if Qcltb (fst b) (fst a) then b :: insert_q_f a t else a :: l
  end.
Definition sort_q_f (l : list (Qc * flt)) : list (Qc * flt) := fold_right insert_q_f [] l.
Lemma sort_pts_G_f l : sort_pts (map G l) = map G (sort_q_f l).
Proof.
  induction l as [|a l IH]; cbn [map sort_pts fold_right sort_q_f]; [reflexivity|].
  unfold sort_pts in IH. rewrite IH. fold (sort_q_f l). generalize (sort_q_f l) as t. clear.
  induction t as [|b t IH]; cbn [map insert_pt insert_q_f]; [reflexivity|].
  cbn [G fst flt_lt]. destruct (Qcltb (fst b) (fst a)); cbn [map]; [|reflexivity].
  rewrite <- IH. reflexivity.
Qed.
Lemma insert_q_perm_f a l : Permutation (insert_q_f a l) (a :: l).
Proof.
  induction l as [|b t IH]; cbn; [auto|]. destruct (Qcltb (fst b) (fst a)); [|auto].
  rewrite IH. apply perm_swap.
Qed.
Lemma sort_q_perm_f l : Permutation (sort_q_f l) l.
Proof. induction l as [|a l IH]; cbn; [auto|]. rewrite insert_q_perm_f. auto. Qed.
Definition ltx_f (a b : Qc * flt) : Prop := (fst a < fst b)%Qc.
Definition lex_f (a b : Qc * flt) : Prop := (fst a <= fst b)%Qc.
Lemma insert_q_sorted_f a l : StronglySorted lex_f l -> StronglySorted lex_f (insert_q_f a l).
Proof.
  induction 1 as [|b t S IH Fb]; cbn; [repeat constructor|].
  destruct (Qcltb_spec (fst b) (fst a)) as [L|L].
  - constructor; [exact IH|]. rewrite Forall_forall in *. intros x Hx.
    apply (Permutation_in _ (insert_q_perm_f a t)) in Hx as [<-|Hx]; [apply Qclt_le_weak; exact L|auto].
  - constructor; [constructor; auto|]. apply Qcnot_lt_le in L. constructor; [exact L|].
    eapply Forall_impl; [|exact Fb]. intros x Hx. eapply Qcle_trans; eauto.
Qed.
Lemma sort_q_sorted_f l : StronglySorted lex_f (sort_q_f l).
Proof. induction l; cbn; [constructor|]. apply insert_q_sorted_f. auto. Qed.
Lemma sort_q_strict_f l : NoDup (map fst l) -> StronglySorted ltx_f (sort_q_f l).
Proof.
  intros N. assert (N' : NoDup (map fst (sort_q_f l))).
  { eapply Permutation_NoDup; [|exact N]. apply Permutation_map. symmetry. apply sort_q_perm_f. }
  pose proof (sort_q_sorted_f l) as S. revert N'. generalize (sort_q_f l), S. clear.
  induction 1 as [|b t S IH Fb]; intros N; constructor; inversion N; subst; auto.
  rewrite Forall_forall in *. intros x Hx. specialize (Fb x Hx). unfold ltx_f, lex_f in *.
  destruct (Qcle_lt_or_eq _ _ Fb) as [L|E]; [exact L|]. exfalso. apply H1. rewrite E.
  apply in_map. exact Hx.
Qed.
Lemma last_G_f t a : last (map G t) (G a) = G (last t a).
Proof. revert a. induction t as [|b t IH]; intros a; [reflexivity|]. cbn [map]. destruct t; [reflexivity|]. apply IH. Qed.

Lemma interp_from_spec_f t : forall a v, StronglySorted ltx_f (a :: t) ->
  (fst a <= v)%Qc -> (v <= fst (last t a))%Qc ->
  (exists c, In c (a :: t) /\ fst c = v /\ interp_from (G a) (map G t) (Fin v) = snd c)
  \/ (exists c d, In c (a :: t) /\ In d (a :: t) /\ (fst c < v)%Qc /\ (v < fst d)%Qc
        /\ (forall e, In e (a :: t) -> (fst e <= fst c)%Qc \/ (fst d <= fst e)%Qc)
        /\ interp_from (G a) (map G t) (Fin v)
           = interp_piece (G c) (G d) (Fin v)).
Proof.
  induction t as [|b t IH]; intros a v S La Lv.
  - left. exists a. cbn in Lv. split; [left; auto|]. split; [|reflexivity].
    apply Qcle_antisym; auto.
  - cbn [map interp_from G fst snd]. unfold flt_le; cbn [flt_lt flt_eq].
    inversion S as [|? ? S' Fa]; subst. rewrite last_cons in Lv.
    destruct (Qcltb_spec (fst b) v) as [L|L]; [|destruct (Qceqb_spec (fst b) v) as [E|E]]; cbn [orb].
    1,2: (destruct (IH b v S') as [(c & H1 & H2 & H3)|(c & d & H1 & H2 & H3 & H4 & H5 & H6)];
      [first [apply Qclt_le_weak; exact L|apply Qceq_le; exact E]|exact Lv|
       left; exists c; split; [right; exact H1|auto]|
       right; exists c, d; split; [right; exact H1|split; [right; exact H2|split; [exact H3|split; [exact H4|
         split; [|exact H6]]]]]; intros e [<-|He]; [left|auto];
         rewrite Forall_forall in Fa; specialize (Fa c H1); apply Qclt_le_weak; exact Fa]).
    apply Qcnot_lt_le in L. assert (Lb : (v < fst b)%Qc).
    { destruct (Qcle_lt_or_eq _ _ L) as [X|X]; [exact X|congruence]. }
    destruct (Qceqb_spec (fst a) v) as [Ea|Ea].
    + left. exists a. split; [left; auto|]. auto.
    + right. exists a, b. split; [left; auto|]. split; [right; left; auto|].
      split; [destruct (Qcle_lt_or_eq _ _ La) as [X|X]; [exact X|congruence]|]. split; [exact Lb|].
      split.
      * intros e [<-|[<-|He]]; [left; apply Qcle_refl|right; apply Qcle_refl|right].
        inversion S' as [|? ? _ Fb]; subst. rewrite Forall_forall in Fb. apply Qclt_le_weak. apply Fb. exact He.
      * reflexivity.
Qed.
Lemma first_least_f a t : StronglySorted ltx_f (a :: t) -> forall e, In e (a :: t) -> (fst a <= fst e)%Qc.
Proof.
  intros S e [<-|H]; [apply Qcle_refl|]. inversion S as [|? ? _ Fa]; subst.
  rewrite Forall_forall in Fa. apply Qclt_le_weak. apply Fa. exact H.
Qed.
Lemma last_greatest_f t : forall a, StronglySorted ltx_f (a :: t) ->
  forall e, In e (a :: t) -> (fst e <= fst (last t a))%Qc.
Proof.
  induction t as [|b t IH]; intros a S e H.
  - destruct H as [<-|[]]. apply Qcle_refl.
  - rewrite last_cons. inversion S as [|? ? S' Fa]; subst. destruct H as [<-|H]; [|apply IH; auto].
    apply Qcle_trans with (fst b); [|apply IH; [auto|left; auto]].
    inversion Fa; subst. apply Qclt_le_weak. assumption.
Qed.
Lemma combine_G_f xs ys : combine (map Fin xs) ys = map G (combine xs ys).
Proof. revert ys. induction xs as [|x xs IH]; intros [|y ys]; cbn; [auto|auto|auto|]. rewrite IH. reflexivity. Qed.
Lemma interp1d_spec_f xs ys v : List.length xs = List.length ys -> xs <> [] -> NoDup xs ->
  exists f, interp1d (map Fin xs) ys = Ok f
    /\ ((forall x, In x xs -> (v < x)%Qc) \/ (forall x, In x xs -> (x < v)%Qc) -> f (Fin v) = NaN)
    /\ (forall y, In (v, y) (combine xs ys) -> f (Fin v) = y)
    /\ (forall x1 y1 x2 y2, In (x1, y1) (combine xs ys) -> In (x2, y2) (combine xs ys) ->
          (x1 < v)%Qc -> (v < x2)%Qc -> (forall x, In x xs -> (x <= x1)%Qc \/ (x2 <= x)%Qc) ->
          f (Fin v) = interp_piece (Fin x1, y1) (Fin x2, y2) (Fin v)).
Proof.
  intros L NE N. set (pts := combine xs ys).
  assert (Efst : map fst pts = xs) by (apply combine_fst; auto).
  assert (S : StronglySorted ltx_f (sort_q_f pts)) by (apply sort_q_strict_f; rewrite Efst; auto).
  pose proof (sort_q_perm_f pts) as P.
  assert (U : forall p q, In p pts -> In q pts -> fst p = fst q -> p = q).
  { rewrite <- Efst in N. clear - N. induction pts as [|r l IH]; intros p q Hp Hq E; [contradiction|].
    cbn in N. inversion N as [|? ? N1 N2]; subst.
    destruct Hp as [<-|Hp], Hq as [<-|Hq]; auto.
    - exfalso. apply N1. rewrite E. apply in_map. auto.
    - exfalso. apply N1. rewrite <- E. apply in_map. auto. }
  unfold interp1d. rewrite !map_length, L, Nat.eqb_refl. cbn [negb].
  rewrite combine_G_f, sort_pts_G_f. fold pts.
  destruct (sort_q_f pts) as [|a t] eqn:E.
  { exfalso. apply Permutation_nil in P. unfold pts in P.
    destruct xs, ys; try discriminate; congruence. }
  assert (IP : forall c, In c (a :: t) <-> In c pts).
  { intros c. split; apply Permutation_in; [exact P|symmetry; exact P]. }
  assert (Fx : forall x, In x xs -> exists y, In (x, y) pts).
  { intros x Hx. rewrite <- Efst in Hx. apply in_map_iff in Hx as ([x' y] & <- & H). eauto. }
  assert (Xf : forall c, In c pts -> In (fst c) xs) by (intros c Hc; rewrite <- Efst; apply in_map; auto).
  cbn [map]. eexists; split; [reflexivity|]. cbn [is_nan]. rewrite last_G_f.
  cbn [G fst flt_lt]. split; [|split].
  - intros [H|H].
    + destruct (Qcltb_spec v (fst a)) as [X|X]; [reflexivity|]. exfalso. apply X. apply H. apply Xf.
      apply IP. left; auto.
    + destruct (Qcltb_spec v (fst a)) as [X|X]; [reflexivity|].
      destruct (Qcltb_spec (fst (last t a)) v) as [Y|Y]; [reflexivity|]. exfalso. apply Y. apply H.
      apply Xf. apply IP. apply last_In.
  - intros y Hy. apply IP in Hy.
    pose proof (first_least_f a t S _ Hy) as A1. pose proof (last_greatest_f t a S _ Hy) as A2. cbn [fst] in A1, A2.
    destruct (Qcltb_spec v (fst a)) as [X|X]; [exfalso; eapply Qclt_not_le; eauto|].
    destruct (Qcltb_spec (fst (last t a)) v) as [Y|Y]; [exfalso; eapply Qclt_not_le; eauto|].
    destruct (interp_from_spec_f t a v S A1 A2) as [(c & H1 & H2 & H3)|(c & d & H1 & H2 & H3 & H4 & H5 & H6)].
    + unfold G in H3 at 1; cbn [fst snd] in H3.
      change ((Fin (fst a), snd a)) with (G a). unfold G at 1. rewrite H3.
      assert (c = (v, y)) as -> by (apply U; [apply IP; auto|apply IP; auto|exact H2]). reflexivity.
    + exfalso. destruct (H5 _ Hy) as [Z|Z]; cbn [fst] in Z; [exact (Qclt_not_le _ _ H3 Z)|exact (Qclt_not_le _ _ H4 Z)].
  - intros x1 y1 x2 y2 I1 I2 L1 L2 Gap. apply IP in I1, I2.
    pose proof (first_least_f a t S _ I1) as A1. pose proof (last_greatest_f t a S _ I2) as A2. cbn [fst] in A1, A2.
    assert (B1 : (fst a <= v)%Qc) by (eapply Qcle_trans; [exact A1|apply Qclt_le_weak; exact L1]).
    assert (B2 : (v <= fst (last t a))%Qc) by (eapply Qcle_trans; [apply Qclt_le_weak; exact L2|exact A2]).
    destruct (Qcltb_spec v (fst a)) as [X|X]; [exfalso; eapply Qclt_not_le; eauto|].
    destruct (Qcltb_spec (fst (last t a)) v) as [Y|Y]; [exfalso; eapply Qclt_not_le; eauto|].
    change ((Fin (fst a), snd a)) with (G a).
    destruct (interp_from_spec_f t a v S B1 B2) as [(c & H1 & H2 & H3)|(c & d & H1 & H2 & H3 & H4 & H5 & H6)].
    + exfalso. destruct (Gap (fst c)) as [Z|Z]; [apply Xf; apply IP; auto| |]; rewrite H2 in Z;
        eapply Qclt_not_le; [exact L1|exact Z|exact L2|exact Z].
    + rewrite H6. assert (c = (x1, y1)) as ->.
      { apply U; [apply IP; auto|apply IP; auto|]. cbn [fst]. apply Qcle_antisym.
        - destruct (Gap (fst c)) as [Z|Z]; [apply Xf; apply IP; auto|exact Z|].
          exfalso. eapply Qclt_not_le; [|exact Z]. eapply Qclt_trans; eauto.
        - destruct (H5 _ I1) as [Z|Z]; [exact Z|]. cbn [fst] in Z.
          exfalso. eapply Qclt_not_le; [|exact Z]. eapply Qclt_trans; eauto. }
      assert (d = (x2, y2)) as ->.
      { apply U; [apply IP; auto|apply IP; auto|]. cbn [fst]. apply Qcle_antisym.
        - destruct (H5 _ I2) as [Z|Z]; [|exact Z]. cbn [fst] in Z.
          exfalso. eapply Qclt_not_le; [|exact Z]. eapply Qclt_trans; eauto.
        - destruct (Gap (fst d)) as [Z|Z]; [apply Xf; apply IP; auto| |exact Z].
          exfalso. eapply Qclt_not_le; [|exact Z]. eapply Qclt_trans; eauto. }
      reflexivity.
Qed.


Lemma sgn_pos x b : (0 < x)%Qc -> sgn_inf x b = if b then PInf else NInf.
Proof.
  intros H. unfold sgn_inf. destruct (Qceqb_spec x 0) as [L|L]; [exfalso; qclra|]. destruct (Qcltb_spec 0 x) as [M|M]; [|exfalso; qclra].
  destruct b; reflexivity.
Qed.
Lemma sgn_neg x b : (x < 0)%Qc -> sgn_inf x b = if b then NInf else PInf.
Proof.
  intros H. unfold sgn_inf. destruct (Qceqb_spec x 0) as [L|L]; [exfalso; qclra|]. destruct (Qcltb_spec 0 x) as [M|M]; [exfalso; qclra|].
  destruct b; reflexivity.
Qed.
Lemma piece_between x1 y1 x2 y2 v : (x1 < v)%Qc -> (v < x2)%Qc -> interp_piece (Fin x1, y1) (Fin x2, y2) (Fin v) = between x1 y1 x2 y2 v.
Proof.
  intros A B. unfold interp_piece, between. cbv zeta. cbn [fst snd].
  assert (P1 : (0 < x2 + - x1)%Qc) by qclra. assert (P2 : (0 < v + - x1)%Qc) by qclra. assert (P3 : (v + - x2 < 0)%Qc) by qclra.
  assert (E1 : Qcltb (x2 + - x1) 0 = false) by (destruct (Qcltb_spec (x2 + - x1) 0) as [L|L]; auto; exfalso; qclra).
  assert (E2 : Qceqb (x2 + - x1) 0 = false) by (destruct (Qceqb_spec (x2 + - x1) 0) as [L|L]; auto; exfalso; qclra).
  destruct y1 as [a| | |], y2 as [b| | |]; cbn [fsub fneg fadd fdiv]; rewrite ?E1, ?E2; cbn [fmul fadd]; rewrite ?(sgn_pos _ _ P2), ?(sgn_neg _ _ P3);
    cbn [fadd is_nan flt_eq andb]; try reflexivity.
  f_equal. unfold Qcminus. field. intros H. rewrite H in P1. exact (Qclt_not_le _ _ P1 (Qcle_refl _)).
Qed.

Lemma array_row_inf s xt yt xx p : well_formed s p -> readable p xt -> readable p yt ->
  sketchable xt yt p ->
  exists row, array_row xt yt xx p = Ok row
    /\ Forall2 (fun x e => forall v, x = Fin v -> value_between xt yt p v e) xx row.
Proof.
  intros W Rx Ry [Fi Di]. destruct (simplify_used s p W) as (sel & Is & Ns & Es).
  unfold array_row. rewrite (Es xt Rx), (Es yt Ry). cbn [bind].
  destruct (all_fin (value p xt) sel) as [xs Ex].
  { intros i Hi. apply Is in Hi. destruct (Fi i Hi) as ((a & E) & _). eauto. }
  set (ys := map (value p yt) sel).
  rewrite Ex.
  assert (NN : forall qs, existsb is_nan (map Fin qs) = false) by (induction qs; cbn; auto).
  rewrite !NN. cbn [orb].
  assert (existsb is_nan ys = false) as ->.
  { unfold ys. clear -Fi Is. assert (H : forall i, In i sel -> value p yt i <> NaN) by (intros i I; apply Fi, Is, I). clear Is Fi. induction sel as [|i l IH]; cbn; [reflexivity|].
    rewrite IH by (intros j J; apply H; now right). specialize (H i (or_introl eq_refl)). destruct (value p yt i); auto; congruence. }
  assert (Lx : List.length xs = List.length sel) by (apply (f_equal (@List.length _)) in Ex; rewrite !map_length in Ex; auto).
  assert (Ly : List.length ys = List.length sel) by apply map_length.
  destruct sel as [|i0 sel0].
  { destruct xs; [|discriminate]. cbn.
    eexists. split; [reflexivity|]. clear - Is. induction xx as [|x xx IH]; cbn; constructor; auto.
    intros v _. split; [auto|]. split; [auto|]. split; intros; exfalso; eapply (Is i); auto. }
  set (sel := i0 :: sel0) in *.
  assert (Nx : NoDup xs).
  { assert (M : NoDup (map (value p xt) sel)).
    { clear - Ns Is Di. assert (D : forall i j, In i sel -> In j sel -> value p xt i = value p xt j -> i = j)
        by (intros; apply Di; auto; apply Is; auto). clear Is Di.
      induction Ns as [|i l H N IH]; cbn; constructor.
      - intros Hi. apply in_map_iff in Hi as (j & E & Hj). apply H.
        rewrite (D i j); auto; [left|right]; auto.
      - apply IH. intros a b Ha Hb. apply D; right; auto. }
    rewrite Ex in M. clear - M. induction xs as [|x l IH]; cbn in *; constructor; inversion M; subst; auto.
    intros H. apply H1. apply in_map. auto. }
  assert (PT : forall i a b, used p i -> value p xt i = Fin a -> value p yt i = b ->
            In (a, b) (combine xs ys)).
  { intros i a b U Ea Eb. apply Is in U. pose proof (combine_map (value p xt) (value p yt) sel) as C.
    rewrite Ex in C. fold ys in C. rewrite combine_G_f in C.
    assert (X : In (value p xt i, value p yt i) (map G (combine xs ys))).
    { rewrite C. apply (in_map (fun i => (value p xt i, value p yt i))). exact U. }
    rewrite Ea, Eb in X. apply in_map_iff in X as ([a' b'] & E & X). injection E as -> ->. exact X. }
  assert (TP : forall a, In a xs -> exists i, used p i /\ value p xt i = Fin a).
  { intros a Ha. apply (in_map Fin) in Ha. rewrite <- Ex in Ha. apply in_map_iff in Ha as (i & E & Hi).
    exists i. split; [apply Is; auto|auto]. }
  assert (XS : xs <> []) by (intros ->; cbn in Lx; discriminate).
  destruct (interp1d_spec_f xs ys 0%Qc ltac:(lia) XS Nx) as (f & Ef & _).
  rewrite Ef. eexists. split; [reflexivity|].
  assert (K : forall v, value_between xt yt p v (f (Fin v))).
  { intros v. destruct (interp1d_spec_f xs ys v ltac:(lia) XS Nx) as (f' & Ef' & A & B & C).
    rewrite Ef in Ef'. injection Ef' as <-. split; [|split; [|split]].
    - intros H. apply A. left. intros x Hx. destruct (TP x Hx) as (i & U & E). eauto.
    - intros H. apply A. right. intros x Hx. destruct (TP x Hx) as (i & U & E). eauto.
    - intros i U E. apply B. eapply PT; eauto.
    - intros i j xi xj Ui Uj Exi Exj L1 L2 Gap. rewrite <- piece_between by auto.
      apply C; eauto. intros x Hx. destruct (TP x Hx) as (k & U & E). eauto. }
  clear - K. induction xx as [|x xx IH]; cbn; constructor; auto. intros v ->. apply K.
Qed.
