(* Proofs about loading peaks from JSON trees of any depth. *)
From Verif Require Import PyFacts PeaksModel PeaksSpec PeaksLoadSpec PeaksLoadProofs PeaksTreeModel PeaksTreeSpec.
Local Open Scope list_scope.
Local Open Scope string_scope.

(** ** Arrays *)
Lemma json_deep (P : json -> Prop) : (forall l, Forall P l -> P (JArr l)) -> (forall j, (forall l, j <> JArr l) -> P j) -> forall j, P j.
Proof.
  intros HA HL. fix IH 1. intros [x|b| |s|l|kv]; [apply HL; discriminate..| |apply HL; discriminate].
  apply HA. induction l as [|j l IHl]; constructor; [apply IH|apply IHl].
Qed.
Lemma all_some_iff {A B} (f : A -> option B) l ts : all_some (map f l) = Some ts <-> Forall2 (fun x y => f x = Some y) l ts.
Proof.
  revert ts. induction l as [|x l IH]; intros ts; cbn [map all_some].
  - split; [intros E; injection E as <-; constructor|]. inversion 1; reflexivity.
  - destruct (f x) as [y|] eqn:E.
    + destruct (all_some (map f l)) as [r|] eqn:Q.
      * split; [intros H; injection H as <-; constructor; auto; now apply IH|]. inversion 1 as [|? ? ? t X Y]; subst. apply IH in Y. congruence.
      * split; [discriminate|]. inversion 1 as [|? ? ? t X Y]; subst. apply IH in Y. congruence.
    + split; [discriminate|]. inversion 1. congruence.
Qed.
Lemma pile_iff {A} (ts : list (tensor A)) t : pile ts = Some t <->
  (ts = [] /\ t = Tensor [0%nat] []) \/
  exists t0 r, ts = t0 :: r /\ (forall u, In u ts -> dims u = dims t0) /\ t = Tensor (S (List.length r) :: dims t0) (List.concat (map entries ts)).
Proof.
  destruct ts as [|t0 r]; cbn [pile].
  - split; [intros E; injection E as <-; now left|]. intros [[_ ->]|(? & ? & ? & _)]; [reflexivity|discriminate].
  - assert (B : forallb (fun u => same_dims (dims u) (dims t0)) (t0 :: r) = true <-> forall u, In u (t0 :: r) -> dims u = dims t0).
    { rewrite forallb_forall. unfold same_dims. split; intros H u I; specialize (H u I); destruct (list_eq_dec _ _ _); auto; discriminate. }
    destruct (forallb _ _) eqn:F.
    + split; [intros E; injection E as <-; right; exists t0, r; split; [auto|split; [now apply B|auto]]|].
      intros [[? _]|(t1 & r1 & E & _ & ->)]; [discriminate|]. injection E as <- <-. reflexivity.
    + split; [discriminate|]. intros [[? _]|(t1 & r1 & E & H & _)]; [discriminate|]. injection E as <- <-. apply B in H. discriminate.
Qed.

Section Trees.
  Context {A : Type} (leaf : json -> option A) (R : json -> A -> Prop).
  Hypothesis LR : forall j x, leaf j = Some x <-> R j x.
  Hypothesis leaves : forall l x, ~ R (JArr l) x.

  Lemma np_array_iff j : forall t, np_array leaf j = Some t <-> regular R j (dims t) (entries t).
  Proof.
    induction j as [l IH|j NA] using json_deep.
    - intros [s e]. cbn [np_array dims entries].
      assert (IH2 : forall ts, Forall2 (fun x y => np_array leaf x = Some y) l ts <-> Forall2 (fun x y => regular R x (dims y) (entries y)) l ts).
      { intros ts. revert IH. clear. revert ts. induction l as [|x l IHl]; intros ts F; [split; inversion 1; constructor|].
        inversion F as [|? ? F1 F2]; subst. split; inversion 1; subst; constructor; try (now apply F1); now apply IHl. }
      destruct (all_some (map (np_array leaf) l)) as [ts|] eqn:E.
      + apply all_some_iff in E. apply IH2 in E as F. rewrite pile_iff. split.
        * intros [[-> Q]|(t0 & r & -> & D & Q)]; injection Q as -> ->.
          -- inversion F. constructor.
          -- inversion F as [|j ? js ? Rj Rr]; subst. rewrite <- (Forall2_length _ _ _ Rr). apply (some_entries R j js (dims t0) (map entries (t0 :: r))).
             assert (G : Forall2 (fun x y => regular R x (dims t0) (entries y)) (j :: js) (t0 :: r)).
             { clear - F D. revert F D. generalize (t0 :: r) as q, (j :: js) as l. generalize (dims t0) as s. clear. intros s q l F. induction F as [|x y l q Rx F IH]; intros D; constructor.
               - rewrite <- (D y (or_introl eq_refl)). exact Rx.
               - apply IH. intros u I. apply D. now right. }
             clear - G. revert G. generalize (t0 :: r) as q, (j :: js) as l. intros q l G. induction G; cbn [map]; constructor; auto.
        * intros G. inversion G as [j x Q|Q|j js s0 ls G2]; subst.
          -- exfalso. eapply leaves; eauto.
          -- inversion E; subst. now left.
          -- right. inversion E as [|? t0 ? r N0 Nr]; subst. exists t0, r. split; [auto|].
             assert (X : forall q ms, Forall2 (fun x y => np_array leaf x = Some y) q ms -> Forall (fun j => forall t, np_array leaf j = Some t <-> regular R j (dims t) (entries t)) q ->
               forall ls, Forall2 (fun j l => regular R j s0 l) q ls -> map entries ms = ls /\ forall u, In u ms -> dims u = s0).
             { clear. intros q ms F. induction F as [|x y q ms Nx F IHF]; intros IH ls G; inversion G as [|? l1 ? ls1 R1 R2]; subst; [split; [auto|intros u []]|].
               inversion IH as [|? ? I1 I2]; subst. destruct (IHF I2 _ R2) as [<- D].
               assert (Q : np_array leaf x = Some (Tensor s0 l1)) by (now apply I1). rewrite Nx in Q. injection Q as ->. cbn [map entries dims].
               split; [auto|]. intros u [<-|I]; auto. }
             destruct (X _ _ E IH _ G2) as [<- D]. split.
             { intros u I. rewrite (D u I). symmetry. apply D. now left. }
             rewrite (Forall2_length _ _ _ Nr), (D t0 (or_introl eq_refl)). reflexivity.
      + split; [discriminate|]. intros G. exfalso.
        assert (X : exists ts, Forall2 (fun x y => np_array leaf x = Some y) l ts).
        { inversion G as [j x Q|Q|j js s0 ls G2]; subst; [exfalso; eapply leaves; eauto|exists []; constructor|].
          clear - G2 IH. revert ls G2. induction IH as [|x q I1 I2 IHI]; intros ls G; [exists []; constructor|].
          inversion G as [|? l1 ? ls1 R1 R2]; subst. destruct (IHI _ R2) as [ts T]. exists (Tensor s0 l1 :: ts). constructor; auto. now apply I1. }
        destruct X as [ts T]. apply all_some_iff in T. congruence.
    - intros [s e]. cbn [dims entries].
      assert (Q : np_array leaf j = match leaf j with Some x => Some (Tensor [] [x]) | None => None end).
      { destruct j; try reflexivity. exfalso. now apply (NA l). }
      rewrite Q. split.
      + destruct (leaf j) as [x|] eqn:E; [|discriminate]. intros H. injection H as <- <-. constructor. now apply LR.
      + intros G. inversion G as [j' x G1|G1|? ? ? ? G1]; subst; [|exfalso; eapply NA; reflexivity..]. apply LR in G1. now rewrite G1.
  Qed.
End Trees.

Section Flat.
  Context {A : Type} (R R' : json -> A -> Prop).
  Hypothesis leaves : forall l x, ~ R' (JArr l) x.
  Hypothesis sub : forall j x, R j x -> R' j x.
  Hypothesis simple : forall j x, simple_leaf j -> R' j x -> R j x.

  Lemma regular_leaf j s e : (forall l, j <> JArr l) -> regular R' j s e -> s = [] /\ exists x, e = [x] /\ R' j x.
  Proof. intros N G. inversion G as [j' x G1|G1|? ? ? ? G1]; subst; [eauto|exfalso; eapply N; reflexivity..]. Qed.
  Lemma regular_row r s e : (forall y, In y r -> simple_leaf y) -> regular R' (JArr r) s e -> s = [List.length r] /\ Forall2 R r e.
  Proof.
    intros H G. inversion G as [j' x G1|G1|j js s0 ls G1]; subst; [exfalso; eapply leaves; eauto|split; [auto|constructor]|].
    assert (X : forall q ls, (forall y, In y q -> simple_leaf y) -> Forall2 (fun j l => regular R' j s0 l) q ls -> Forall2 R q (List.concat ls) /\ (q <> [] -> s0 = [])).
    { clear - simple leaves. intros q ls H F. induction F as [|x l q ls R1 R2 IH]; [split; [constructor|congruence]|].
      destruct (H x (or_introl eq_refl)) as [N1 N2]. destruct (regular_leaf _ _ _ N1 R1) as (-> & y & -> & Q).
      destruct IH as [IH _]; [intros; apply H; now right|]. cbn [List.concat app]. split; [constructor; auto|auto]. apply simple; auto. now split. }
    destruct (X _ _ H G1) as [X1 X2]. rewrite X2 by discriminate. split; auto.
  Qed.
  Lemma row_regular r e : Forall2 R r e -> regular R' (JArr r) [List.length r] e.
  Proof.
    intros F. destruct r as [|j r]; [inversion F; constructor|].
    replace e with (List.concat (map (fun x => [x]) e)) by (clear; induction e as [|x e IH]; cbn; [auto|now rewrite IH]).
    cbn [List.length]. apply some_entries. induction F; cbn [map]; constructor; auto. constructor. auto.
  Qed.
  Lemma flat_iff j s e : flat j -> (regular R' j s e <-> exists a, array_of R j a /\ s = shape_dims (shp a) /\ e = dat a).
  Proof.
    intros (l & -> & H). split.
    - intros G. destruct l as [|x l].
      { inversion G as [j' x G1|G1|]; subst; [exfalso; eapply leaves; eauto|]. exists (ND (S1 0) []). split; [left; exists []; repeat split; constructor|auto]. }
      inversion G as [j' y G1|G1|j js s0 ls G1]; subst; [exfalso; eapply leaves; eauto|].
      destruct (H x (or_introl eq_refl)) as [Sx|(r & -> & Hr)].
      + assert (s0 = []). { inversion G1 as [|? ? ? ? R1 R2]; subst. now destruct (regular_leaf _ _ _ (proj1 Sx) R1) as [-> _]. } subst s0.
        destruct (regular_row (x :: l) [S (List.length l)] (List.concat ls)) as [_ F].
        * intros y I. destruct (H y I) as [Sy|(r & -> & Hr)]; auto. exfalso.
          assert (X : exists e, regular R' (JArr r) [] e).
          { clear - G1 I. revert I G1. generalize (x :: l). intros q. revert ls. induction q as [|a q IH]; intros ls I G; [destruct I|].
            inversion G as [|? l1 ? ls1 R1 R2]; subst. destruct I as [->|I]; eauto. }
          destruct X as [e X]. inversion X as [j' z X1| |]; subst. eapply leaves; eauto.
        * exact G.
        * exists (ND (S1 (S (List.length l))) (List.concat ls)). split; [left; exists (x :: l); repeat split; auto|auto].
      + assert (s0 = [List.length r]). { inversion G1 as [|? ? ? ? R1 R2]; subst. now destruct (regular_row _ _ _ Hr R1). } subst s0.
        assert (X : forall q ls, (forall x, In x q -> simple_leaf x \/ exists r, x = JArr r /\ forall y, In y r -> simple_leaf y) ->
          Forall2 (fun j l => regular R' j [List.length r] l) q ls ->
          exists rs, q = map JArr rs /\ (forall a, In a rs -> List.length a = List.length r) /\ Forall2 R (List.concat rs) (List.concat ls)).
        { clear - leaves simple. intros q ls H F. induction F as [|x l q ls R1 R2 IH]; [exists []; repeat split; [intros a []|constructor]|].
          destruct IH as (rs & -> & L & F); [intros; apply H; now right|].
          destruct (H x (or_introl eq_refl)) as [Sx|(r1 & -> & Hr)].
          - destruct (regular_leaf _ _ _ (proj1 Sx) R1) as [? _]. discriminate.
          - destruct (regular_row _ _ _ Hr R1) as [E F1]. injection E as E. exists (r1 :: rs). split; [auto|]. split.
            + intros a [<-|I]; auto.
            + cbn [List.concat]. now apply Forall2_app. }
        destruct (X _ _ H G1) as (rs & E & L & F).
        exists (ND (S2 (List.length rs) (List.length r)) (List.concat ls)). split.
        * right. exists rs, (List.length r). rewrite E. repeat split; auto. intros ->. discriminate.
        * cbn [shp dat shape_dims]. split; auto. f_equal. apply (f_equal (@List.length json)) in E. rewrite map_length in E. cbn [List.length] in E. now rewrite E.
    - intros (a & [(l' & E & S & F)|(rs & c & E & N & L & S & F)] & -> & ->); rewrite S; cbn [shape_dims].
      + injection E as <-. now apply row_regular.
      + injection E as ->. destruct rs as [|r rs]; [congruence|].
        apply Forall2_split in F as (ms & -> & F). cbn [map List.length].
        replace (Datatypes.S (List.length rs)) with (Datatypes.S (List.length (map JArr rs))) by now rewrite map_length.
        apply some_entries. change (JArr r :: map JArr rs) with (map JArr (r :: rs)).
        clear - L F sub. revert ms F L. generalize (r :: rs). intros q. induction q as [|x q IH]; intros ms F L; inversion F as [|? m ? ms1 F1 F2]; subst; cbn [map]; constructor.
        * rewrite <- (L x (or_introl eq_refl)). now apply row_regular.
        * apply IH; auto. intros y I. apply L. now right.
  Qed.
End Flat.

(** ** Datasets *)
Lemma float_leaf_iff numeral j x : float_leaf numeral j = Some x <-> numberlike numeral j x.
Proof.
  unfold numberlike. split.
  - destruct j as [y|[]| |s|l|kv]; cbn; intros H; try discriminate; try (injection H as <-; left; constructor). right. eauto.
  - intros [H|(s & -> & H)]; [|exact H]. destruct H; reflexivity.
Qed.
Lemma bool_leaf_iff j b : bool_leaf j = Some b <-> truth j b.
Proof.
  rewrite <- leaf_bool_iff. destruct j as [y|c| |s|l|kv]; cbn; split; intros H; try discriminate; injection H as <-; reflexivity.
Qed.
Lemma number_array numeral l x : ~ numberlike numeral (JArr l) x.
Proof. intros [H|(s & H & _)]; [inversion H|discriminate]. Qed.
Lemma truth_array l x : ~ truth (JArr l) x.
Proof. intros H. inversion H. Qed.
Lemma floats_iff numeral j t : np_array (float_leaf numeral) j = Some t <-> regular (numberlike numeral) j (dims t) (entries t).
Proof. apply np_array_iff; [apply float_leaf_iff|apply number_array]. Qed.
Lemma bools_iff j t : np_array bool_leaf j = Some t <-> regular truth j (dims t) (entries t).
Proof. apply np_array_iff; [apply bool_leaf_iff|apply truth_array]. Qed.

Lemma unsettable_iff k : unsettable k = true <-> In k ["slowness"; "wavelength"; "wavenumber"] \/ In k kept_by_python.
Proof.
  unfold unsettable. rewrite !orb_true_iff, computed_iff, !String.eqb_eq. unfold kept_by_python. cbn [In]. intuition.
Qed.

Lemma tree_loaded numeral d ident p : NoDup (keys d) -> (tree_from_dict numeral d ident = Some p <-> holds_any numeral d ident p).
Proof.
  intros N. unfold tree_from_dict. cbv zeta.
  set (d' := dict_del "valid" d). assert (N' : NoDup (map fst d')) by now apply NoDup_del.
  set (ex := dict_del "velocity" (dict_del "frequency" d')).
  assert (EX : map fst ex = extras d) by apply extras_keys.
  assert (In' : forall k j, In (k, j) d' <-> In (k, j) d /\ k <> "valid") by (intros; apply del_In).
  assert (InX : forall k j, In (k, j) ex <-> In (k, j) d /\ k <> "valid" /\ k <> "frequency" /\ k <> "velocity").
  { intros k j. unfold ex. rewrite !del_In, In'. tauto. }
  assert (K : forall k, In k (keys d) <-> exists j, In (k, j) d).
  { intros k. unfold keys. rewrite in_map_iff. split; [intros ([x j] & <- & I); eauto|intros (j & I); exists (k, j); auto]. }
  assert (VA : forall j, assoc "valid" d = Some j <-> In ("valid", j) d) by (intros; now apply assoc_iff).
  assert (HJ : forall k, k <> "valid" -> (has_key k d' = true <-> In k (keys d))).
  { intros k NV. unfold has_key. destruct (assoc k d') as [j|] eqn:E.
    - apply assoc_iff in E; auto. split; auto. intros _. apply K. exists j. now apply In'.
    - apply assoc_none in E. split; [discriminate|]. intros I. exfalso. apply E. apply K in I as (j & I). apply in_map_iff. exists (k, j). split; auto.
      apply In'. split; auto. }
  assert (US : existsb (fun kv : string * json => unsettable (fst kv)) d' = true <-> exists k, In k (keys d) /\ (In k ["slowness"; "wavelength"; "wavenumber"] \/ In k kept_by_python)).
  { rewrite existsb_exists. split.
    - intros ([k j] & I & U). apply unsettable_iff in U. cbn [fst] in U. exists k. split; auto. apply K. exists j. now apply In'.
    - intros (k & I & U). apply K in I as (j & I). exists (k, j). cbn [fst]. split; [|now apply unsettable_iff]. apply In'. split; auto.
      intros ->. cbn in U. intuition discriminate. }
  assert (BAD : has_key "identifier" d' || has_key "self" d' || existsb (fun kv : string * json => unsettable (fst kv)) d' = true <->
    exists k, In k (keys d) /\ (In k reserved \/ In k kept_by_python)).
  { rewrite !orb_true_iff, !HJ, US by discriminate. unfold reserved. split.
    - intros [[I|I]|(k & I & [U|U])]; [exists "identifier"|exists "self"|exists k|exists k]; cbn [In] in *; intuition.
    - intros (k & I & [U|U]); [|right; eauto]. destruct U as [<-|[<-|U]]; [left; now left|left; now right|right; exists k; auto]. }
  destruct (_ || _ || existsb _ d').
  { split; [discriminate|]. intros (_ & R & _). destruct (proj1 BAD eq_refl) as (k & I & [U|U]); destruct (R k I) as [R1 R2]; tauto. }
  assert (R0 : forall k, In k (keys d) -> ~ In k reserved /\ ~ In k kept_by_python).
  { intros k I. split; intros U; assert (X : false = true) by (apply BAD; eauto); discriminate. }
  split.
  - intros H. destruct (assoc "frequency" d') as [jf|] eqn:Ef; [|discriminate]. destruct (assoc "velocity" d') as [jv|] eqn:Ev; [|discriminate].
    apply assoc_iff in Ef; auto. apply assoc_iff in Ev; auto. apply In' in Ef as [Ef _]. apply In' in Ev as [Ev _].
    destruct (np_array (float_leaf numeral) jf) as [f|] eqn:Nf; [|discriminate].
    destruct (np_array (float_leaf numeral) jv) as [v|] eqn:Nv; [|discriminate].
    destruct (all_some _) as [kw|] eqn:Kw; [|discriminate].
    apply floats_iff in Nf, Nv. apply all_some_iff in Kw.
    assert (Kw' : Forall2 (fun kv ka => fst kv = fst ka /\ regular (numberlike numeral) (snd kv) (dims (snd ka)) (entries (snd ka))) ex kw).
    { clear - Kw. induction Kw as [|x y l m Q F IH]; constructor; auto. destruct (np_array _ (snd x)) as [a|] eqn:E; [|discriminate].
      injection Q as <-. cbn [fst snd]. split; auto. now apply floats_iff. }
    assert (P : t_identifier p = ident /\ t_fields p = ("frequency", f) :: ("velocity", v) :: kw).
    { destruct (assoc "valid" d) as [j|]; [|injection H as <-; auto].
      destruct j; try (injection H as <-; now auto);
        match type of H with context [np_array ?b ?j] => destruct (np_array b j); [injection H as <-; auto|discriminate] end. }
    destruct P as [Pi Pf]. split; [auto|]. split; [exact R0|].
    split; [apply K; eauto|]. split; [apply K; eauto|]. split.
    { rewrite Pf. cbn [map fst]. f_equal. f_equal. rewrite <- EX. clear - Kw'. induction Kw' as [|x y l m (Q & _) F IH]; cbn [map]; auto. now rewrite Q, IH. }
    split.
    { intros k a I. rewrite Pf in I. destruct I as [Q|[Q|I]]; [injection Q as <- <-; eauto|injection Q as <- <-; eauto|].
      assert (I' : exists j, In (k, j) ex /\ regular (numberlike numeral) j (dims a) (entries a)).
      { clear - Kw' I. induction Kw' as [|[x j] y l m (Q & A) F IH]; [destruct I|]. destruct I as [->|I].
        - cbn [fst snd] in *. subst x. exists j. split; [now left|auto].
        - destruct (IH I) as (j' & I' & A'). exists j'. split; [now right|auto]. }
      destruct I' as (j & I' & A). exists j. split; auto. now apply InX in I'. }
    split.
    { intros j I NJ. apply VA in I. rewrite I in H. apply bools_iff.
      destruct j; try congruence;
        match type of H with context [np_array ?b ?j] => destruct (np_array b j); [injection H as <-; auto|discriminate] end. }
    intros V. exists v. rewrite Pf. split; [right; now left|].
    assert (VV : assoc "valid" d = None \/ assoc "valid" d = Some JNull) by (destruct V as [V|V]; [left; now apply assoc_none|right; now apply VA]).
    destruct VV as [-> | ->] in H; injection H as <-; reflexivity.
  - intros (Pi & _ & Kf & Kv & At & Fl & V1 & V2).
    destruct (t_fields p) as [|[kf f] [|[kv v] kw]] eqn:Pf; try discriminate. cbn [map fst] in At. injection At as -> -> At.
    destruct (Fl "frequency" f) as (jf & If & Af); [now left|]. destruct (Fl "velocity" v) as (jv & Iv & Av); [right; now left|].
    assert (E1 : assoc "frequency" d' = Some jf) by (apply assoc_iff; auto; apply In'; split; auto; discriminate).
    assert (E2 : assoc "velocity" d' = Some jv) by (apply assoc_iff; auto; apply In'; split; auto; discriminate).
    rewrite E1, E2. apply floats_iff in Af, Av. rewrite Af, Av.
    assert (Kw : all_some (map (fun kv : string * json => match np_array (float_leaf numeral) (snd kv) with Some a => Some (fst kv, a) | None => None end) ex) = Some kw).
    { apply all_some_iff. rewrite <- EX in At.
      assert (X : forall k j a, In (k, j) ex -> In (k, a) kw -> np_array (float_leaf numeral) j = Some a).
      { intros k j a I J. destruct (Fl k a) as (j' & I' & A'); [right; now right|]. apply InX in I as (I & _).
        assert (j = j'). { assert (assoc k d = Some j) by now apply assoc_iff. assert (assoc k d = Some j') by now apply assoc_iff. congruence. }
        subst j'. now apply floats_iff. }
      clear - At X. revert At X. generalize ex. induction kw as [|[k a] kw IH]; intros [|[k' j] l] At X; cbn [map fst] in At; try discriminate; [constructor|].
      injection At as -> At. constructor; [|apply IH; auto; intros; apply (X k j0); now right].
      cbn [fst snd]. now rewrite (X k' j a (or_introl eq_refl) (or_introl eq_refl)). }
    rewrite Kw. destruct p as [i fs va]. cbn [t_identifier t_fields t_valid] in *. subst i fs.
    assert (VEL : forall v', In ("velocity", v') (("frequency", f) :: ("velocity", v) :: kw) -> v' = v).
    { intros v' [Q|[Q|I']]; [discriminate|now injection Q|]. exfalso. apply (in_map fst) in I'. cbn [fst] in I'. rewrite At in I'.
      rewrite <- EX in I'. apply in_map_iff in I' as ([k j] & E & I'). cbn [fst] in E. subst k. apply InX in I'. tauto. }
    destruct (assoc "valid" d) as [j|] eqn:EV.
    + assert (IV := proj1 (VA j) eq_refl).
      assert (D : j = JNull \/ j <> JNull) by (destruct j; auto; right; discriminate).
      destruct D as [->|D].
      * destruct (V2 (or_intror IV)) as (v' & I' & ->). now rewrite (VEL _ I').
      * assert (M := proj2 (bools_iff j va) (V1 j IV D)). destruct j; try congruence; rewrite M; reflexivity.
    + apply assoc_none in EV. destruct (V2 (or_introl EV)) as (v' & I' & ->). now rewrite (VEL _ I').
Qed.

(** ** Lists and tables *)
Lemma flat_floats numeral j : flat j -> np_array (float_leaf numeral) j = match to_nd leaf_num j with Ok a => Some (as_tensor a) | Err _ => None end.
Proof.
  intros F.
  assert (X : forall t, np_array (float_leaf numeral) j = Some t <-> exists a, to_nd leaf_num j = Ok a /\ t = as_tensor a).
  { intros t. rewrite floats_iff. rewrite (flat_iff number (numberlike numeral)); auto.
    - split; intros (a & A & B).
      + destruct B as [B C]. exists a. split; [now apply numbers_iff|]. destruct t; cbn in *. subst. reflexivity.
      + subst t. exists a. split; [now apply numbers_iff|auto].
    - apply number_array.
    - intros i x H. now left.
    - intros i x [_ S] [H|(s & -> & _)]; auto. now destruct (S s). }
  destruct (to_nd leaf_num j) as [a|e] eqn:E.
  - apply X. eauto.
  - destruct (np_array _ j) as [t|]; auto. destruct (proj1 (X t) eq_refl) as (a & A & _). discriminate.
Qed.
Lemma flat_bools j : flat j -> np_array bool_leaf j = match to_nd leaf_bool j with Ok a => Some (as_tensor a) | Err _ => None end.
Proof.
  intros F.
  assert (X : forall t, np_array bool_leaf j = Some t <-> exists a, to_nd leaf_bool j = Ok a /\ t = as_tensor a).
  { intros t. rewrite bools_iff. rewrite (flat_iff truth truth); auto.
    - split; intros (a & A & B).
      + destruct B as [B C]. exists a. split; [now apply truths_iff|]. destruct t; cbn in *. subst. reflexivity.
      + subst t. exists a. split; [now apply truths_iff|auto].
    - apply truth_array. }
  destruct (to_nd leaf_bool j) as [a|e] eqn:E.
  - apply X. eauto.
  - destruct (np_array _ j) as [t|]; auto. destruct (proj1 (X t) eq_refl) as (a & A & _). discriminate.
Qed.

Lemma tree_flat numeral d ident : flat_document d ->
  tree_from_dict numeral d ident = match snd (from_dict d ident) with Ok p => Some (as_tree p) | Err _ => None end.
Proof.
  intros F. unfold tree_from_dict, from_dict. cbv zeta. cbn [snd].
  set (d' := dict_del "valid" d).
  assert (In' : forall k j, In (k, j) d' <-> In (k, j) d /\ k <> "valid") by (intros; apply del_In).
  assert (F' : forall k j, In (k, j) d' -> flat j /\ ~ In k kept_by_python).
  { intros k j I. apply In' in I as [I NV]. destruct (F k j I) as [G [Fl|[Q _]]]; [auto|congruence]. }
  assert (As : forall k j, assoc k d' = Some j -> flat j).
  { intros k j A. enough (I : In (k, j) d') by now apply (F' k j). clear - A. revert A. generalize d'. intros q. induction q as [|[x i] q IH]; cbn [assoc]; [discriminate|].
    destruct (String.eqb_spec k x) as [->|D]; [intros E; injection E as ->; now left|right; auto]. }
  destruct (has_key "identifier" d' || has_key "self" d'); cbn [orb]; [reflexivity|].
  destruct (assoc "frequency" d') as [jf|] eqn:Ef; [|now destruct (existsb _ _)]. destruct (assoc "velocity" d') as [jv|] eqn:Ev; [|now destruct (existsb _ _)].
  rewrite (flat_floats numeral jf) by eauto. rewrite (flat_floats numeral jv) by eauto.
  destruct (to_nd leaf_num jf) as [f|]; [|now destruct (existsb _ _)]. cbn [bind]. destruct (to_nd leaf_num jv) as [v|]; [|now destruct (existsb _ _)]. cbn [bind].
  set (ex := dict_del "velocity" (dict_del "frequency" d')).
  assert (UX : existsb (fun kv : string * json => unsettable (fst kv)) d' = existsb (fun kv : string * json => computed (fst kv)) ex).
  { assert (U : forall kv, In kv d' -> unsettable (fst kv) = computed (fst kv)).
    { intros [k j] I. destruct (F' k j I) as [_ G]. cbn [fst]. unfold unsettable.
      assert ((k =? "_class__") = false /\ (k =? "_dict__") = false /\ (k =? "_weakref__") = false) as (-> & -> & ->).
      { repeat split; apply String.eqb_neq; intros ->; apply G; cbn; auto. }
      now rewrite !orb_false_r. }
    unfold ex. clear - U. induction d' as [|[k j] q IH]; auto. cbn [existsb]. rewrite IH by (intros; apply U; now right). rewrite U by now left.
    unfold dict_del. cbn [filter fst]. destruct (String.eqb_spec "frequency" k) as [<-|D1]; cbn [negb filter fst]; [reflexivity|].
    destruct (String.eqb_spec "velocity" k) as [<-|D2]; cbn [negb filter fst existsb]; reflexivity. }
  rewrite UX. destruct (existsb (fun kv : string * json => computed (fst kv)) ex) eqn:EC.
  - apply existsb_exists in EC as ([k j] & I & C). cbn [fst] in C.
    assert (M : forall kw, mapM (fun kv : string * json => bind (to_nd leaf_num (snd kv)) (fun a => if computed (fst kv) then Err AttributeError else Ok (fst kv, a))) ex <> Ok kw).
    { intros kw M. apply kw_iff in M. clear - M I C. induction M as [|x y l m (_ & _ & Q) G IH]; [destruct I|]. destruct I as [->|I]; auto. cbn [fst] in Q. congruence. }
    destruct (mapM _ ex) as [kw|]; [exfalso; eapply M; reflexivity|reflexivity].
  - assert (KW : forall l, (forall kv, In kv l -> In kv ex) ->
      (exists kw, mapM (fun kv : string * json => bind (to_nd leaf_num (snd kv)) (fun a => if computed (fst kv) then Err AttributeError else Ok (fst kv, a))) l = Ok kw /\
        all_some (map (fun kv : string * json => match np_array (float_leaf numeral) (snd kv) with Some a => Some (fst kv, a) | None => None end) l) =
        Some (map (fun kv => (fst kv, as_tensor (snd kv))) kw) /\ existsb (fun kv : string * nd flt => computed (fst kv)) kw = false) \/
      (exists e, mapM (fun kv : string * json => bind (to_nd leaf_num (snd kv)) (fun a => if computed (fst kv) then Err AttributeError else Ok (fst kv, a))) l = Err e /\
        all_some (map (fun kv : string * json => match np_array (float_leaf numeral) (snd kv) with Some a => Some (fst kv, a) | None => None end) l) = None)).
    { induction l as [|[k j] l IH]; intros S; [left; exists []; auto|]. cbn [mapM map all_some fst snd].
      assert (I : In (k, j) ex) by (apply S; now left).
      assert (C : computed k = false).
      { destruct (computed k) eqn:C; auto. assert (existsb (fun kv : string * json => computed (fst kv)) ex = true) by (apply existsb_exists; exists (k, j); auto). congruence. }
      assert (Fj : flat j). { apply (F' k j). unfold ex in I. now rewrite !del_In in I. }
      rewrite (flat_floats numeral j Fj). destruct (to_nd leaf_num j) as [a|e]; cbn [bind]; [|right; eauto]. rewrite C. cbn [bind].
      destruct IH as [(kw & -> & -> & X)|(e & -> & ->)]; [intros; apply S; now right| |].
      - left. exists ((k, a) :: kw). cbn [map existsb fst snd bind]. rewrite C. auto.
      - right. exists e. auto. }
    destruct (KW ex (fun _ H => H)) as [(kw & -> & -> & X)|(e & -> & ->)]; [|reflexivity]. cbn [bind]. unfold new_peaks. rewrite X. cbn [bind].
    destruct (assoc "valid" d) as [j|] eqn:EV; [|reflexivity].
    assert (I : In ("valid", j) d).
    { clear - EV. revert EV. induction d as [|[x i] q IH]; cbn [assoc]; [discriminate|].
      destruct (String.eqb_spec "valid" x) as [<-|D]; [intros E; injection E as ->; now left|right; auto]. }
    destruct (F _ _ I) as [_ [Fj|[_ ->]]]; [|reflexivity].
    assert (B := flat_bools j Fj). destruct Fj as (l & -> & _). cbn match. rewrite B. destruct (to_nd leaf_bool (JArr l)); reflexivity.
Qed.
