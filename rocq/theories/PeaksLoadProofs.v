(* Proofs about loading peaks from arbitrary JSON documents. *)
From Verif Require Import PyFacts PeaksModel PeaksSpec PeaksProofs PeaksJsonProofs PeaksLoadSpec.
Local Open Scope list_scope.
Local Open Scope string_scope.

Local Lemma bind_ok {A B} (m : result A) (f : A -> result B) b : bind m f = Ok b -> exists a, m = Ok a /\ f a = Ok b.
Proof. destruct m; cbn; [eauto|discriminate]. Qed.
Lemma leaf_num_iff j x : leaf_num j = Ok x <-> number j x.
Proof.
  split.
  - destruct j as [y|[]| | | |]; cbn; intros H; try discriminate; injection H as <-; constructor.
  - destruct 1; reflexivity.
Qed.
Lemma leaf_bool_iff j b : leaf_bool j = Ok b <-> truth j b.
Proof.
  split.
  - destruct j as [y|c| |s| |kv]; cbn; intros H; try discriminate; injection H as <-; try constructor.
    + destruct (flt_eq y f0) eqn:E; now constructor.
    + destruct s; constructor.
    + destruct kv; constructor.
  - destruct 1; cbn; auto; now rewrite H.
Qed.
Lemma mapM_iff {A B} (f : A -> result B) (R : A -> B -> Prop) : (forall x y, f x = Ok y <-> R x y) ->
  forall l m, mapM f l = Ok m <-> Forall2 R l m.
Proof.
  intros H. induction l as [|x l IH]; intros m; cbn [mapM].
  - split; [intros E; injection E as <-; constructor|]. inversion 1; reflexivity.
  - split.
    + destruct (f x) as [y|] eqn:Fx; [|discriminate]. cbn [bind]. destruct (mapM f l) as [t|] eqn:Ft; [|discriminate]. cbn [bind].
      intros E; injection E as <-. constructor; [now apply H|now apply IH].
    + inversion 1 as [|? ? ? t Rx Rt]; subst. apply H in Rx. rewrite Rx. cbn [bind]. apply IH in Rt. now rewrite Rt.
Qed.
Lemma Forall2_concat {A B} (R : A -> B -> Prop) ls ms : Forall2 (Forall2 R) ls ms -> Forall2 R (List.concat ls) (List.concat ms).
Proof. induction 1; cbn; [constructor|]. now apply Forall2_app. Qed.
Lemma Forall2_split {A B} (R : A -> B -> Prop) ls m : Forall2 R (List.concat ls) m -> exists ms, m = List.concat ms /\ Forall2 (Forall2 R) ls ms.
Proof.
  revert m. induction ls as [|l ls IH]; cbn; intros m H.
  - inversion H; subst. exists []. split; [reflexivity|constructor].
  - apply Forall2_app_inv_l in H as (m1 & m2 & H1 & H2 & ->). destruct (IH _ H2) as (ms & -> & F). exists (m1 :: ms). split; [reflexivity|]. now constructor.
Qed.
Lemma Forall2_len {A B} (R : A -> B -> Prop) l m : Forall2 R l m -> List.length l = List.length m.
Proof. induction 1; cbn; congruence. Qed.

Section Arrays.
  Context {A : Type} (leaf : json -> result A) (R : json -> A -> Prop).
  Hypothesis LR : forall j x, leaf j = Ok x <-> R j x.
  Hypothesis leaves : forall l x, ~ R (JArr l) x.

  Lemma as_list_iff j m : as_list leaf j = Ok m <-> exists l, j = JArr l /\ Forall2 R l m.
  Proof.
    unfold as_list. split.
    - destruct j; try discriminate. intros H. eexists. split; [reflexivity|]. now apply (mapM_iff leaf R LR).
    - intros (l & -> & F). now apply (mapM_iff leaf R LR).
  Qed.
  Lemma rows_iff js ms : Forall2 (fun j m => exists l, j = JArr l /\ Forall2 R l m) js ms <-> exists rs, js = map JArr rs /\ Forall2 (Forall2 R) rs ms.
  Proof.
    split.
    - induction 1 as [|j m js ms (l & -> & F) H (rs & -> & G)]; [exists []; split; [reflexivity|constructor]|]. exists (l :: rs). split; [reflexivity|]. now constructor.
    - intros (rs & -> & F). induction F; cbn [map]; constructor; eauto.
  Qed.

  Lemma to_nd_iff j a : to_nd leaf j = Ok a <-> array_of R j a.
  Proof.
    assert (One : forall l, (forall b r, l <> JArr b :: r) -> to_nd leaf (JArr l) = bind (mapM leaf l) (fun xs => Ok (ND (S1 (List.length xs)) xs))).
    { intros l N. destruct l as [|x l]; [reflexivity|]. destruct x; try reflexivity. exfalso. eapply N. reflexivity. }
    split.
    - destruct j as [| | | |l|]; try discriminate.
      assert (D : (exists b r, l = JArr b :: r) \/ (forall b r, l <> JArr b :: r)).
      { destruct l as [|x l]; [right; discriminate|]. destruct x; try (right; discriminate). left; eauto. }
      destruct D as [(b & r & ->)|N].
      + cbn [to_nd]. intros H. apply bind_ok in H as (ms & M & H). apply (mapM_iff _ _ as_list_iff) in M. apply rows_iff in M as (rs & E & F).
        destruct (forallb _ ms) eqn:L; [|discriminate]. injection H as <-. right. exists rs, (List.length b).
        rewrite forallb_forall in L. split; [now rewrite E|]. split; [intros ->; discriminate|]. cbn [shp dat].
        split; [|split; [now rewrite (Forall2_len _ _ _ F)|now apply Forall2_concat]].
        intros x I. apply In_nth_error in I as (i & I).
        assert (J : exists m, nth_error ms i = Some m /\ Forall2 R x m).
        { clear - F I. revert i I. induction F as [|x0 m0 rs ms Q F IH]; intros [|i] I; cbn in *; try discriminate; eauto. injection I as <-. eauto. }
        destruct J as (m & J & Q). apply nth_error_In in J. apply L in J. apply Nat.eqb_eq in J. rewrite <- J. now apply Forall2_len in Q.
      + rewrite One by auto. intros H. apply bind_ok in H as (xs & M & H). injection H as <-. apply (mapM_iff leaf R LR) in M.
        left. exists l. cbn [shp dat]. split; [reflexivity|]. split; [now rewrite (Forall2_len _ _ _ M)|auto].
    - intros [(l & -> & S & F)|(rs & c & -> & N & L & S & F)]; destruct a as [s d]; cbn [shp dat] in *; subst s.
      + rewrite One; [|intros b r ->; inversion F; subst; eapply leaves; eauto].
        apply (mapM_iff leaf R LR) in F as M. rewrite M. cbn [bind]. now rewrite (Forall2_len _ _ _ F).
      + destruct rs as [|r rs]; [congruence|]. apply Forall2_split in F as (ms & -> & F). cbn [map to_nd].
        assert (M : mapM (as_list leaf) (JArr r :: map JArr rs) = Ok ms).
        { apply (mapM_iff _ _ as_list_iff). apply rows_iff. exists (r :: rs). auto. }
        rewrite M. cbn [bind].
        assert (Q : forallb (fun x : list A => (List.length x =? List.length r)%nat) ms = true).
        { apply forallb_forall. intros m I. apply Nat.eqb_eq. rewrite (L r (or_introl eq_refl)). apply In_nth_error in I as (i & I).
          assert (J : exists x, nth_error (r :: rs) i = Some x /\ Forall2 R x m).
          { clear - F I. revert i I. generalize dependent ms. generalize (r :: rs). induction l as [|x l IH]; intros ms F [|i] I; inversion F; subst; cbn in *; try discriminate; eauto.
            injection I as ->. eauto. }
          destruct J as (x & J & Q). apply nth_error_In in J. rewrite <- (L x J). symmetry. now apply Forall2_len in Q. }
        rewrite Q. rewrite (L r (or_introl eq_refl)). f_equal. f_equal. f_equal. symmetry. apply (Forall2_len _ _ _ F).
  Qed.
End Arrays.

Lemma numbers_iff j a : to_nd leaf_num j = Ok a <-> array_of number j a.
Proof. apply to_nd_iff; [apply leaf_num_iff|]. intros l x H. inversion H. Qed.
Lemma truths_iff j a : to_nd leaf_bool j = Ok a <-> array_of truth j a.
Proof. apply to_nd_iff; [apply leaf_bool_iff|]. intros l x H. inversion H. Qed.

(** ** Dictionaries *)
Lemma del_keys k (d : dict json) : map fst (dict_del k d) = filter (fun x => negb (k =? x)) (map fst d).
Proof. unfold dict_del. induction d as [|[x j] d IH]; cbn [filter map fst]; auto. destruct (negb (k =? x)); cbn [map fst]; now rewrite IH. Qed.
Lemma del_In k (d : dict json) x j : In (x, j) (dict_del k d) <-> In (x, j) d /\ x <> k.
Proof.
  unfold dict_del. rewrite filter_In. cbn [fst]. rewrite negb_true_iff, String.eqb_neq. split; intros [A B]; split; auto.
Qed.
Lemma assoc_iff (d : dict json) k j : NoDup (map fst d) -> (assoc k d = Some j <-> In (k, j) d).
Proof.
  induction d as [|[x i] d IH]; cbn [assoc map fst In]; intros N; [split; [discriminate|tauto]|]. inversion N as [|? ? N1 N2]; subst.
  destruct (String.eqb_spec k x) as [->|D].
  - split; [intros Q; injection Q as ->; now left|]. intros [Q|I]; [injection Q as ->; reflexivity|]. exfalso. apply N1. now apply (in_map fst) in I.
  - rewrite IH by auto. split; auto. intros [Q|I]; auto. congruence.
Qed.
Lemma assoc_none {A} (d : dict A) k : assoc k d = None <-> ~ In k (map fst d).
Proof.
  induction d as [|[x i] d IH]; cbn [assoc map fst In]; [tauto|]. destruct (String.eqb_spec k x) as [->|D]; [split; [discriminate|tauto]|].
  rewrite IH. split; [intros H [Q|Q]; auto; congruence|tauto].
Qed.
Lemma NoDup_del k (d : dict json) : NoDup (map fst d) -> NoDup (map fst (dict_del k d)).
Proof. rewrite del_keys. apply NoDup_filter. Qed.
Lemma extras_keys d : map fst (dict_del "velocity" (dict_del "frequency" (dict_del "valid" d))) = extras d.
Proof.
  rewrite !del_keys. unfold extras, keys. induction (map fst d) as [|k l IH]; auto. cbn [filter].
  rewrite (String.eqb_sym "valid" k). destruct (k =? "valid"); cbn [negb]; [now rewrite !andb_false_r|]. rewrite !andb_true_r. cbn [filter].
  rewrite (String.eqb_sym "frequency" k). destruct (k =? "frequency"); cbn [negb andb]; [exact IH|]. cbn [filter].
  rewrite (String.eqb_sym "velocity" k). destruct (k =? "velocity"); cbn [negb]; [exact IH|]. now rewrite IH.
Qed.
Lemma computed_iff k : computed k = true <-> k = "slowness" \/ k = "wavelength" \/ k = "wavenumber".
Proof. unfold computed. rewrite !orb_true_iff, !String.eqb_eq. tauto. Qed.

Lemma kw_iff l kw :
  mapM (fun kv : string * json => bind (to_nd leaf_num (snd kv)) (fun a => if computed (fst kv) then Err AttributeError else Ok (fst kv, a))) l = Ok kw <->
  Forall2 (fun kv ka => fst kv = fst ka /\ array_of number (snd kv) (snd ka) /\ computed (fst kv) = false) l kw.
Proof.
  apply mapM_iff. intros [k j] [k' a]; cbn [fst snd]. split.
  - intros H. apply bind_ok in H as (b & N & H). destruct (computed k) eqn:C; [discriminate|]. injection H as <- <-. split; [auto|]. split; [now apply numbers_iff|auto].
  - intros (<- & N & C). apply numbers_iff in N. rewrite N. cbn [bind]. now rewrite C.
Qed.

Lemma number_fun j x y : number j x -> number j y -> x = y.
Proof. intros A B. apply leaf_num_iff in A, B. congruence. Qed.

Lemma loaded d ident p : NoDup (keys d) -> (snd (from_dict d ident) = Ok p <-> holds d ident p).
Proof.
  intros N. unfold from_dict. cbv zeta. cbn [snd].
  set (d' := dict_del "valid" d). assert (N' : NoDup (map fst d')) by now apply NoDup_del.
  set (ex := dict_del "velocity" (dict_del "frequency" d')).
  assert (EX : map fst ex = extras d) by apply extras_keys.
  assert (In' : forall k j, In (k, j) d' <-> In (k, j) d /\ k <> "valid") by (intros; apply del_In).
  assert (InX : forall k j, In (k, j) ex <-> In (k, j) d /\ k <> "valid" /\ k <> "frequency" /\ k <> "velocity").
  { intros k j. unfold ex. rewrite !del_In, In'. tauto. }
  assert (K : forall k, In k (keys d) <-> exists j, In (k, j) d).
  { intros k. unfold keys. rewrite in_map_iff. split; [intros ([x j] & <- & I); eauto|intros (j & I); exists (k, j); auto]. }
  assert (VA : forall j, assoc "valid" d = Some j <-> In ("valid", j) d) by (intros; now apply assoc_iff).
  assert (HJ : forall k, k <> "valid" -> (has_key k d' = true <-> In k (keys d))).
  { intros k NV. unfold has_key. destruct (assoc k d') as [j|] eqn:E.
    - apply assoc_iff in E; auto. split; auto. intros _. apply K. exists j. now apply In'.
    - apply assoc_none in E. split; [discriminate|]. intros I. exfalso. apply E. apply K in I as (j & I). apply in_map_iff. exists (k, j). split; auto.
      apply In'. split; auto. }
  assert (HI : has_key "identifier" d' || has_key "self" d' = true <-> In "identifier" (keys d) \/ In "self" (keys d)).
  { rewrite orb_true_iff, !HJ by discriminate. tauto. }
  split.
  - intros H. destruct (has_key "identifier" d' || has_key "self" d') eqn:HK; [discriminate|].
    destruct (assoc "frequency" d') as [jf|] eqn:Ef; [|discriminate]. destruct (assoc "velocity" d') as [jv|] eqn:Ev; [|discriminate].
    apply assoc_iff in Ef; auto. apply assoc_iff in Ev; auto. apply In' in Ef as [Ef _]. apply In' in Ev as [Ev _].
    apply bind_ok in H as (f & Nf & H). apply bind_ok in H as (v & Nv & H). apply bind_ok in H as (kw & Kw & H). apply bind_ok in H as (q & NP & H).
    apply numbers_iff in Nf, Nv. apply kw_iff in Kw. unfold new_peaks in NP. destruct (existsb _ kw); [discriminate|]. injection NP as <-.
    assert (P : identifier p = ident /\ fields p = ("frequency", f) :: ("velocity", v) :: kw).
    { destruct (assoc "valid" d) as [j|]; [|injection H as <-; auto].
      destruct j; try (apply bind_ok in H as (m & M & H)); injection H as <-; auto. }
    destruct P as [Pi Pf]. split; [auto|]. split.
    { intros k I R. destruct R as [<-|[<-|R]]; [discriminate (proj2 HI (or_introl I))|discriminate (proj2 HI (or_intror I))|].
      assert (C : computed k = true) by (apply computed_iff; destruct R as [<-|[<-|[<-|[]]]]; auto).
      apply K in I as (j & I).
      assert (I' : In (k, j) ex).
      { apply InX. split; auto. repeat split; intros ->; cbn in C; discriminate. }
      clear - Kw I' C. induction Kw as [|x y l m (_ & _ & Q) F IH]; [destruct I'|]. destruct I' as [->|I']; auto. cbn [fst] in Q. congruence. }
    split; [apply K; eauto|]. split; [apply K; eauto|]. split.
    { unfold attrs. rewrite Pf. cbn [map fst]. f_equal. f_equal. rewrite <- EX. clear - Kw. induction Kw as [|x y l m (Q & _) F IH]; cbn [map]; auto. now rewrite Q, IH. }
    split.
    { intros k a I. rewrite Pf in I. destruct I as [Q|[Q|I]]; [injection Q as <- <-; eauto|injection Q as <- <-; eauto|].
      assert (I' : exists j, In (k, j) ex /\ array_of number j a).
      { clear - Kw I. induction Kw as [|[x j] y l m (Q & A & _) F IH]; [destruct I|]. destruct I as [->|I].
        - cbn [fst snd] in *. subst x. exists j. split; [now left|auto].
        - destruct (IH I) as (j' & I' & A'). exists j'. split; [now right|auto]. }
      destruct I' as (j & I' & A). exists j. split; auto. now apply InX in I'. }
    split.
    { intros j I NJ. apply VA in I. rewrite I in H. destruct j; try congruence; apply bind_ok in H as (m & M & H); injection H as <-; cbn [valid set_valid]; now apply truths_iff. }
    intros V. exists v. rewrite Pf. split; [right; now left|].
    assert (VV : assoc "valid" d = None \/ assoc "valid" d = Some JNull) by (destruct V as [V|V]; [left; now apply assoc_none|right; now apply VA]).
    destruct VV as [-> | ->] in H; injection H as <-; reflexivity.
  - intros (Pi & R & Kf & Kv & At & Fl & V1 & V2). destruct (has_key "identifier" d' || has_key "self" d') eqn:HK; [exfalso; destruct (proj1 HI eq_refl) as [I|I]; apply (R _ I); cbn; auto|].
    unfold attrs in At. destruct (fields p) as [|[kf f] [|[kv v] kw]] eqn:Pf; try discriminate. cbn [map fst] in At. injection At as -> -> At.
    destruct (Fl "frequency" f) as (jf & If & Af); [now left|]. destruct (Fl "velocity" v) as (jv & Iv & Av); [right; now left|].
    assert (E1 : assoc "frequency" d' = Some jf) by (apply assoc_iff; auto; apply In'; split; auto; discriminate).
    assert (E2 : assoc "velocity" d' = Some jv) by (apply assoc_iff; auto; apply In'; split; auto; discriminate).
    rewrite E1, E2. apply numbers_iff in Af, Av. rewrite Af. cbn [bind]. rewrite Av. cbn [bind].
    assert (NC : forall k, In k (map fst kw) -> computed k = false).
    { intros k I. destruct (computed k) eqn:C; auto. exfalso. rewrite At, <- EX in I. apply in_map_iff in I as ([k' j] & <- & I). cbn [fst] in *. apply InX in I as (I & _).
      apply (R k'); [apply K; eauto|]. apply computed_iff in C. right; right. destruct C as [-> |[-> | ->]]; cbn; auto. }
    assert (Kw : mapM (fun kv : string * json => bind (to_nd leaf_num (snd kv)) (fun a => if computed (fst kv) then Err AttributeError else Ok (fst kv, a))) ex = Ok kw).
    { apply kw_iff. rewrite <- EX in At.
      assert (X : forall k j a, In (k, j) ex -> In (k, a) kw -> array_of number j a /\ computed k = false).
      { intros k j a I J. destruct (Fl k a) as (j' & I' & A'); [right; now right|]. apply InX in I as (I & _).
        assert (j = j'). { assert (assoc k d = Some j) by now apply assoc_iff. assert (assoc k d = Some j') by now apply assoc_iff. congruence. }
        subst j'. split; auto. apply NC. now apply (in_map fst) in J. }
      clear - At X. revert At X. generalize ex. induction kw as [|[k a] kw IH]; intros [|[k' j] l] At X; cbn [map fst] in At; try discriminate; [constructor|].
      injection At as -> At. constructor; [|apply IH; auto; intros; apply (X k j0); now right].
      cbn [fst snd]. split; auto. apply (X k' j a); now left. }
    rewrite Kw. cbn [bind]. unfold new_peaks.
    assert (EB : existsb (fun kv : string * nd flt => computed (fst kv)) kw = false).
    { destruct (existsb _ kw) eqn:E; auto. apply existsb_exists in E as (x & I & C). rewrite NC in C; [discriminate|]. now apply in_map. }
    rewrite EB. cbn [bind]. destruct p as [i fs va]. cbn [identifier fields valid] in *. subst i fs.
    assert (VN : forall j, In ("valid", j) d -> j <> JNull -> exists m, to_nd leaf_bool j = Ok m /\ va = m).
    { intros j I NJ. exists va. split; auto. apply truths_iff. auto. }
    destruct (assoc "valid" d) as [j|] eqn:EV.
    + assert (IV := proj1 (VA j) eq_refl). 
      assert (D : j = JNull \/ j <> JNull) by (destruct j; auto; right; discriminate).
      destruct D as [->|D].
      * destruct (V2 (or_intror IV)) as (v' & I' & ->).
        assert (v' = v).
        { destruct I' as [Q|[Q|I']]; [discriminate|now injection Q|]. exfalso. apply (in_map fst) in I'. cbn [fst] in I'. rewrite At in I'.
          rewrite <- EX in I'. apply in_map_iff in I' as ([k j] & E & I'). cbn [fst] in E. subst k. apply InX in I'. tauto. }
        subst v'. reflexivity.
      * destruct (VN j IV D) as (m & M & ->). destruct j; try congruence; rewrite M; reflexivity.
    + apply assoc_none in EV. destruct (V2 (or_introl EV)) as (v' & I' & ->).
      assert (v' = v).
      { destruct I' as [Q|[Q|I']]; [discriminate|now injection Q|]. exfalso. apply (in_map fst) in I'. cbn [fst] in I'. rewrite At in I'.
        rewrite <- EX in I'. apply in_map_iff in I' as ([k j] & E & I'). cbn [fst] in E. subst k. apply InX in I'. tauto. }
      subst v'. reflexivity.
Qed.

Lemma from_json_iff f p : (forall k d rest, f = Doc (JObj ((k, JObj d) :: rest)) -> NoDup (keys d)) ->
  (from_json f = Ok p <-> exists k d rest, f = Doc (JObj ((k, JObj d) :: rest)) /\ holds d k p).
Proof.
  intros N. unfold from_json. split.
  - destruct f as [|j|]; cbn [json_load bind]; try discriminate. destruct j as [| | | | |l]; try discriminate. destruct l as [|[k [| | | | |d]] l]; try discriminate.
    intros H. exists k, d, l. split; [reflexivity|]. apply loaded; eauto.
  - intros (k & d & rest & -> & H). cbn [json_load bind]. apply loaded; eauto.
Qed.

Lemma incomplete_type_error d ident : NoDup (keys d) ->
  In "identifier" (keys d) \/ In "self" (keys d) \/ ~ In "frequency" (keys d) \/ ~ In "velocity" (keys d) ->
  snd (from_dict d ident) = Err TypeError.
Proof.
  intros N H. unfold from_dict. cbv zeta. cbn [snd]. set (d' := dict_del "valid" d).
  assert (KD : forall k, k <> "valid" -> (In k (keys d) <-> In k (map fst d'))).
  { intros k D. unfold d'. rewrite del_keys, filter_In, negb_true_iff, String.eqb_neq. unfold keys. split; [intros I; split; auto|tauto]. }
  unfold has_key. destruct (assoc "identifier" d') as [j|] eqn:E; [reflexivity|].
  apply assoc_none in E. destruct (assoc "self" d') as [j|] eqn:ES; [reflexivity|]. apply assoc_none in ES. destruct H as [H|[H|[H|H]]].
  - exfalso. apply E, KD; [discriminate|auto].
  - exfalso. apply ES, KD; [discriminate|auto].
  - rewrite KD in H by discriminate. apply assoc_none in H. rewrite H. reflexivity.
  - rewrite KD in H by discriminate. apply assoc_none in H. rewrite H. now destruct (assoc "frequency" d').
Qed.
Lemma computed_attribute_error d ident : NoDup (keys d) ->
  ~ In "identifier" (keys d) -> ~ In "self" (keys d) -> In "frequency" (keys d) -> In "velocity" (keys d) ->
  (exists k, In k (keys d) /\ In k ["slowness"; "wavelength"; "wavenumber"]) ->
  (forall k j, In (k, j) d -> k <> "valid" -> exists a, array_of number j a) ->
  snd (from_dict d ident) = Err AttributeError.
Proof.
  intros N NI NS Kf Kv (k & Ik & Rk) Arr. unfold from_dict. cbv zeta. cbn [snd]. set (d' := dict_del "valid" d).
  assert (N' : NoDup (map fst d')) by now apply NoDup_del.
  assert (KD : forall k, k <> "valid" -> (In k (keys d) <-> In k (map fst d'))).
  { intros x D. unfold d'. rewrite del_keys, filter_In, negb_true_iff, String.eqb_neq. unfold keys. split; [intros I; split; auto|tauto]. }
  unfold has_key. destruct (assoc "identifier" d') as [j|] eqn:E.
  { exfalso. apply NI. apply KD; [discriminate|]. apply assoc_iff in E; auto. now apply (in_map fst) in E. }
  destruct (assoc "self" d') as [j|] eqn:ES.
  { exfalso. apply NS. apply KD; [discriminate|]. apply assoc_iff in ES; auto. now apply (in_map fst) in ES. }
  clear E ES. cbn [orb]. destruct (assoc "frequency" d') as [jf|] eqn:Ef; [|apply assoc_none in Ef; exfalso; apply Ef, KD; [discriminate|auto]].
  destruct (assoc "velocity" d') as [jv|] eqn:Ev; [|apply assoc_none in Ev; exfalso; apply Ev, KD; [discriminate|auto]].
  apply assoc_iff in Ef; auto. apply assoc_iff in Ev; auto. apply del_In in Ef as [Ef _], Ev as [Ev _].
  destruct (Arr _ _ Ef) as [f Af]; [discriminate|]. destruct (Arr _ _ Ev) as [v Av]; [discriminate|]. apply numbers_iff in Af, Av. rewrite Af. cbn [bind]. rewrite Av. cbn [bind].
  set (ex := dict_del "velocity" (dict_del "frequency" d')).
  assert (C : computed k = true) by (apply computed_iff; destruct Rk as [<-|[<-|[<-|[]]]]; auto).
  assert (IX : In k (map fst ex)).
  { unfold ex. rewrite !del_keys. rewrite !filter_In, !negb_true_iff, !String.eqb_neq.
    assert (k <> "valid" /\ k <> "frequency" /\ k <> "velocity") as (A1 & A2 & A3) by (repeat split; intros ->; discriminate C).
    split; [split|]; auto. now apply KD. }
  assert (AX : forall x j, In (x, j) ex -> exists a, array_of number j a).
  { intros x j I. unfold ex in I. rewrite !del_In in I. unfold d' in I. rewrite del_In in I. destruct I as (((I & I1) & _) & _). eauto. }
  enough (M : forall l, In k (map fst l) -> (forall x j, In (x, j) l -> exists a, array_of number j a) ->
    mapM (fun kv : string * json => bind (to_nd leaf_num (snd kv)) (fun a => if computed (fst kv) then Err AttributeError else Ok (fst kv, a))) l = Err AttributeError)
    by (rewrite M; auto).
  clear - C. induction l as [|[x j] l IH]; intros I AX; [destruct I|]. cbn [mapM fst snd].
  destruct (AX x j (or_introl eq_refl)) as [a A]. apply numbers_iff in A. rewrite A. cbn [bind].
  destruct (computed x) eqn:CX; [reflexivity|]. cbn [bind]. rewrite IH; auto.
  - destruct I as [<-|I]; auto. cbn [fst] in *. congruence.
  - intros y i H. apply (AX y i). now right.
Qed.

(** ** Comparison *)
Lemma allclose_iff l m : (allclose l m = Ok true <-> agree l m) /\ (allclose l m = Ok true \/ allclose l m = Ok false \/ allclose l m = Err ValueError).
Proof.
  split.
  - split.
    + intros H. apply allclose_true in H. destruct H as [C|[(x & -> & N & F)|(y & -> & N & F)]]; [now left| |]; right; rewrite Forall_forall in F.
      * split; [now left|]. intros x' y' [<-|[]] Hy. auto.
      * split; [now right|]. intros x' y' Hx [<-|[]]. auto.
    + intros H. unfold allclose. destruct H as [F|[L H]].
      * rewrite (Forall2_len _ _ _ F), Nat.eqb_refl. f_equal. clear -F. induction F as [|x y l m C F IH]; cbn [combine forallb fst snd]; auto.
        rewrite IH, andb_true_r. now apply isclose_spec.
      * destruct (Nat.eqb_spec (List.length l) (List.length m)) as [E|E].
        -- destruct l as [|x [|x' l]], m as [|y [|y' m]]; cbn in L, E; try lia. cbn. rewrite andb_true_r. f_equal. apply isclose_spec. apply H; now left.
        -- destruct L as [L|L].
           ++ destruct l as [|x [|x' l]]; cbn in L; try lia. f_equal. apply forallb_forall. intros y I. apply isclose_spec. apply H; [now left|auto].
           ++ destruct m as [|y [|y' m]]; cbn in L; try lia. destruct l as [|x [|x' l]]; [reflexivity|cbn in E; lia|]. f_equal.
              apply forallb_forall. intros z I. apply isclose_spec. apply H; [auto|now left].
  - unfold allclose. destruct (Nat.eqb _ _); [destruct (forallb _ _); auto|].
    destruct l as [|x [|x' l]], m as [|y [|y' m]]; auto; try (destruct (forallb _ _); auto).
Qed.

Lemma attrs_eq_total s t p q ks : well_formed s p -> well_formed t q -> attrs_eq p q ks = Ok true \/ attrs_eq p q ks = Ok false.
Proof.
  intros W W'. induction ks as [|k ks IH]; cbn [attrs_eq]; auto.
  assert (D : forall s p, well_formed s p -> (exists l, public p k = Ok l) \/ public p k = Err AttributeError).
  { intros s' r Wr. destruct (public r k) as [l|e] eqn:E; eauto. right.
    assert (N : ~ readable r k) by (intros R; rewrite (public_ok s' r k Wr R) in E; discriminate). rewrite (public_err r k N) in E. congruence. }
  destruct (D s p W) as [[l ->]| ->]; auto. destruct (D t q W') as [[m ->]| ->]; auto.
  destruct (allclose_iff l m) as (_ & [-> |[-> | ->]]); auto.
Qed.

Lemma compared s t p q : well_formed s p -> well_formed t q ->
  (peaks_eq p q = Ok true /\ compares_equal p q) \/ (peaks_eq p q = Ok false /\ ~ compares_equal p q).
Proof.
  intros W W'. unfold peaks_eq, compares_equal.
  destruct (String.eqb_spec (identifier p) (identifier q)) as [I|I]; cbn [negb]; [|right; tauto].
  destruct (Nat.eqb_spec (List.length (attrs p)) (List.length (attrs q))) as [L|L]; cbn [negb]; [|right; tauto].
  assert (K : attrs_eq p q (attrs p) = Ok true <-> forall k, In k (attrs p) -> named k /\ In k (attrs q) /\
    agree (map (value p k) (valid_positions p)) (map (value q k) (valid_positions q))).
  { split.
    - intros H k Hk. destruct (attrs_eq_true p q _ H k Hk) as (l & m & P & Q & C).
      assert (R := readable_of_ok _ _ _ P). assert (R' := readable_of_ok _ _ _ Q).
      rewrite (public_ok s p k W R) in P. rewrite (public_ok t q k W' R') in Q. injection P as <-. injection Q as <-.
      assert (ND := wf_not_derived s p W k Hk). unfold readable in R, R'. split; [tauto|]. split; [unfold attrs; tauto|]. now apply allclose_iff.
    - intros H. apply attrs_eq_all. intros k Hk. destruct (H k Hk) as (Nk & Iq & A).
      exists (map (value p k) (valid_positions p)), (map (value q k) (valid_positions q)).
      split; [apply (public_ok s p k W); right; auto|]. split; [apply (public_ok t q k W'); right; auto|]. now apply allclose_iff. }
  destruct (attrs_eq_total s t p q (attrs p) W W') as [E|E]; rewrite E; [left|right]; split; auto.
  - split; auto. split; auto. now apply K.
  - intros (_ & _ & H). apply K in H. congruence.
Qed.

(** * Stretching to a table *)
Section Stretching.
  Context {A : Type}.
  Lemma rows_length (l : list A) r : List.length (List.concat (repeat l r)) = r * List.length l.
  Proof. induction r as [|r IH]; cbn [repeat List.concat]; [reflexivity|]. rewrite app_length, IH. lia. Qed.
  Lemma rows_nth (l : list A) r i j d : i < r -> j < List.length l -> nth (i * List.length l + j) (List.concat (repeat l r)) d = nth j l d.
  Proof.
    intros Hi Hj. revert r Hi. induction i as [|i IH]; intros [|r] Hi; try lia; cbn [repeat List.concat].
    - cbn. now rewrite app_nth1 by lia.
    - rewrite app_nth2 by lia. replace (S i * List.length l + j - List.length l) with (i * List.length l + j) by lia. apply IH. lia.
  Qed.
  Lemma each_length (l : list A) c : List.length (flat_map (fun x => repeat x c) l) = List.length l * c.
  Proof. induction l as [|x l IH]; cbn [flat_map]; [reflexivity|]. rewrite app_length, repeat_length, IH. cbn [List.length]. lia. Qed.
  Lemma each_nth (l : list A) c i j d : i < List.length l -> j < c -> nth (i * c + j) (flat_map (fun x => repeat x c) l) d = nth i l d.
  Proof.
    intros Hi Hj. revert i Hi. induction l as [|x l IH]; intros i Hi; [cbn in Hi; lia|]. cbn [flat_map]. destruct i as [|i].
    - cbn [Nat.mul Nat.add]. rewrite app_nth1 by (rewrite repeat_length; lia). cbn [nth]. rewrite (nth_indep _ d x) by (rewrite repeat_length; lia). apply nth_repeat.
    - rewrite app_nth2 by (rewrite repeat_length; lia). rewrite repeat_length. replace (S i * c + j - c) with (i * c + j) by lia. cbn [nth]. apply IH. cbn in Hi. lia.
  Qed.
  Lemma one_all (l : list A) m k d : List.length l = 1 -> k < m -> nth k (flat_map (fun x => repeat x m) l) d = nth 0 l d.
  Proof. intros L H. exact (each_nth l m 0 k d ltac:(lia) H). Qed.
  Lemma wider_fits r c s : fits s r c = true -> wider_shape (S2 r c) s = S2 r c.
  Proof.
    unfold fits. destruct s as [n|a b]; cbn [wider_shape]; intros H; unfold wider.
    - apply orb_true_iff in H as [H|H]; apply Nat.eqb_eq in H; subst; destruct (Nat.eqb_spec c 1); congruence.
    - apply andb_true_iff in H as [H G]. apply orb_true_iff in H as [H|H], G as [G|G]; apply Nat.eqb_eq in H, G; subst;
        destruct (Nat.eqb_spec r 1), (Nat.eqb_spec c 1); congruence.
  Qed.
  Lemma wider_unfit r c s : r <> 1 -> c <> 1 -> wider_shape (S2 r c) s = S2 r c.
  Proof. intros R C. apply Nat.eqb_neq in R, C. unfold wider_shape, wider. destruct s; now rewrite ?R, ?C. Qed.
  Lemma stretch_unfit r c (a : nd A) : fits (shp a) r c = false -> stretch (S2 r c) a = None.
  Proof.
    unfold fits, stretch. destruct (shp a) as [n|x y]; cbn [shape_eqb]; intros H.
    - apply orb_false_iff in H as [-> ->]. reflexivity.
    - destruct (Nat.eqb x r), (Nat.eqb x 1), (Nat.eqb y c), (Nat.eqb y 1); cbn in *; congruence.
  Qed.
  Lemma stretch_fits r c (a : nd A) : fits (shp a) r c = true -> List.length (dat a) = size (shp a) ->
    exists l, stretch (S2 r c) a = Some l /\ List.length l = r * c /\ forall i j d, i < r -> j < c -> nth (i * c + j) l d = nth (taken (shp a) i j) (dat a) d.
  Proof.
    unfold fits, stretch, taken. destruct (shp a) as [n|x y]; cbn [shape_eqb size]; intros H L.
    - destruct (Nat.eqb_spec n c) as [E|N]; [revert L; rewrite E; intros L|].
      + eexists. split; [reflexivity|]. rewrite rows_length, L. split; [reflexivity|]. intros i j d Hi Hj. rewrite <- L at 1. rewrite rows_nth by lia.
        destruct (Nat.eqb_spec c 1); [|reflexivity]. now replace j with 0 by lia.
      + destruct (Nat.eqb_spec n 1) as [E1|N1]; [|discriminate]. eexists. split; [reflexivity|]. rewrite each_length, L, E1. split; [lia|].
        intros i j d Hi Hj. apply one_all; [congruence|nia].
    - destruct (Nat.eqb_spec x r) as [EX|X]; [subst x|]; (destruct (Nat.eqb_spec y c) as [EY|Y]; [subst y|]); cbn [andb orb] in *.
      + eexists. split; [reflexivity|]. split; [exact L|]. intros i j d Hi Hj. f_equal. destruct (Nat.eqb_spec r 1), (Nat.eqb_spec c 1); nia.
      + destruct (Nat.eqb_spec y 1) as [EY|Y1]; [subst y|discriminate]. rewrite !andb_false_r. eexists. split; [reflexivity|]. rewrite each_length, L. split; [lia|].
        intros i j d Hi Hj. rewrite each_nth by lia. f_equal. destruct (Nat.eqb_spec r 1); nia.
      + destruct (Nat.eqb_spec x 1) as [EX|X1]; [subst x|discriminate]. cbn [andb]. eexists. split; [reflexivity|]. rewrite rows_length, L. split; [lia|].
        intros i j d Hi Hj. replace (i * c + j) with (i * List.length (dat a) + j) by lia. rewrite rows_nth by lia. f_equal. destruct (Nat.eqb_spec c 1); lia.
      + destruct (Nat.eqb_spec x 1) as [EX|X1]; [subst x|discriminate]. destruct (Nat.eqb_spec y 1) as [EY|Y1]; [subst y|discriminate]. cbn [andb]. eexists. split; [reflexivity|].
        rewrite each_length, L. split; [lia|]. intros i j d Hi Hj. apply one_all; [auto|nia].
  Qed.
End Stretching.
