(* Proofs about the order of the files in the frequency-domain workflow. *)
From Coq Require Import Permutation.
From Verif Require Import HeaderFileProofs DetrendProofs WorkflowModel WorkflowSpec WorkflowProofs WorkflowGridProofs WorkflowRunProofs WorkflowOneProofs
  ArraySpec ArrayProofs ArrayMatrixProofs TransformSpec TransformProofs TransformNormProofs ImageProofs PyFacts NumFacts.
Local Open Scope string_scope.
Local Open Scope nat_scope.
Local Open Scope list_scope.
Local Open Scope py_scope.

(** * Steps that only change the records *)
Definition bare (o : action) : Prop :=
  match o with RefuseInside | KeepOffsets _ _ | RemoveTrend | TrimTime _ _ | PadRecords _ => True | _ => False end.
Lemma bare_act E o w a w1 : bare o -> act E o (set_array w a) = Ok w1 ->
  exists b, w1 = set_array w b /\ forall w', act E o (set_array w' a) = Ok (set_array w' b).
Proof.
  destruct o; cbn [bare]; try contradiction; intros _ H; cbn [act w_array set_array] in *.
  - exists a. destruct (source_inside a); [discriminate|]. inversion H; subst. auto.
  - apply on_array_ok in H as (b & R & ->). exists b. split; [reflexivity|]. intros w'. unfold on_array. now rewrite R.
  - inversion H; subst. exists (array_detrend a). auto.
  - apply on_array_ok in H as (c & R & ->). exists c. split; [reflexivity|]. intros w'. unfold on_array. now rewrite R.
  - apply on_array_ok in H as (b & R & ->). exists b. split; [reflexivity|]. intros w'. unfold on_array. now rewrite R.
Qed.
Lemma bare_perform E l : Forall bare l -> forall w a w1, perform E l (set_array w a) = Ok w1 ->
  exists b, w1 = set_array w b /\ forall w', perform E l (set_array w' a) = Ok (set_array w' b).
Proof.
  induction 1 as [|o l B F IH]; intros w a w1 H; cbn [perform] in *; [inversion H; subst; eauto|].
  apply bind_ok in H as (w2 & H2 & H). destruct (bare_act E o w a w2 B H2) as (b & -> & Q). destruct (IH w b w1 H) as (c & -> & R).
  exists c. split; [reflexivity|]. intros w'. rewrite Q. cbn [bind]. apply R.
Qed.
Lemma steps_bare p : given false (a_mute p) = false -> given false (a_snr p) = false -> Forall bare (preparation p ++ padding p).
Proof.
  intros M S. unfold preparation, padding. rewrite M, S. destruct (given false (a_trim p)), (given false (a_pad p)); cbn [when app]; repeat (constructor; [exact I|]); constructor.
Qed.

(** * The mean does not depend on the order *)
Lemma total_perm l l' : Permutation l l' -> total l = total l'.
Proof. unfold total. induction 1; cbn [map fold_right]; lia. Qed.
Lemma Qcsum_perm l l' : Permutation l l' -> Qcsum l = Qcsum l'.
Proof. unfold Qcsum. induction 1; cbn [fold_right]; [reflexivity|now rewrite IHPermutation|ring|congruence]. Qed.
Lemma wsum_perm l l' i j : Permutation l l' -> wsum l i j = wsum l' i j.
Proof. intros P. unfold wsum. apply Qcsum_perm, Permutation_map, P. Qed.

Definition image nr nc (t : transform flt) (mt : list (list Qc)) : Prop := wn t = 1%Z /\ power t = fin mt /\ rect nr nc mt.
Lemma images_others nr nc ts ms : Forall2 (image nr nc) ts ms -> map of_transform ts = others (map (pair 1%Z) ms).
Proof.
  induction 1 as [|t mt ts ms (N & P & _) F IH]; cbn; [reflexivity|]. f_equal; [|exact IH]. unfold of_transform. now rewrite N, P.
Qed.
Lemma stack_order nr nc e p0 ts ts' t1 : power e = fin p0 -> rect nr nc p0 -> wn e = 0%Z ->
  (forall t, In t ts -> exists mt, image nr nc t mt) -> ts <> [] -> Permutation ts ts' ->
  stack_many e (map of_transform ts) = (t1, Ok tt) -> stack_many e (map of_transform ts') = (t1, Ok tt).
Proof.
  intros P0 R0 N0 Im Ne Pm H.
  assert (Ms : exists ms, Forall2 (image nr nc) ts ms).
  { clear -Im. induction ts as [|t ts IH]; [exists []; constructor|]. destruct (Im t (or_introl eq_refl)) as (mt & M).
    destruct IH as (ms & F); [intros u I; apply Im; now right|]. exists (mt :: ms). now constructor. }
  destruct Ms as (ms & F). destruct (Permutation_Forall2 Pm F) as (ms' & Pms & F').
  assert (Ok1 : forall ts ms, Forall2 (image nr nc) ts ms -> ts <> [] -> exists w' q, stack_many e (map of_transform ts) = (w', Ok tt) /\ power w' = fin q /\ rect nr nc q /\
            wn w' = (wn e + total (map (pair 1%Z) ms))%Z /\ wfrq w' = wfrq e /\ wvel w' = wvel e /\ to_abs w' = to_abs e /\
            forall i j, i < nr -> j < nc -> entry q i j = ((entry p0 i j * QcZ (wn e) + wsum (map (pair 1%Z) ms) i j) / QcZ (wn e + total (map (pair 1%Z) ms)))%Qc).
  { clear -P0 R0 N0. intros ts ms F Ne. rewrite (images_others nr nc ts ms F). apply stack_many_fin; auto.
    - rewrite N0. lia.
    - intros k q I. apply in_map_iff in I as (mt & Q & I). inversion Q; subst. split; [lia|]. clear -F I.
      induction F as [|t m ts ms (_ & _ & R) F IH]; [destruct I|]. destruct I as [<-|I]; auto.
    - destruct F; [congruence|]. cbn. rewrite N0. lia. }
  destruct (Ok1 ts ms F Ne) as (w & q & A & B & C & D & Fq & Vq & Tq & En).
  destruct (Ok1 ts' ms' F') as (w' & q' & A' & B' & C' & D' & Fq' & Vq' & Tq' & En').
  { intros ->. apply Permutation_sym, Permutation_nil in Pm. congruence. }
  rewrite A' in *. rewrite A in H. inversion H; subst t1. f_equal.
  pose proof (Permutation_map (pair 1%Z) Pms) as Pq.
  assert (Q : q' = q).
  { apply (rect_ext nr nc); auto. intros i j Hi Hj. rewrite En, En' by auto. now rewrite (total_perm _ _ Pq), (wsum_perm _ _ i j Pq). }
  rewrite <- (total_perm _ _ Pq) in D'.
  destruct w, w'. cbn in *. subst. congruence.
Qed.

(** * The workflow *)
Section Order.
  Variables (E : environment) (geomspace : Qc -> Qc -> Z -> result (list Qc)) (g : array -> json -> result (transform flt)) (p : arguments).
  Hypothesis Hempty : lookup "empty" (e_transforms E) = Some (empty_class geomspace).
  Hypothesis Hclass : lookup (given "fdbf" (a_transform p)) (e_transforms E) = Some (reading g).
  Hypothesis Hstd : standard geomspace g.
  Hypothesis Hmute : given false (a_mute p) = false.
  Hypothesis Hsnr : given false (a_snr p) = false.
  Let steps := preparation p ++ padding p.
  Let st := create_settings_dict p.

  (** One file gives the image [t] whatever came before. *)
  Definition gives (x : string) (t : transform flt) : Prop :=
    exists a b, load E (Name x) = Ok a /\ (forall w, perform E steps (set_array w a) = Ok (set_array w b)) /\ g b (processing p) = Ok t.
  Lemma successive_gives files : forall w ws ts, successive E p w files ws ->
    Forall2 (fun w t => g (w_array w) (processing p) = Ok t) ws ts -> Forall2 gives files ts.
  Proof.
    induction files as [|x files IH]; intros w [|w1 ws] ts S F; cbn [successive] in S; try contradiction; inversion F; subst; constructor.
    - destruct S as ((a & L & P) & _). destruct (bare_perform E _ (steps_bare p Hmute Hsnr) w a w1 P) as (b & -> & Q). exists a, b. auto.
    - destruct S as (_ & S). eapply IH; eauto.
  Qed.
  Lemma loop_gives ex files ts : Forall2 gives files ts -> (forall x a, In x files -> load E (Name x) = Ok a -> array_similar a ex = true) ->
    forall w run t', stack_many run (map of_transform ts) = (t', Ok tt) ->
    exists w', file_loop E (reading g) ex (settings p (processing p)) w run files = (settings p (processing p), Ok (w', t')).
  Proof.
    induction 1 as [|x t files ts (a & b & L & P & G) F IH]; intros S w run t' H.
    - cbn in H. inversion H; subst. exists w. reflexivity.
    - cbn [file_loop]. rewrite file_act, L. cbn [bind or_stop]. rewrite (S x a (or_introl eq_refl) L). cbn [negb]. fold steps. rewrite P.
      cbn [bind or_stop]. rewrite item_processing. cbn [bind or_stop reading]. change (w_array (set_array w b)) with b. rewrite G. cbn [bind].
      rewrite put_settings. cbn [map stack_many] in H. destruct (stack run (of_transform t)) as [s [[]|e]]; [|discriminate]. cbn [or_stop].
      apply IH; auto. intros y c I. apply S. now right.
  Qed.

  Lemma order_irrelevant files files' m s o : Permutation files files' ->
    (forall x a, In x files -> load E (Name x) = Ok a -> like m a) ->
    run_frequency_domain E (Names files) st = (s, Ok o) ->
    exists o', run_frequency_domain E (Names files') st = (s, Ok o') /\ r_transform o' = r_transform o /\ r_snr o' = None.
  Proof.
    intros Pm Hm H. destruct (frequency_ok E geomspace g p Hempty Hclass _ _ _ H) as (-> & x0 & rest & ex & ws0 & e & ws & ts & Ef & Ex & Ew & Ee & Hs & S1 & S2 & S3 & Sa & Sr).
    cbn [iterate] in *. pose proof (successive_gives _ _ _ _ S1 S2) as Gi.
    destruct (Permutation_Forall2 Pm Gi) as (ts' & Pt & Gi').
    destruct files' as [|y0 rest'] eqn:Ef'; [apply Permutation_sym, Permutation_nil in Pm; congruence|]. rewrite <- Ef' in *.
    assert (Y : In y0 files') by (rewrite Ef'; now left). assert (Y' : In y0 files) by (eapply Permutation_in; [apply Permutation_sym, Pm|exact Y]).
    assert (Gx : forall x, In x files -> exists t, gives x t).
    { intros x I. clear -Gi I. induction Gi as [|z t l1 l2 Q F IH]; [destruct I|]. destruct I as [<-|I]; eauto. }
    assert (Lx0 : exists a0, load E (Name x0) = Ok a0 /\ src ex = src a0 /\ List.length (sensors ex) = List.length (sensors a0)).
    { destruct (Gx x0) as (t0 & a0 & b0 & L0 & P0 & _); [rewrite Ef; now left|]. exists a0. split; [exact L0|].
      assert (La : like m a0) by (apply (Hm x0); auto; rewrite Ef; now left).
      destruct (quiet_ok E _ (preparation_nc p) _ _ m (array_detrend a0) (P0 (started a0)) La (detrend_like _ _ La)) as (ex' & Q & Q1 & Q2).
      rewrite <- (quiet_example E p x0 a0 L0) in Q. rewrite Ex in Q. inversion Q; subst ex'. rewrite Q1, Q2. cbn. now rewrite map_length. }
    destruct Lx0 as (a0 & L0 & X1 & X2).
    destruct (Gx y0 Y') as (ty & ay & by_ & Ly & Py & Gy).
    assert (Lay : like m ay) by (apply (Hm y0); auto).
    destruct (quiet_ok E _ (preparation_nc p) _ _ m (array_detrend ay) (Py (started ay)) Lay (detrend_like _ _ Lay)) as (ey & Qy & Qy1 & Qy2).
    rewrite <- (quiet_example E p y0 ay Ly) in Qy.
    assert (Same : forall x a, In x files -> load E (Name x) = Ok a -> src a = src ex /\ List.length (sensors a) = List.length (sensors ex)).
    { intros x a I L. destruct (Hs x I) as (a' & L' & Sm). rewrite L in L'. inversion L'; subst a'. unfold array_similar, nchannels in Sm.
      apply andb_prop in Sm as [A B]. apply Nat.eqb_eq in A. apply source_eq_spec in B. auto. }
    assert (Sy : forall x a, In x files' -> load E (Name x) = Ok a -> array_similar a ey = true).
    { intros x a I L. apply (Permutation_in _ (Permutation_sym Pm)) in I. destruct (Same x a I L) as (A & B). destruct (Same y0 ay Y' Ly) as (A' & B').
      unfold array_similar, nchannels. rewrite Qy1, Qy2. cbn [array_detrend set_sensors sensors src]. rewrite map_length.
      rewrite B, B', Nat.eqb_refl. apply source_eq_spec. congruence. }
    assert (Lex : like (effect steps m) ex) by (rewrite settings_created in Ex; apply (example_like E p _ x0 ex a0 m Ex L0), (Hm x0); auto; rewrite Ef; now left).
    assert (Ley : like (effect steps m) ey) by (rewrite settings_created in Qy; exact (example_like E p _ y0 ey ay m Qy Ly Lay)).
    rewrite (empty_like geomspace _ _ ey ws0 Lex Ley) in Ee.
    assert (Grid : exists nr nc p0, power e = fin p0 /\ rect nr nc p0 /\ wn e = 0%Z /\ forall t, In t ts -> exists mt, image nr nc t mt).
    { pose proof Ee as Ee'. unfold empty_from_array in Ee'. destruct (sensors ey) as [|s0 sl]; [discriminate|].
      apply bind_ok in Ee' as (df & _ & Ee'). apply bind_ok in Ee' as (ids & _ & Ee'). apply bind_ok in Ee' as (fs & Tk & Ee').
      apply bind_ok in Ee' as (vs & _ & Ee'). 
      assert (Lf : List.length fs = List.length ids) by (unfold take in Tk; apply mapM_ok in Tk; symmetry; eapply Forall2_length; eauto).
      set (nr := Z.to_nat (s_nvel ws0)) in *. set (nc := List.length ids) in *.
      assert (MR : forall {A B} (h : A -> B) x n, map h (repeat x n) = repeat (h x) n) by (intros A B h x k; induction k; cbn; congruence).
      exists nr, nc, (repeat (repeat 0%Qc nc) nr). inversion Ee' as [E1]. split; [unfold fin; cbn [power new_empty]; now rewrite !MR|].
      split; [split; [apply repeat_length|]; intros r I; apply repeat_spec in I as ->; apply repeat_length|]. split; [reflexivity|].
      intros t I. destruct (Forall2_In_r _ _ _ t Gi I) as (x & Ix & a & b & L & P & G).
      assert (Lb : like (effect steps m) b).
      { exact (perform_like E steps (started a) (set_array (started a) b) m (preparation_nc p) (Hm x a Ix L) (P (started a))). }
      pose proof Ee as Eb. rewrite (empty_like geomspace _ ey b ws0 Ley Lb) in Eb.
      destruct (Hstd b _ t ws0 e G Ew Eb) as (N & F & V & mt & Pw & R1 & R2). exists mt. split; [exact N|]. split; [exact Pw|].
      rewrite <- E1 in R1, R2. cbn [new_empty power wfrq] in R1, R2. split; [rewrite R1; apply repeat_length|]. intros r Ir. rewrite (R2 r Ir). exact Lf. }
    destruct Grid as (nr & nc & p0 & G1 & G2 & G3 & G4).
    assert (Net : ts <> []) by (rewrite Ef in Gi; inversion Gi; discriminate).
    pose proof (stack_order nr nc e p0 ts ts' _ G1 G2 G3 G4 Net Pt S3) as St.
    destruct (loop_gives ey files' ts' Gi' Sy (started ey) e _ St) as (w' & Lp).
    exists (mkOutcome (r_transform o) (w_array w') None). split; [|auto].
    unfold run_frequency_domain. cbn [iterate]. unfold st. rewrite Ef' at 1. change (pyget (y0 :: rest') 0) with (Ok y0). cbn [bind]. rewrite Qy. cbn [bind or_stop].
    rewrite Hempty. rewrite settings_created, item_processing. cbn [bind or_stop empty_class reading].
    rewrite put_settings, item_processing, Ew. cbn [bind or_stop]. rewrite Ee. cbn [bind or_stop].
    replace (item (processing p) "transform") with (Ok (JStr (given "fdbf" (a_transform p)))) by reflexivity.
    cbn [bind str]. rewrite Hclass. cbn [or_stop]. rewrite Lp.
    replace (item (settings p (processing p)) "signal-to-noise") with (item (create_settings_dict p) "signal-to-noise") by reflexivity.
    cbn [create_settings_dict item lookup String.eqb Ascii.eqb Bool.eqb bind jbool truth]. rewrite <- settings_created, Hsnr. reflexivity.
  Qed.
End Order.

(** * Runs with a signal-to-noise ratio *)
Definition unpicked (o : action) : Prop := match o with MutePicked _ | Correlate _ _ _ _ => False | _ => True end.
(** Without muting, what an action makes of the records depends on the records alone. *)
Lemma unpicked_act E o w w' w1 w1' : unpicked o -> w_array w = w_array w' -> act E o w = Ok w1 -> act E o w' = Ok w1' -> w_array w1 = w_array w1'.
Proof.
  intros U Q H H'. destruct o; cbn [unpicked] in U; try contradiction; cbn [act] in *; rewrite <- ?Q in *.
  - destruct (source_inside (w_array w)); [discriminate|]. congruence.
  - apply on_array_ok in H as (b & R & ->). apply on_array_ok in H' as (b' & R' & ->). cbn. congruence.
  - inversion H; inversion H'; reflexivity.
  - assert (X : forall v v', match w_noise v with Some _ => Ok v | None => do c <- copy_array (w_array w); do c <- changed (array_trim c b e); Ok (set_noise v c) end = Ok v' -> w_array v' = w_array v).
    { clear. intros v v' H. destruct (w_noise v); [congruence|]. apply bind_ok in H as (c & _ & H). apply bind_ok in H as (c' & _ & H). now inversion H. }
    rewrite (X _ _ H), (X _ _ H'). exact Q.
  - apply on_array_ok in H as (c & R & ->). apply on_array_ok in H' as (c' & R' & ->). cbn. congruence.
  - assert (X : forall v v', match w_signal v with Some _ => Ok v | None => do c <- copy_array (w_array w); do c <- changed (array_trim c b e); Ok (set_signal v c) end = Ok v' -> w_array v' = w_array v).
    { clear. intros v v' H. destruct (w_signal v); [congruence|]. apply bind_ok in H as (c & _ & H). apply bind_ok in H as (c' & _ & H). now inversion H. }
    rewrite (X _ _ H), (X _ _ H'). exact Q.
  - assert (X : forall v v', act E (SignalToNoise fl fh pad df) v = Ok v' -> w_array v' = w_array v).
    { clear. intros v v' H. cbn [act] in H. destruct (w_signal v), (w_noise v); try discriminate.
      destruct (snr_from_arrays _ _ _ _ _ _ _) as [[s n] [r|]]; [|discriminate]. now inversion H. }
    rewrite (X _ _ H), (X _ _ H'). exact Q.
  - apply on_array_ok in H as (b & R & ->). apply on_array_ok in H' as (b' & R' & ->). cbn. congruence.
Qed.
Lemma unpicked_perform E l : Forall unpicked l -> forall w w' w1 w1', w_array w = w_array w' -> perform E l w = Ok w1 -> perform E l w' = Ok w1' -> w_array w1 = w_array w1'.
Proof.
  induction 1 as [|o l U F IH]; intros w w' w1 w1' Q H H'; cbn [perform] in *; [congruence|].
  apply bind_ok in H as (w2 & H2 & H). apply bind_ok in H' as (w2' & H2' & H'). exact (IH _ _ _ _ (unpicked_act E o _ _ _ _ U Q H2 H2') H H').
Qed.
Lemma steps_unpicked p : given false (a_mute p) = false -> Forall unpicked (preparation p ++ padding p).
Proof.
  intros M. unfold preparation, padding. rewrite M. destruct (given false (a_snr p)), (given false (a_trim p)), (given false (a_pad p)); cbn [when app];
    repeat (constructor; [exact I|]); constructor.
Qed.
Lemma functional_perm {A B} (R : A -> B -> Prop) l l' ts ts' : (forall x t t', R x t -> R x t' -> t = t') -> Permutation l l' -> Forall2 R l ts -> Forall2 R l' ts' -> Permutation ts ts'.
Proof.
  intros Fn P F F'. destruct (Permutation_Forall2 P F) as (us & Pu & Fu). replace ts' with us; [exact Pu|].
  clear -Fn Fu F'. revert ts' F'. induction Fu as [|x u l us R1 F IH]; intros ts' F'; inversion F'; subst; [reflexivity|]. f_equal; eauto.
Qed.

Section Both.
  Variables (E : environment) (geomspace : Qc -> Qc -> Z -> result (list Qc)) (g : array -> json -> result (transform flt)) (p : arguments).
  Hypothesis Hempty : lookup "empty" (e_transforms E) = Some (empty_class geomspace).
  Hypothesis Hclass : lookup (given "fdbf" (a_transform p)) (e_transforms E) = Some (reading g).
  Hypothesis Hstd : standard geomspace g.
  Hypothesis Hmute : given false (a_mute p) = false.
  Definition makes (x : string) (t : transform flt) : Prop :=
    exists a w w1, load E (Name x) = Ok a /\ perform E (preparation p ++ padding p) (set_array w a) = Ok w1 /\ g (w_array w1) (processing p) = Ok t.
  Lemma makes_once x t t' : makes x t -> makes x t' -> t = t'.
  Proof.
    intros (a & w & w1 & L & P & G) (a' & w' & w1' & L' & P' & G'). rewrite L in L'. inversion L'; subst a'.
    rewrite (unpicked_perform E _ (steps_unpicked p Hmute) _ _ _ _ (eq_refl : w_array (set_array w a) = w_array (set_array w' a)) P P') in G. congruence.
  Qed.
  Lemma successive_makes files : forall w ws ts, successive E p w files ws ->
    Forall2 (fun w t => g (w_array w) (processing p) = Ok t) ws ts -> Forall2 makes files ts.
  Proof.
    induction files as [|x files IH]; intros w [|w1 ws] ts S F; cbn [successive] in S; try contradiction; inversion F; subst; constructor.
    - destruct S as ((a & L & P) & _). exists a, w, w1. auto.
    - destruct S as (_ & S). eapply IH; eauto.
  Qed.
  Lemma order_image files files' m s o s' o' : Permutation files files' ->
    (forall x a, In x files -> load E (Name x) = Ok a -> like m a) ->
    run_frequency_domain E (Names files) (create_settings_dict p) = (s, Ok o) ->
    run_frequency_domain E (Names files') (create_settings_dict p) = (s', Ok o') -> r_transform o' = r_transform o.
  Proof.
    intros Pm Hm H H'.
    destruct (frequency_ok E geomspace g p Hempty Hclass _ _ _ H) as (-> & x0 & rest & ex & ws0 & e & ws & ts & Ef & Ex & Ew & Ee & Hs & S1 & S2 & S3 & _).
    destruct (frequency_ok E geomspace g p Hempty Hclass _ _ _ H') as (-> & y0 & rest' & ey & ws0' & e' & ws' & ts' & Ef' & Ey & Ew' & Ee' & Hs' & S1' & S2' & S3' & _).
    cbn [iterate] in *. rewrite Ew in Ew'. inversion Ew'; subst ws0'.
    pose proof (successive_makes _ _ _ _ S1 S2) as Gi. pose proof (successive_makes _ _ _ _ S1' S2') as Gi'.
    pose proof (functional_perm makes _ _ _ _ makes_once Pm Gi Gi') as Pt.
    assert (X : In x0 files) by (rewrite Ef; now left). assert (Y : In y0 files') by (rewrite Ef'; now left).
    destruct (Hs x0 X) as (ax & Lx & _). destruct (Hs' y0 Y) as (ay & Ly & _). apply (Permutation_in _ (Permutation_sym Pm)) in Y.
    set (steps := preparation p ++ padding p) in *.
    assert (Lex : like (effect steps m) ex) by (rewrite settings_created in Ex; exact (example_like E p _ x0 ex ax m Ex Lx (Hm x0 ax X Lx))).
    assert (Ley : like (effect steps m) ey) by (rewrite settings_created in Ey; exact (example_like E p _ y0 ey ay m Ey Ly (Hm y0 ay Y Ly))).
    rewrite <- (empty_like geomspace _ _ ey ws0 Lex Ley), Ee in Ee'. inversion Ee'; subst e'. clear Ee'.
    assert (Grid : exists nr nc p0, power e = fin p0 /\ rect nr nc p0 /\ wn e = 0%Z /\ forall t, In t ts -> exists mt, image nr nc t mt).
    { pose proof Ee as Ee'. unfold empty_from_array in Ee'. destruct (sensors ex) as [|s0 sl]; [discriminate|].
      apply bind_ok in Ee' as (df & _ & Ee'). apply bind_ok in Ee' as (ids & _ & Ee'). apply bind_ok in Ee' as (fs & Tk & Ee').
      apply bind_ok in Ee' as (vs & _ & Ee'). 
      assert (Lf : List.length fs = List.length ids) by (unfold take in Tk; apply mapM_ok in Tk; symmetry; eapply Forall2_length; eauto).
      set (nr := Z.to_nat (s_nvel ws0)) in *. set (nc := List.length ids) in *.
      assert (MR : forall {A B} (h : A -> B) x n, map h (repeat x n) = repeat (h x) n) by (intros A B h x k; induction k; cbn; congruence).
      exists nr, nc, (repeat (repeat 0%Qc nc) nr). inversion Ee' as [E1]. split; [unfold fin; cbn [power new_empty]; now rewrite !MR|].
      split; [split; [apply repeat_length|]; intros r I; apply repeat_spec in I as ->; apply repeat_length|]. split; [reflexivity|].
      intros t I. destruct (Forall2_In_r _ _ _ t Gi I) as (x & Ix & a & w & w1 & L & P & G).
      assert (Lb : like (effect steps m) (w_array w1)) by exact (perform_like E steps (set_array w a) w1 m (preparation_nc p) (Hm x a Ix L) P).
      pose proof Ee as Eb. rewrite (empty_like geomspace _ ex (w_array w1) ws0 Lex Lb) in Eb.
      destruct (Hstd (w_array w1) _ t ws0 e G Ew Eb) as (N & F & V & mt & Pw & R1 & R2). exists mt. split; [exact N|]. split; [exact Pw|].
      rewrite <- E1 in R1, R2. cbn [new_empty power wfrq] in R1, R2. split; [rewrite R1; apply repeat_length|]. intros r Ir. rewrite (R2 r Ir). exact Lf. }
    destruct Grid as (nr & nc & p0 & G1 & G2 & G3 & G4).
    assert (Net : ts <> []) by (rewrite Ef in Gi; inversion Gi; discriminate).
    pose proof (stack_order nr nc e p0 ts ts' _ G1 G2 G3 G4 Net Pt S3) as St. rewrite St in S3'. now inversion S3'.
  Qed.
End Both.
