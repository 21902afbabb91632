(* Proofs about the order of the files that are stacked on the first one. *)
From Coq Require Import Permutation.
From Verif Require Import NumFacts PyFacts SeriesModel SeriesSpec SeriesProofs ArrayModel ArraySpec ArrayProofs ArrayMatrixProofs.
From Verif Require Import HeaderModel HeaderSpec HeaderProofs HeaderFileProofs HeaderErrorSpec HeaderErrorProofs StackFilesSpec StackFilesProofs.
Local Open Scope nat_scope.

Lemma QcZ_pos_nz z : (0 < z)%Z -> QcZ z <> 0%Qc.
Proof. intros H E. rewrite <- QcZ_0 in E. apply QcZ_inj in E. lia. Qed.
Lemma stack_data_swap s x y : (0 < nstacks s)%Z -> (0 < nstacks x)%Z -> (0 < nstacks y)%Z ->
  length (amp s) = length (amp x) -> length (amp s) = length (amp y) ->
  stack_data (stack_data s x) y = stack_data (stack_data s y) x.
Proof.
  intros Ps Px Py Lx Ly. unfold stack_data. cbn [nstacks amp dt delay multiple]. f_equal; [|lia].
  pose proof (QcZ_pos_nz (nstacks s + nstacks x) ltac:(lia)) as N1. pose proof (QcZ_pos_nz (nstacks s + nstacks y) ltac:(lia)) as N2.
  pose proof (QcZ_pos_nz (nstacks s + nstacks x + nstacks y) ltac:(lia)) as N3.
  replace (nstacks s + nstacks y + nstacks x)%Z with (nstacks s + nstacks x + nstacks y)%Z by lia.
  generalize dependent (amp x). generalize dependent (amp y). induction (amp s) as [|a l IH]; intros [|b ly] Ly [|c lx] Lx; cbn in *; try discriminate; [reflexivity|].
  f_equal; [|apply IH; lia]. rewrite !QcZ_add in *. field. auto.
Qed.

Definition counted (l : list sensor) : Prop := Forall (fun s => (0 < nstacks (ser s))%Z) l.
Lemma decoded_counted t n : from_trace t (fun x => x) (fun y => y) = Ok n -> (0 < nstacks (ser n))%Z.
Proof. intros D. pose proof (from_trace_valid t (fun x => x) (fun y => y)) as V. rewrite D in V. destruct V as (V & _). lia. Qed.
Lemma append_swap s x y s1 s2 : (0 < nstacks (ser s))%Z -> (0 < nstacks (ser x))%Z -> (0 < nstacks (ser y))%Z ->
  sensor_stack_append s (ObjSensor x) = (s1, Ok tt) -> sensor_stack_append s1 (ObjSensor y) = (s2, Ok tt) ->
  exists s1', sensor_stack_append s (ObjSensor y) = (s1', Ok tt) /\ sensor_stack_append s1' (ObjSensor x) = (s2, Ok tt).
Proof.
  intros Ps Px Py H1 H2. apply sensor_stack_ok in H1 as ((X1 & X2 & X3) & (C1 & C2 & C3) & ->). apply sensor_stack_ok in H2 as ((Y1 & Y2 & Y3) & (D1 & D2 & D3) & ->).
  cbn in Y1, Y2, Y3, D1, D2, D3. rewrite length_map2, <- C3, Nat.min_id in D3.
  exists (set_ser s (stack_data (ser s) (ser y))). split.
  - unfold sensor_stack_append. replace (sensor_is_similar [A_nstacks] s (ObjSensor y)) with true; [reflexivity|]. symmetry. apply sensor_is_similar_stack.
    cbn. unfold compatible. auto 8.
  - unfold sensor_stack_append. replace (sensor_is_similar [A_nstacks] (set_ser s (stack_data (ser s) (ser y))) (ObjSensor x)) with true.
    + f_equal. cbn [set_ser sx sy sz ser]. unfold set_ser. cbn. f_equal. symmetry. now apply stack_data_swap.
    + symmetry. apply sensor_is_similar_stack. cbn. unfold compatible. cbn. rewrite length_map2, <- D3, Nat.min_id. auto 8.
Qed.
Lemma traces_counted : forall l ts l', counted l -> stack_traces l ts = Ok l' -> counted l'.
Proof.
  induction l as [|s l IH]; intros [|t ts] l' C H; cbn [stack_traces] in H; try (injection H as <-; exact C).
  apply bind_ok in H as (n & D & H). destruct (sensor_stack_append s (ObjSensor n)) as [s1 [[]|]] eqn:E; [|discriminate].
  apply bind_ok in H as (r & R & H). injection H as <-. inversion C; subst. constructor; [|eapply IH; eauto].
  apply sensor_stack_ok in E as (_ & _ & ->). apply decoded_counted in D. cbn. lia.
Qed.
Lemma traces_swap : forall l ts us l1 l2, counted l -> stack_traces l ts = Ok l1 -> stack_traces l1 us = Ok l2 ->
  exists l1', stack_traces l us = Ok l1' /\ stack_traces l1' ts = Ok l2.
Proof.
  induction l as [|s l IH]; intros [|t ts] [|u us] l1 l2 C H1 H2; cbn [stack_traces] in H1; try (injection H1 as <-); cbn [stack_traces] in H2;
    try (injection H2 as <-; eexists; split; reflexivity).
  - exists l2. split; [exact H2|]. destruct l2; reflexivity.
  - apply bind_ok in H1 as (n & D & H1). destruct (sensor_stack_append s (ObjSensor n)) as [s1 [[]|]] eqn:E; [|discriminate].
    apply bind_ok in H1 as (r & R & H1). injection H1 as <-. cbn [stack_traces] in H2. injection H2 as <-.
    exists (s :: l). split; [reflexivity|]. cbn [stack_traces]. rewrite D. cbn [bind]. rewrite E, R. reflexivity.
  - apply bind_ok in H1 as (n & D & H1). destruct (sensor_stack_append s (ObjSensor n)) as [s1 [[]|]] eqn:E; [|discriminate].
    apply bind_ok in H1 as (r & R & H1). injection H1 as <-. cbn [stack_traces] in H2.
    apply bind_ok in H2 as (m & D' & H2). destruct (sensor_stack_append s1 (ObjSensor m)) as [s2 [[]|]] eqn:E'; [|discriminate].
    apply bind_ok in H2 as (r' & R' & H2). injection H2 as <-. inversion C as [|? ? C1 C2]; subst.
    destruct (IH ts us r r' C2 R R') as (q & Q1 & Q2).
    destruct (append_swap s n m s1 s2 C1 (decoded_counted _ _ D) (decoded_counted _ _ D') E E') as (s1' & A & B).
    exists (s1' :: q). cbn [stack_traces]. rewrite D'. cbn [bind]. rewrite A, Q1. cbn [bind]. split; [reflexivity|]. rewrite D. cbn [bind]. rewrite B, Q2. reflexivity.
Qed.

Section Order.
  Context {F K : Type} (read : option K -> F -> result (list trace)).
  Lemma file_swap f mx my a st u a1 a2 : counted (sensors a) -> stack_file f mx my a st = Ok a1 -> stack_file f mx my a1 u = Ok a2 ->
    exists a1', stack_file f mx my a u = Ok a1' /\ stack_file f mx my a1' st = Ok a2.
  Proof.
    intros C H1 H2. unfold stack_file in *. destruct st as [|t0 st]; [discriminate|]. destruct u as [|u0 u]; [discriminate|].
    apply bind_ok in H1 as (sc & P & H1). destruct (source_eq sc (src a)) eqn:S1; [|discriminate]. cbn [negb] in H1.
    apply bind_ok in H1 as (l & T & H1). injection H1 as <-.
    apply bind_ok in H2 as (sd & P' & H2). cbn [src sensors] in H2. destruct (source_eq sd (src a)) eqn:S2; [|discriminate]. cbn [negb] in H2.
    apply bind_ok in H2 as (l' & T' & H2). injection H2 as <-.
    destruct (traces_swap _ _ _ _ _ C T T') as (q & Q1 & Q2). exists (mkArray q (src a)).
    rewrite P'. cbn [bind]. rewrite S2. cbn [negb]. rewrite Q1. cbn [bind]. split; [reflexivity|]. cbn [src sensors]. rewrite P. cbn [bind]. rewrite S1. cbn [negb]. rewrite Q2. reflexivity.
  Qed.
  Lemma file_counted f mx my a st a1 : counted (sensors a) -> stack_file f mx my a st = Ok a1 -> counted (sensors a1).
  Proof.
    intros C H. unfold stack_file in H. destruct st as [|t0 st]; [discriminate|]. apply bind_ok in H as (sc & P & H). destruct (source_eq sc (src a)); [|discriminate].
    apply bind_ok in H as (l & T & H). injection H as <-. exact (traces_counted _ _ _ C T).
  Qed.
  Lemma files_order f mx my l l' : Permutation l l' -> forall a b, counted (sensors a) -> stack_files read f mx my a l = Ok b -> stack_files read f mx my a l' = Ok b.
  Proof.
    induction 1 as [|x l l' P IH|x y l|l l' l'' P1 IH1 P2 IH2]; intros a b C H; auto.
    - cbn [stack_files] in *. apply bind_ok in H as (st & R & H). apply bind_ok in H as (a1 & S & H). rewrite R. cbn [bind]. rewrite S. cbn [bind].
      apply IH; auto. eapply file_counted; eauto.
    - cbn [stack_files] in *. apply bind_ok in H as (st & R & H). apply bind_ok in H as (a1 & S & H). apply bind_ok in H as (st' & R' & H). apply bind_ok in H as (a2 & S' & H).
      destruct (file_swap _ _ _ _ _ _ _ _ C S S') as (a1' & Q1 & Q2). rewrite R'. cbn [bind]. rewrite Q1. cbn [bind]. rewrite R. cbn [bind]. rewrite Q2. exact H.
  Qed.
  Lemma further_files mx my kw f0 l l' a : Permutation l l' -> from_files read mx my kw (f0 :: l) = Ok a -> from_files read mx my kw (f0 :: l') = Ok a.
  Proof.
    intros P H. destruct (from_files_split _ _ _ _ _ _ _ H) as (a0 & f & B & _). apply from_files_base in B as (_ & C0).
    unfold from_files in *. apply bind_ok in H as (st & R & H). apply bind_ok in H as (ss & M & H).
    destruct (rev st) as [|tr r] eqn:E; [discriminate|]. destruct (fmt_of (t_header tr)) as [f'|] eqn:E2; [|discriminate].
    apply bind_ok in H as (s & PS & H). apply bind_ok in H as (a1 & N & H).
    rewrite R. cbn [bind]. rewrite M. cbn [bind]. rewrite E, E2, PS. cbn [bind]. rewrite N. cbn [bind]. apply (files_order f' mx my l l' P); auto.
    assert (X : from_files read mx my kw [f0] = Ok a1) by (unfold from_files; rewrite R; cbn [bind]; rewrite M; cbn [bind]; rewrite E, E2, PS; cbn [bind]; now rewrite N).
    apply from_files_base in X as (_ & X). eapply Forall_impl; [|exact X]. cbn. lia.
  Qed.

  Lemma add_swap a d e a1 a2 : add_in_place a d = Ok a1 -> add_in_place a1 e = Ok a2 ->
    exists a1', add_in_place a e = Ok a1' /\ add_in_place a1' d = Ok a2.
  Proof.
    assert (LM : forall l m : list Qc, length l = length m -> length (map2 Qcplus l m) = length l) by (intros l m H; rewrite length_map2, H; apply Nat.min_id).
    assert (SW : forall a d e : list Qc, length a = length d -> length a = length e -> map2 Qcplus (map2 Qcplus a d) e = map2 Qcplus (map2 Qcplus a e) d).
    { clear. induction a as [|x a IH]; intros [|y d] [|z e] H1 H2; cbn in *; try discriminate; auto. f_equal; [ring|apply IH; lia]. }
    assert (S1 : forall (a d : list Qc) v, length a = length d -> map (fun x => (x + v)%Qc) (map2 Qcplus a d) = map2 Qcplus (map (fun x => (x + v)%Qc) a) d).
    { clear. induction a as [|x a IH]; intros [|y d] v H1; cbn in *; try discriminate; auto. f_equal; [ring|apply IH; lia]. }
    intros H1 H2. unfold add_in_place in *.
    destruct (Nat.eqb_spec (length d) (length a)) as [L1|L1].
    - injection H1 as <-. rewrite LM in H2 by auto. destruct (Nat.eqb_spec (length e) (length a)) as [L2|L2].
      + injection H2 as <-. eexists. split; [reflexivity|]. rewrite LM by auto. rewrite L1, Nat.eqb_refl. f_equal. symmetry. apply SW; auto.
      + destruct e as [|v [|? ?]]; try discriminate. injection H2 as <-. eexists. split; [reflexivity|]. rewrite map_length, L1, Nat.eqb_refl. f_equal. symmetry. apply S1; auto.
    - destruct d as [|v [|? ?]]; try discriminate. injection H1 as <-. rewrite map_length in H2. destruct (Nat.eqb_spec (length e) (length a)) as [L2|L2].
      + injection H2 as <-. eexists. split; [reflexivity|]. rewrite LM by auto. destruct (Nat.eqb_spec (length [v]) (length a)); [congruence|]. f_equal. apply S1; auto.
      + destruct e as [|u [|? ?]]; try discriminate. injection H2 as <-. eexists. split; [reflexivity|]. rewrite map_length.
        destruct (Nat.eqb_spec (length [v]) (length a)); [congruence|]. f_equal. rewrite !map_map. apply map_ext. intros x. ring.
  Qed.
  Lemma add_all_order ch l l' : Permutation l l' -> forall a b, add_all read ch a l = Ok b -> add_all read ch a l' = Ok b.
  Proof.
    induction 1 as [|x l l' P IH|x y l|l l' l'' P1 IH1 P2 IH2]; intros a b H; auto.
    - cbn [add_all] in *. apply bind_ok in H as (st & R & H). apply bind_ok in H as (t & G & H). apply bind_ok in H as (a1 & A & H).
      rewrite R. cbn [bind]. rewrite G. cbn [bind]. rewrite A. cbn [bind]. now apply IH.
    - cbn [add_all] in *. apply bind_ok in H as (st & R & H). apply bind_ok in H as (t & G & H). apply bind_ok in H as (a1 & A & H).
      apply bind_ok in H as (st' & R' & H). apply bind_ok in H as (t' & G' & H). apply bind_ok in H as (a2 & A' & H).
      destruct (add_swap _ _ _ _ _ A A') as (a1' & Q1 & Q2). rewrite R'. cbn [bind]. rewrite G'. cbn [bind]. rewrite Q1. cbn [bind]. rewrite R. cbn [bind]. rewrite G. cbn [bind]. rewrite Q2. exact H.
  Qed.
  Lemma source_order ch f0 l l' r : Permutation l l' -> source_signal read ch (f0 :: l) = Ok r -> source_signal read ch (f0 :: l') = Ok r.
  Proof.
    intros P H. unfold source_signal in *. apply bind_ok in H as (st & R & H). apply bind_ok in H as (t & G & H). apply bind_ok in H as (a & A & H).
    rewrite R. cbn [bind]. rewrite G. cbn [bind]. rewrite (add_all_order ch l l' P _ _ A). cbn [bind]. rewrite <- H. do 3 f_equal.
    cbn [length]. now rewrite (Permutation_length P).
  Qed.
End Order.
