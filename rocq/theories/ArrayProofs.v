(* Proofs about arrays. *)
From Verif Require Import PyFacts NumFacts SeriesModel SeriesSpec SeriesProofs.
From Verif Require Import ArrayModel ArraySpec DetrendProofs.

(** ** Construction *)
Lemma sensor_similar_agree s t : sensor_similar [A_x; A_y; A_z] s t = true <-> agree s t.
Proof.
  unfold sensor_similar. cbn [excluded existsb attr_eqb orb andb].
  replace (series_similar [A_x; A_y; A_z] (ser s) (ser t)) with (series_similar [] (ser s) (ser t)) by reflexivity.
  rewrite series_similar_all. reflexivity.
Qed.
Lemma agree_sym s t : agree s t -> agree t s.
Proof. unfold agree; intuition congruence. Qed.
Lemma agree_trans s t u : agree s t -> agree t u -> agree s u.
Proof. unfold agree; intuition congruence. Qed.
Lemma agree_refl s : agree s s.
Proof. unfold agree; auto. Qed.

Lemma existsb_Qceqb x l : existsb (Qceqb x) l = true <-> In x l.
Proof.
  rewrite existsb_exists. split.
  - intros (y & H & E). apply Qceqb_eq in E. now subst.
  - intros H. exists x. split; auto. now apply Qceqb_eq.
Qed.

Lemma check_sensors_spec e l : forall pos,
  (check_sensors e pos l = Ok tt <->
     Forall (agree e) l /\ NoDup (map sx l) /\ (forall s, In s l -> ~ In (sx s) pos)) /\
  (check_sensors e pos l = Ok tt \/ check_sensors e pos l = Err ValueError).
Proof.
  induction l as [|s t IH]; intros pos; cbn [check_sensors].
  - split; [|auto]. split; [intros _; repeat split; [constructor|constructor|intros s []]|auto].
  - destruct (sensor_similar _ e s) eqn:S; cbn [negb].
    + apply sensor_similar_agree in S.
      destruct (existsb (Qceqb (sx s)) pos) eqn:E.
      * apply existsb_Qceqb in E. split; [|auto]. split; [discriminate|].
        intros (_ & _ & H). now elim (H s (or_introl eq_refl)).
      * assert (E' : ~ In (sx s) pos) by (intros H; apply existsb_Qceqb in H; congruence).
        destruct (IH (pos ++ [sx s])) as [I J]. split; [|exact J]. rewrite I.
        cbn [map]. split.
        -- intros (A & B & C). split; [constructor; auto|]. split.
           ++ constructor; auto. intros H. apply in_map_iff in H as (u & Hu & Hin).
              apply (C u Hin). apply in_or_app. right. left. now rewrite Hu.
           ++ intros u [->|Hu]; auto. intros H. apply (C u Hu). apply in_or_app. now left.
        -- intros (A & B & C). inversion A; inversion B; subst. split; auto. split; auto.
           intros u Hu H. apply in_app_or in H as [H|[H|[]]].
           ++ apply (C u); [now right|exact H].
           ++ match goal with H : ~ In (sx s) _ |- _ => apply H end.
              rewrite H. now apply in_map.
    + split; [|auto]. split; [discriminate|]. intros (A & _). inversion A; subst.
      match goal with H : agree e s |- _ => apply sensor_similar_agree in H end. congruence.
Qed.

Lemma insert_perm s l : Permutation (insert_sensor s l) (s :: l).
Proof.
  induction l as [|t l IH]; cbn; auto. destruct (Qcltb (sx t) (sx s)); auto.
  rewrite IH. apply perm_swap.
Qed.
Lemma sort_perm l : Permutation (sort_sensors l) l.
Proof. induction l; cbn; auto. rewrite insert_perm. now constructor. Qed.

Lemma insert_sorted s l : increasing (map sx l) -> ~ In (sx s) (map sx l) ->
  increasing (map sx (insert_sensor s l)).
Proof.
  unfold increasing. induction l as [|t l IH]; cbn [insert_sensor map]; intros S N.
  - repeat constructor.
  - inversion S; subst. destruct (Qcltb_spec (sx t) (sx s)).
    + cbn [map]. constructor; [apply IH; auto; intros H; apply N; now right|].
      apply Forall_forall. intros x Hx. apply in_map_iff in Hx as (u & <- & Hu).
      apply (Permutation_in _ (insert_perm s l)) in Hu. destruct Hu as [->|Hu]; auto.
      match goal with H : Forall _ _ |- _ => rewrite Forall_forall in H; apply H end. now apply in_map.
    + cbn [map]. assert (L : (sx s < sx t)%Qc).
      { apply Qcnot_lt_le in n. apply Qcle_lt_or_eq in n as [|E]; auto.
        elim N. left. auto. }
      constructor; [exact S|]. constructor; auto.
      eapply Forall_impl; [|eassumption]. cbn. intros x Hx. eapply Qclt_trans; eauto.
Qed.
Lemma sort_sorted l : NoDup (map sx l) -> increasing (map sx (sort_sensors l)).
Proof.
  induction l as [|s l IH]; cbn [sort_sensors fold_right map]; intros N; [constructor|].
  inversion N; subst. apply insert_sorted; [now apply IH|].
  intros H. apply H1. eapply Permutation_in; [|exact H]. apply Permutation_map, sort_perm.
Qed.

(** A strictly increasing permutation is unique. *)
Lemma increasing_perm_unique l : forall m, increasing (map sx l) -> increasing (map sx m) ->
  Permutation l m -> l = m.
Proof.
  unfold increasing. induction l as [|a l IH]; intros m A B P.
  - now apply Permutation_nil in P.
  - destruct m as [|b m]; [now apply Permutation_sym, Permutation_nil in P|].
    cbn [map] in A, B. inversion A as [|? ? A1 A2]; inversion B as [|? ? B1 B2]; subst.
    rewrite Forall_forall in A2, B2.
    assert (E : a = b).
    { assert (Ha : In a (b :: m)) by (eapply Permutation_in; [exact P|now left]).
      assert (Hb : In b (a :: l)) by (eapply Permutation_in; [symmetry; exact P|now left]).
      destruct Ha as [->|Ha]; auto. destruct Hb as [->|Hb]; auto.
      assert (X := A2 _ (in_map sx _ _ Hb)). assert (Y := B2 _ (in_map sx _ _ Ha)).
      elim (Qclt_not_le _ _ X). now apply Qclt_le_weak. }
    subst b. f_equal. apply IH; auto. now apply Permutation_cons_inv in P.
Qed.

Definition buildable (l : list sensor) : Prop :=
  l <> [] /\ (forall s t, In s l -> In t l -> agree s t) /\ NoDup (map sx l).

Lemma new_array_ok l s : buildable l <-> new_array l s = Ok (mkArray (sort_sensors l) s).
Proof.
  destruct l as [|e t]; cbn [new_array].
  - split; [intros (H & _); congruence|discriminate].
  - destruct (check_sensors_spec e t [sx e]) as [I J].
    split.
    + intros (_ & A & N). cbn [map] in N. inversion N; subst.
      replace (check_sensors e [sx e] t) with (@Ok unit tt); [reflexivity|].
      symmetry. apply I. split.
      * apply Forall_forall. intros u Hu. apply A; [now left|now right].
      * split; auto. intros u Hu [H|[]]. apply H1. rewrite H. now apply in_map.
    + destruct J as [J|J]; rewrite J; cbn [bind]; [intros _|discriminate].
      apply I in J as (A & N & D). rewrite Forall_forall in A.
      assert (A' : forall u, In u (e :: t) -> agree e u)
        by (intros u [->|Hu]; [apply agree_refl|auto]).
      split; [discriminate|]. split.
      * intros u v Hu Hv. apply agree_trans with e; [apply agree_sym|]; auto.
      * cbn [map]. constructor; auto. intros H. apply in_map_iff in H as (u & E & Hu).
        apply (D u Hu). left. auto.
Qed.
Lemma new_array_err l s : ~ buildable l ->
  new_array l s = Err (match l with [] => IndexError | _ => ValueError end).
Proof.
  intros H. destruct l as [|e t]; [reflexivity|]. cbn [new_array].
  destruct (check_sensors_spec e t [sx e]) as [_ [J|J]]; rewrite J; cbn [bind]; auto.
  elim H. apply (new_array_ok (e :: t) s). cbn [new_array]. rewrite J. reflexivity.
Qed.

Lemma new_array_spec l s a : new_array l s = Ok a ->
  consistent a /\ Permutation (sensors a) l /\ src a = s.
Proof.
  intros H. assert (B : buildable l).
  { destruct l as [|e t]; [discriminate H|]. cbn [new_array] in H.
    destruct (check_sensors_spec e t [sx e]) as [_ [J|J]]; rewrite J in H; cbn [bind] in H; [|discriminate].
    apply (new_array_ok (e :: t) s). cbn [new_array]. rewrite J. reflexivity. }
  pose proof (proj1 (new_array_ok l s) B) as E. rewrite E in H. injection H as <-. cbn.
  destruct B as (N & A & D). split; [|split; [apply sort_perm|reflexivity]].
  split; [|split].
  - cbn. intros Z. apply N. apply Permutation_nil. rewrite <- Z. apply sort_perm.
  - now apply sort_sorted.
  - cbn. intros u v Hu Hv. apply A; eapply Permutation_in; try apply sort_perm; auto.
Qed.

Lemma new_array_order l m s a : Permutation l m -> new_array l s = Ok a -> new_array m s = Ok a.
Proof.
  intros P H. destruct (new_array_spec _ _ _ H) as (_ & _ & _).
  assert (B : buildable l).
  { destruct (new_array_ok l s) as [_ X]. apply X. destruct l as [|e t]; [discriminate H|].
    cbn [new_array] in H |- *. destruct (check_sensors e [sx e] t); [reflexivity|discriminate]. }
  assert (B' : buildable m).
  { destruct B as (N & A & D). split; [|split].
    - intros ->. apply N. now apply Permutation_nil, Permutation_sym.
    - intros u v Hu Hv. apply A; eapply Permutation_in; try (symmetry; exact P); auto.
    - eapply Permutation_NoDup; [apply Permutation_map, P|exact D]. }
  rewrite (proj1 (new_array_ok l s) B) in H. rewrite (proj1 (new_array_ok m s) B').
  rewrite <- H. do 2 f_equal. apply increasing_perm_unique.
  - apply sort_sorted, B'. 
  - apply sort_sorted, B.
  - rewrite !sort_perm. now symmetry.
Qed.

Lemma new_array_iff l s : (exists a, new_array l s = Ok a) <-> buildable l.
Proof.
  split.
  - intros (a & H). destruct l as [|e t]; [discriminate H|].
    cbn [new_array] in H.
    destruct (check_sensors_spec e t [sx e]) as [_ [J|J]]; rewrite J in H; cbn [bind] in H; [|discriminate].
    apply (new_array_ok (e :: t) s). cbn [new_array]. rewrite J. reflexivity.
  - intros B. eexists. apply new_array_ok, B.
Qed.

(** ** Invariant *)
(** Relation between sensors lists: an operation maps every sensor by the same
    record-level effect. *)
Lemma consistent_map a f :
  (forall s, In s (sensors a) -> sx (f s) = sx s) ->
  (forall s t, In s (sensors a) -> In t (sensors a) -> agree s t -> agree (f s) (f t)) ->
  consistent a -> consistent (set_sensors a (map f (sensors a))).
Proof.
  intros X A (N & S & G). split; [|split]; cbn.
  - destruct (sensors a); [congruence|discriminate].
  - rewrite map_map. rewrite (map_ext_in _ sx); auto.
  - intros s t Hs Ht. apply in_map_iff in Hs as (u & <- & Hu), Ht as (v & <- & Hv). auto.
Qed.

Lemma sensor_trim_agree st en s t : agree s t ->
  snd (sensor_trim st en s) = snd (sensor_trim st en t) /\
  agree (fst (sensor_trim st en s)) (fst (sensor_trim st en t)).
Proof.
  intros (D & N & De & L). unfold sensor_trim, trim, base_trim.
  assert (T : time (ser s) = time (ser t)).
  { unfold time, nsamples. rewrite D, De, L. reflexivity. }
  rewrite <- T. destruct (time (ser s)) as [|t0 ts]; [cbn; repeat split; auto|].
  destruct (_ || _ || _); [cbn; repeat split; auto|].
  destruct (argmin _) as [i|]; [|cbn; repeat split; auto].
  destruct (argmin _) as [j|]; [|cbn; repeat split; auto].
  cbn. repeat split; auto. cbn. rewrite !skipn_length, !firstn_length. lia.
Qed.
Lemma sensor_trim_sx st en s : sx (fst (sensor_trim st en s)) = sx s /\
  sy (fst (sensor_trim st en s)) = sy s /\ sz (fst (sensor_trim st en s)) = sz s.
Proof. unfold sensor_trim. destruct (trim (ser s) st en); cbn. auto. Qed.

Lemma sensor_pad_agree df s t : agree s t ->
  snd (sensor_zero_pad df s) = snd (sensor_zero_pad df t) /\
  agree (fst (sensor_zero_pad df s)) (fst (sensor_zero_pad df t)) /\
  multiple (ser (fst (sensor_zero_pad df s))) = multiple (ser (fst (sensor_zero_pad df t))).
Proof.
  intros (D & N & De & L). unfold sensor_zero_pad, zero_pad, append_zeros, nsamples. rewrite D, L.
  destruct (Qcleb df 0); [cbn; repeat split; auto|].
  destruct (Qceqb _ 0); [cbn; repeat split; auto|].
  set (M := round_half_even _). set (n := Z.of_nat _).
  destruct (n <? M)%Z.
  - destruct (M - n <? 0)%Z; cbn; repeat split; auto. cbn. rewrite !app_length. lia.
  - destruct (M <? n)%Z; [|cbn; repeat split; auto].
    destruct (M =? 0)%Z; [cbn; repeat split; auto|].
    destruct (n mod M =? 0)%Z; [cbn; repeat split; auto|].
    destruct (M - n mod M <? 0)%Z; cbn; repeat split; auto. cbn. rewrite !app_length. lia.
Qed.
Lemma sensor_pad_sx df s : sx (fst (sensor_zero_pad df s)) = sx s /\
  sy (fst (sensor_zero_pad df s)) = sy s /\ sz (fst (sensor_zero_pad df s)) = sz s.
Proof. unfold sensor_zero_pad. destruct (zero_pad (ser s) df); cbn. auto. Qed.

(** When all sensors have the same outcome, the loop is a map or stops at the
    first sensor. *)
Lemma for_each_uniform {S} (f : S -> S * result unit) s t :
  (forall u, In u (s :: t) -> snd (f u) = snd (f s)) ->
  for_each f (s :: t) =
  match snd (f s) with
  | Ok _ => (map (fun u => fst (f u)) (s :: t), Ok tt)
  | Err e => (fst (f s) :: t, Err e)
  end.
Proof.
  intros H. destruct (snd (f s)) as [[]|e] eqn:E.
  - apply for_each_all_ok. intros u Hu. rewrite (surjective_pairing (f u)), H by exact Hu. auto.
  - cbn [for_each]. rewrite (surjective_pairing (f s)), E. reflexivity.
Qed.

Lemma array_trim_cases a st en : consistent a ->
  exists s0 l, sensors a = s0 :: l /\
  array_trim a st en =
  match snd (sensor_trim st en s0) with
  | Ok _ => (set_sensors a (map (fun s => fst (sensor_trim st en s)) (sensors a)), Ok tt)
  | Err e => (a, Err e)
  end.
Proof.
  intros (N & _ & G). destruct (sensors a) as [|s0 l] eqn:E; [congruence|].
  exists s0, l. split; auto. unfold array_trim. rewrite E, for_each_uniform.
  - destruct (snd (sensor_trim st en s0)) as [[]|e] eqn:O; [reflexivity|].
    unfold sensor_trim in *. destruct (trim (ser s0) st en) as [s' r] eqn:T. cbn in *. subst r.
    apply trim_fail_state in T. subst s'.
    replace (set_ser s0 (ser s0)) with s0 by (destruct s0; reflexivity).
    unfold set_sensors. rewrite <- E. destruct a; reflexivity.
  - intros u Hu. apply sensor_trim_agree. apply G; auto. now left.
Qed.

(** Array-level trimming is atomic. *)
Lemma array_trim_atomic a st en : consistent a ->
  (exists a', array_trim a st en = (a', Ok tt) /\ src a' = src a /\
     Forall2 (fun s s' => trim (ser s) st en = (ser s', Ok tt) /\
                          sx s' = sx s /\ sy s' = sy s /\ sz s' = sz s) (sensors a) (sensors a')) \/
  (exists e, array_trim a st en = (a, Err e) /\ 
     Forall (fun s => trim (ser s) st en = (ser s, Err e)) (sensors a)).
Proof.
  intros C. destruct (array_trim_cases a st en C) as (s0 & l & E & H). rewrite H.
  assert (U : forall s, In s (sensors a) -> snd (sensor_trim st en s) = snd (sensor_trim st en s0)).
  { intros s Hs. apply sensor_trim_agree. destruct C as (_ & _ & G). apply G; auto. rewrite E. now left. }
  destruct (snd (sensor_trim st en s0)) as [[]|e].
  - left. eexists. split; [reflexivity|]. split; [reflexivity|]. cbn.
    revert U. generalize (sensors a). clear. induction l as [|s l IH]; intros U; cbn; constructor.
    + specialize (U s (or_introl eq_refl)). unfold sensor_trim in *.
      destruct (trim (ser s) st en) as [s' r]. cbn in *. subst r. auto.
    + apply IH. intros u Hu. apply U. now right.
  - right. exists e. split; auto. apply Forall_forall. intros s Hs. specialize (U s Hs).
    unfold sensor_trim in U. destruct (trim (ser s) st en) as [s' r] eqn:T. cbn in U. subst r.
    now rewrite (trim_fail_state _ _ _ _ _ T).
Qed.

Lemma array_pad_cases a df : consistent a ->
  exists s0 l, sensors a = s0 :: l /\
  array_zero_pad a df =
  match snd (sensor_zero_pad df s0) with
  | Ok _ => (set_sensors a (map (fun s => fst (sensor_zero_pad df s)) (sensors a)), Ok tt)
  | Err e => (set_sensors a (fst (sensor_zero_pad df s0) :: l), Err e)
  end.
Proof.
  intros (N & _ & G). destruct (sensors a) as [|s0 l] eqn:E; [congruence|].
  exists s0, l. split; auto. unfold array_zero_pad. rewrite E, for_each_uniform.
  - destruct (snd (sensor_zero_pad df s0)) as [[]|e] eqn:O; reflexivity.
  - intros u Hu. apply sensor_pad_agree. apply G; auto. now left.
Qed.

(** What a failing zero_pad leaves behind (dt > 0). *)
Lemma sensor_pad_fail df s e : (0 < dt (ser s))%Qc -> snd (sensor_zero_pad df s) = Err e ->
  fst (sensor_zero_pad df s) = set_ser s (set_multiple (ser s) 1).
Proof.
  unfold sensor_zero_pad. destruct (zero_pad (ser s) df) as [s' r] eqn:Z. cbn. intros D ->.
  now rewrite (zero_pad_fail_state _ _ _ _ D Z).
Qed.
Lemma sensor_pad_fail_agree df s e : snd (sensor_zero_pad df s) = Err e ->
  agree (fst (sensor_zero_pad df s)) s /\ amp (ser (fst (sensor_zero_pad df s))) = amp (ser s).
Proof.
  unfold sensor_zero_pad, zero_pad, append_zeros, nsamples.
  destruct (Qcleb df 0); [cbn; repeat split; auto|].
  destruct (Qceqb _ 0); [cbn; repeat split; auto|].
  set (M := round_half_even _). set (n := Z.of_nat _).
  destruct (n <? M)%Z.
  - destruct (M - n <? 0)%Z; cbn; [repeat split; auto|discriminate].
  - destruct (M <? n)%Z; [|cbn; discriminate].
    destruct (M =? 0)%Z; [cbn; repeat split; auto|].
    destruct (n mod M =? 0)%Z; [cbn; discriminate|].
    destruct (M - n mod M <? 0)%Z; cbn; [repeat split; auto|discriminate].
Qed.

(** Replacing the sensors position by position. *)
Lemma consistent_pointwise a l' :
  Forall2 (fun s s' => sx s' = sx s) (sensors a) l' ->
  (forall s t, In s l' -> In t l' -> agree s t) ->
  consistent a -> consistent (set_sensors a l').
Proof.
  intros F A (N & S & _). split; [|split]; cbn; auto.
  - intros ->. inversion F. congruence.
  - assert (E : map sx l' = map sx (sensors a)).
    { clear -F. induction F; cbn; congruence. }
    now rewrite E.
Qed.

Lemma Forall2_refl_in {A} (R : A -> A -> Prop) l : (forall x, In x l -> R x x) -> Forall2 R l l.
Proof. induction l; constructor; auto. apply H. now left. apply IHl. intros; apply H. now right. Qed.

Lemma array_trim_consistent a st en : consistent a -> consistent (fst (array_trim a st en)).
Proof.
  intros C. destruct (array_trim_cases a st en C) as (s0 & l & E & H). rewrite H.
  destruct (snd (sensor_trim st en s0)); cbn [fst]; auto.
  apply consistent_map; auto.
  - intros; apply sensor_trim_sx.
  - intros s t _ _ A. now apply sensor_trim_agree.
Qed.

Lemma array_pad_consistent a df : consistent a -> consistent (fst (array_zero_pad a df)).
Proof.
  intros C. destruct (array_pad_cases a df C) as (s0 & l & E & H). rewrite H.
  destruct (snd (sensor_zero_pad df s0)) eqn:O; cbn [fst].
  - apply consistent_map; auto.
    + intros; apply sensor_pad_sx.
    + intros s t _ _ A. now apply sensor_pad_agree.
  - destruct (sensor_pad_fail_agree _ _ _ O) as [A _].
    apply consistent_pointwise; auto.
    + rewrite E. constructor; [apply sensor_pad_sx|]. now apply Forall2_refl_in.
    + destruct C as (_ & _ & G). rewrite E in G.
      intros s t [<-|Hs] [<-|Ht].
      * apply agree_refl.
      * apply agree_trans with s0; auto. apply G; [now left|now right].
      * apply agree_sym, agree_trans with s0; auto. apply G; [now left|now right].
      * apply G; now right.
Qed.

(** ** trim_offsets *)
Lemma trim_offsets_loop_sub {A} mn mx (l : list (Qc * A)) : exists keep,
  length keep = length l /\ trim_offsets_loop mn mx l = select keep (map snd l).
Proof.
  induction l as [|[o s] t (k & L & IH)]; cbn [trim_offsets_loop map snd].
  - exists []. auto.
  - destruct (Qcltb mx o).
    + exists ((Qcltb mn o && Qcltb o mx) :: repeat false (length t)).
      cbn. rewrite repeat_length. split; auto.
      assert (Z : select (repeat false (length t)) (map snd t) = []).
      { clear. induction t; cbn; auto. }
      rewrite Z. now destruct (_ && _).
    + exists ((Qcltb mn o && Qcltb o mx) :: k). cbn. split; [congruence|].
      rewrite IH. now destruct (_ && _).
Qed.
Lemma map_snd_combine {A B} (f : A -> B) l : map snd (combine (map f l) l) = l.
Proof. induction l; cbn; congruence. Qed.
Lemma In_select_l {A} (a : A) m l : In a (select m l) -> In a l.
Proof. intros H. apply In_select in H as (i & _ & H). now apply nth_error_In in H. Qed.
Lemma select_sorted {A} (R : A -> A -> Prop) m l : StronglySorted R l -> StronglySorted R (select m l).
Proof.
  intros S. revert m. induction S as [|a l S IH F]; intros [|[] m]; cbn; try constructor; auto.
  apply Forall_forall. intros x Hx. rewrite Forall_forall in F. apply F. now apply In_select_l in Hx.
Qed.

Lemma trim_offsets_sub a mn mx : exists keep, length keep = length (sensors a) /\
  trim_offsets a mn mx =
  match select keep (sensors a) with
  | [] => (a, Err ValueError)
  | l => (set_sensors a l, Ok tt)
  end.
Proof.
  unfold trim_offsets, offsets.
  destruct (trim_offsets_loop_sub mn mx (combine (map (offset_of a) (sensors a)) (sensors a))) as (k & L & E).
  rewrite combine_length, map_length, Nat.min_id in L.
  rewrite map_snd_combine in E. exists k. split; auto. now rewrite E.
Qed.

Lemma consistent_sub a keep : consistent a -> select keep (sensors a) <> [] ->
  consistent (set_sensors a (select keep (sensors a))).
Proof.
  intros (N & S & G) N'. split; [|split]; cbn; auto.
  - rewrite <- select_map. now apply select_sorted.
  - intros s t Hs Ht. apply G; eapply In_select_l; eauto.
Qed.
Lemma trim_offsets_consistent a mn mx : consistent a -> consistent (fst (trim_offsets a mn mx)).
Proof.
  intros C. destruct (trim_offsets_sub a mn mx) as (k & _ & E). rewrite E.
  destruct (select k (sensors a)) eqn:Z; cbn [fst]; auto.
  rewrite <- Z. apply consistent_sub; auto. rewrite Z. discriminate.
Qed.

(** The loop is the filter over the receivers before the first one beyond max. *)
Lemma trim_offsets_loop_filter mn mx (f : sensor -> Qc) l :
  (forall s, In s l -> (f s <= mx)%Qc) ->
  trim_offsets_loop mn mx (combine (map f l) l) = filter (fun s => Qcltb mn (f s) && Qcltb (f s) mx) l.
Proof.
  induction l as [|s t IH]; intros H; cbn; auto.
  rewrite IH by (intros; apply H; now right).
  destruct (Qcltb_spec mx (f s)) as [L|_].
  - elim (Qclt_not_le _ _ L). apply H. now left.
  - destruct (_ && _); reflexivity.
Qed.
Lemma trim_offsets_loop_inc mn mx (f : sensor -> Qc) l :
  increasing (map f l) ->
  trim_offsets_loop mn mx (combine (map f l) l) = filter (fun s => Qcltb mn (f s) && Qcltb (f s) mx) l.
Proof.
  unfold increasing. induction l as [|s t IH]; intros H; cbn; auto. cbn in H. inversion H as [|? ? H1 H2]; subst.
  rewrite IH by exact H1.
  destruct (Qcltb_spec mx (f s)) as [L|_].
  - replace (filter _ t) with (@nil sensor); [now destruct (_ && _)|].
    symmetry. clear IH H1 H. induction t as [|u t IH]; cbn; auto.
    cbn in H2. inversion H2; subst. rewrite IH by assumption.
    destruct (Qcltb_spec (f u) mx) as [L'|_]; [|now rewrite andb_false_r].
    exfalso. assert (X : (f s < f u)%Qc) by assumption. qclra.
  - destruct (_ && _); reflexivity.
Qed.

Lemma Qcabs_swap x y : Qcabs (x - y) = Qcabs (y - x).
Proof. replace (x - y)%Qc with (- (y - x))%Qc by ring. apply Qcabs_opp. Qed.
Lemma offset_dist a s : offset_of a s = dist a s.
Proof. unfold offset_of, dist. apply Qcabs_swap. Qed.

Lemma increasing_hd_le x l : increasing (x :: l) -> forall y, In y (x :: l) -> (x <= y)%Qc.
Proof.
  intros H y [->|Hy]; [apply Qcle_refl|]. inversion H as [|? ? _ F]; subst.
  rewrite Forall_forall in F. apply Qclt_le_weak; auto.
Qed.
Lemma first_x_le a s : consistent a -> In s (sensors a) -> (first_x a <= sx s)%Qc.
Proof.
  intros (_ & S & _) H. unfold first_x, position. apply (in_map sx) in H.
  destruct (map sx (sensors a)) as [|x l]; [destruct H|]. cbn. eapply increasing_hd_le; eauto.
Qed.
Lemma increasing_last l d : increasing l -> forall y, In y l -> (y <= last l d)%Qc.
Proof.
  unfold increasing. induction l as [|x l IH]; intros H y Hy; [destruct Hy|].
  inversion H as [|? ? H1 F]; subst. destruct l as [|z l].
  - destruct Hy as [->|[]]. apply Qcle_refl.
  - change (last (x :: z :: l) d) with (last (z :: l) d). destruct Hy as [->|Hy]; [|now apply IH].
    apply Qcle_trans with z; [|apply IH; auto; now left].
    inversion F; subst. now apply Qclt_le_weak.
Qed.
Lemma last_x_ge a s : consistent a -> In s (sensors a) -> (sx s <= last_x a)%Qc.
Proof.
  intros (_ & S & _) H. apply increasing_last; auto. now apply in_map.
Qed.

Lemma map_increasing (f : sensor -> Qc) l :
  increasing (map sx l) ->
  (forall s t, In s l -> In t l -> (sx s < sx t)%Qc -> (f s < f t)%Qc) ->
  increasing (map f l).
Proof.
  unfold increasing. induction l as [|s l IH]; intros H M; cbn; [constructor|].
  cbn in H. inversion H as [|? ? H1 F]; subst. constructor.
  - apply IH; auto. intros; apply M; auto; now right.
  - apply Forall_forall. intros y Hy. apply in_map_iff in Hy as (t & <- & Ht).
    rewrite Forall_forall in F. apply M; [now left|now right|]. apply F. now apply in_map.
Qed.

Lemma offsets_left a : consistent a -> (src_x (src a) <= first_x a)%Qc ->
  increasing (map (dist a) (sensors a)).
Proof.
  intros C L. apply map_increasing; [apply C|].
  intros s t Hs Ht H. unfold dist.
  assert (A := first_x_le a s C Hs). assert (B := first_x_le a t C Ht).
  unfold Qcabs. destruct (Qcltb_spec (sx s - src_x (src a)) 0); destruct (Qcltb_spec (sx t - src_x (src a)) 0); qclra.
Qed.

Lemma StronglySorted_snoc {A} (R : A -> A -> Prop) l a :
  StronglySorted R l -> Forall (fun x => R x a) l -> StronglySorted R (l ++ [a]).
Proof.
  induction 1 as [|b l S IH F]; intros G; cbn; [repeat constructor|].
  inversion G; subst. constructor; auto. apply Forall_app. split; auto.
Qed.
Lemma StronglySorted_rev {A} (R : A -> A -> Prop) l :
  StronglySorted R l -> StronglySorted (fun x y => R y x) (rev l).
Proof.
  induction 1 as [|a l S IH F]; cbn; [constructor|]. apply StronglySorted_snoc; auto.
  now apply Forall_rev.
Qed.

Lemma offsets_right a : consistent a -> (last_x a <= src_x (src a))%Qc ->
  increasing (rev (map (dist a) (sensors a))).
Proof.
  intros C L.
  assert (D : StronglySorted (fun x y => (y < x)%Qc) (map (dist a) (sensors a))).
  { destruct C as (N & S & G). assert (C : consistent a) by (split; auto).
    assert (M : forall s t, In s (sensors a) -> In t (sensors a) -> (sx s < sx t)%Qc -> (dist a t < dist a s)%Qc).
    { intros s t Hs Ht H. unfold dist.
      assert (A := last_x_ge a s C Hs). assert (B := last_x_ge a t C Ht).
      unfold Qcabs. destruct (Qcltb_spec (sx s - src_x (src a)) 0); destruct (Qcltb_spec (sx t - src_x (src a)) 0); qclra. }
    revert S M. clear. generalize (sensors a). unfold increasing. induction l as [|s l IH]; intros H M; cbn; [constructor|].
    cbn in H. inversion H as [|? ? H1 F]; subst. constructor.
    - apply IH; auto. intros; apply M; auto; now right.
    - apply Forall_forall. intros y Hy. apply in_map_iff in Hy as (t & <- & Ht).
      rewrite Forall_forall in F. apply M; [now left|now right|]. apply F. now apply in_map. }
  apply StronglySorted_rev in D. exact D.
Qed.

(** Receivers in ascending order of distance. *)
Lemma flipped_spec a m offs : consistent a ->
  (src_x (src a) <= first_x a)%Qc \/ (last_x a < src_x (src a))%Qc ->
  flipped a = (m, offs) ->
  exists order, Permutation order (sensors a) /\
    m = map (fun s => amp (ser s)) order /\ offs = map (dist a) order /\ increasing offs.
Proof.
  intros C P. unfold flipped, flip_required, offsets.
  rewrite (map_ext _ _ (offset_dist a)).
  destruct (Qcltb_spec (last_x a) (src_x (src a))) as [L|L]; intros E; injection E as <- <-.
  - exists (rev (sensors a)). split; [symmetry; apply Permutation_rev|].
    rewrite !map_rev. split; auto. split; auto. apply offsets_right; auto. now apply Qclt_le_weak.
  - exists (sensors a). split; auto. split; auto. split; auto.
    destruct P as [P|P]; [|contradiction]. now apply offsets_left.
Qed.

Definition in_range (a : array) (mn mx : Qc) (s : sensor) : bool :=
  Qcltb mn (dist a s) && Qcltb (dist a s) mx.
Lemma trim_offsets_spec a mn mx : consistent a ->
  (src_x (src a) <= first_x a)%Qc \/ Forall (fun s => (dist a s <= mx)%Qc) (sensors a) ->
  trim_offsets a mn mx =
  match filter (in_range a mn mx) (sensors a) with
  | [] => (a, Err ValueError)
  | l => (set_sensors a l, Ok tt)
  end.
Proof.
  intros C H. unfold trim_offsets, offsets. rewrite (map_ext _ _ (offset_dist a)).
  replace (trim_offsets_loop mn mx _) with (filter (in_range a mn mx) (sensors a)); [reflexivity|].
  symmetry. destruct H as [H|H].
  - apply (trim_offsets_loop_inc mn mx (dist a)). now apply offsets_left.
  - apply (trim_offsets_loop_filter mn mx (dist a)). intros s Hs. rewrite Forall_forall in H. auto.
Qed.

(** ** Mute *)
Lemma set_slice_length w lo hi arr w' : set_slice w lo hi arr = Ok w' -> length w' = length w.
Proof.
  unfold set_slice. set (a := clip_index _ lo). set (b := clip_index _ hi).
  assert (A : a <= length w) by (unfold a, clip_index; destruct (_ <? 0)%Z; lia).
  assert (B : b <= length w) by (unfold b, clip_index; destruct (_ <? 0)%Z; lia).
  destruct (Nat.eqb_spec (length arr) (b - a)) as [E|E].
  - intros H. injection H as <-. rewrite !app_length, firstn_length, skipn_length. lia.
  - destruct arr as [|v [|]]; try discriminate. intros H. injection H as <-.
    rewrite !app_length, firstn_length, skipn_length, repeat_length. lia.
Qed.

(** The window fits records of the length of the first one. *)
Lemma mute_sensor_fits taper n start stop s : length (amp (ser s)) = n ->
  mute_sensor taper n start stop s =
  match bind (tukey taper (stop - start)) (set_slice (repeat 0%Qc n) start stop) with
  | Err e => (s, Err e)
  | Ok w => (set_ser s (set_amp (ser s) (map2 Qcmult (amp (ser s)) w)), Ok tt)
  end.
Proof.
  intros L. unfold mute_sensor.
  destruct (bind (tukey taper (stop - start)) _) as [w|] eqn:E; cbn [bind]; [|reflexivity].
  destruct (tukey taper (stop - start)) as [arr|]; [|discriminate]. cbn [bind] in E.
  apply set_slice_length in E. rewrite repeat_length in E.
  unfold scale_by. rewrite E, L, Nat.eqb_refl. reflexivity.
Qed.
Lemma mute_sensor_keeps taper n start stop s : length (amp (ser s)) = n ->
  only_samples_change s (fst (mute_sensor taper n start stop s)).
Proof.
  intros L. rewrite mute_sensor_fits by exact L.
  destruct (bind _ _) as [w|] eqn:E; cbn [fst]; [|repeat split].
  destruct (tukey taper (stop - start)) as [arr|]; [|discriminate]. cbn [bind] in E.
  apply set_slice_length in E. rewrite repeat_length in E.
  repeat split. cbn. rewrite length_map2. lia.
Qed.
Lemma mute_loop_keeps taper n : forall idx l, Forall (fun s => length (amp (ser s)) = n) l ->
  Forall2 only_samples_change l (fst (mute_loop taper n idx l)).
Proof.
  induction idx as [|[a b] idx IH]; intros l F; cbn [mute_loop].
  - cbn [fst]. apply Forall2_refl_in. repeat split.
  - destruct l as [|s t]; [constructor|]. inversion F as [|? ? F1 F2]; subst.
    assert (K := mute_sensor_keeps taper (length (amp (ser s))) a b s eq_refl).
    destruct (mute_sensor taper _ a b s) as [s' [u|e]]; cbn [fst] in *.
    + specialize (IH t F2). destruct (mute_loop taper _ idx t) as [t' r]. cbn [fst] in *. now constructor.
    + constructor; auto. apply Forall2_refl_in. repeat split.
Qed.
Lemma consistent_lengths a s0 l : consistent a -> sensors a = s0 :: l ->
  Forall (fun s => length (amp (ser s)) = length (amp (ser s0))) (sensors a).
Proof.
  intros (_ & _ & G) E. apply Forall_forall. intros s Hs. apply G; auto. rewrite E. now left.
Qed.
Lemma mute_keeps a taper ss se : consistent a ->
  src (fst (mute a taper ss se)) = src a /\
  Forall2 only_samples_change (sensors a) (sensors (fst (mute a taper ss se))).
Proof.
  intros C. unfold mute. destruct (sensors a) as [|s0 l] eqn:E.
  - cbn [fst]. rewrite E. split; auto.
  - assert (R : Forall2 only_samples_change (s0 :: l) (sensors a))
      by (rewrite E; apply Forall2_refl_in; repeat split).
    destruct (Qceqb _ 0); [split; auto|]. destruct (bind _ _) as [idx|]; [|split; auto].
    assert (F := consistent_lengths a s0 l C E). rewrite E in F.
    assert (K := mute_loop_keeps taper (nsamples (ser s0)) idx (s0 :: l) F).
    destruct (mute_loop _ _ _ _) as [l' r]. cbn in *. auto.
Qed.

Lemma only_samples_agree s s' : only_samples_change s s' -> agree s s'.
Proof. unfold only_samples_change, agree. intuition congruence. Qed.
Lemma Forall2_In_r {A B} (R : A -> B -> Prop) l m b : Forall2 R l m -> In b m -> exists a, In a l /\ R a b.
Proof.
  induction 1 as [|x y l m H F IH]; intros []; subst; [exists x; cbn; auto|].
  destruct IH as (a & Ha & HR); auto. exists a. cbn. auto.
Qed.
Lemma Forall2_In_l {A B} (R : A -> B -> Prop) l m a : Forall2 R l m -> In a l -> exists b, In b m /\ R a b.
Proof.
  induction 1 as [|x y l m H F IH]; intros []; subst; [exists y; cbn; auto|].
  destruct IH as (b & Hb & HR); auto. exists b. cbn. auto.
Qed.
Lemma consistent_only_samples a l' : consistent a ->
  Forall2 only_samples_change (sensors a) l' -> consistent (set_sensors a l').
Proof.
  intros C F. apply consistent_pointwise; auto.
  - eapply Forall2_impl; [|exact F]. intros s s' H. apply H.
  - intros s t Hs Ht. destruct (Forall2_In_r _ _ _ _ F Hs) as (u & Hu & Ru).
    destruct (Forall2_In_r _ _ _ _ F Ht) as (v & Hv & Rv).
    apply only_samples_agree in Ru, Rv. apply agree_trans with u; [now apply agree_sym|].
    apply agree_trans with v; auto. now apply C.
Qed.
Lemma mute_consistent a taper ss se : consistent a -> consistent (fst (mute a taper ss se)).
Proof.
  intros C. destruct (mute_keeps a taper ss se C) as [S K].
  replace (fst (mute a taper ss se)) with (set_sensors a (sensors (fst (mute a taper ss se)))).
  - now apply consistent_only_samples.
  - unfold set_sensors. rewrite <- S. now destruct (fst (mute a taper ss se)).
Qed.

(** ** Histories *)
Lemma detrend_only_samples s : only_samples_change s (detrend_sensor s).
Proof. repeat split. cbn. apply length_detrend. Qed.
Lemma array_call_consistent a o : consistent a ->
  consistent (fst (array_call a o)) /\ src (fst (array_call a o)) = src a.
Proof.
  intros C. destruct o as [st en|mn mx|df|w ss se|]; cbn [array_call].
  - split; [now apply array_trim_consistent|]. unfold array_trim. destruct (for_each _ _). reflexivity.
  - split; [now apply trim_offsets_consistent|].
    unfold trim_offsets. destruct (trim_offsets_loop _ _ _); reflexivity.
  - split; [now apply array_pad_consistent|]. unfold array_zero_pad. destruct (for_each _ _). reflexivity.
  - split; [now apply mute_consistent|]. now apply mute_keeps.
  - split; [|reflexivity]. cbn [fst]. apply consistent_only_samples; auto.
    clear. induction (sensors a); cbn; constructor; auto. apply detrend_only_samples.
Qed.
Lemma array_run_consistent ops : forall a, consistent a ->
  consistent (array_run a ops) /\ src (array_run a ops) = src a.
Proof.
  induction ops as [|o ops IH]; intros a C; [split; auto|].
  cbn [array_run fold_left]. destruct (array_call_consistent a o C) as [C' S].
  destruct (IH _ C') as [C'' S']. split; auto. rewrite <- S. exact S'.
Qed.

(** Equal multiples: an invariant as long as no zero_pad raises. *)
Definition same_multiple (a : array) : Prop :=
  forall s t, In s (sensors a) -> In t (sensors a) -> multiple (ser s) = multiple (ser t).
Lemma same_multiple_step a : consistent a -> same_multiple a -> same_step a.
Proof.
  intros (_ & _ & G) M s t Hs Ht. unfold user_df, internal_df, nsamples.
  destruct (G s t Hs Ht) as (-> & _ & _ & ->). now rewrite (M s t Hs Ht).
Qed.
Lemma same_multiple_forall2 a l' : same_multiple a ->
  Forall2 (fun s s' => multiple (ser s') = multiple (ser s)) (sensors a) l' ->
  same_multiple (set_sensors a l').
Proof.
  intros M F s t Hs Ht. cbn in Hs, Ht.
  destruct (Forall2_In_r _ _ _ _ F Hs) as (u & Hu & ->).
  destruct (Forall2_In_r _ _ _ _ F Ht) as (v & Hv & ->). auto.
Qed.
Lemma array_call_same_multiple a o : consistent a -> same_multiple a ->
  (match o with ArrPad _ => snd (array_call a o) = Ok tt | _ => True end) ->
  same_multiple (fst (array_call a o)).
Proof.
  intros C M P. destruct o as [st en|mn mx|df|w ss se|]; cbn [array_call] in *.
  - destruct (array_trim_cases a st en C) as (s0 & l & E & H). rewrite H.
    destruct (snd (sensor_trim st en s0)); cbn [fst]; auto.
    apply same_multiple_forall2; auto. clear. induction (sensors a) as [|s l IH]; cbn; constructor; auto.
    unfold sensor_trim. destruct (trim (ser s) st en) eqn:T. cbn.
    change s0 with (fst (s0, r)). rewrite <- T. apply trim_keeps.
  - destruct (trim_offsets_sub a mn mx) as (k & _ & E). rewrite E.
    destruct (select k (sensors a)) eqn:Z; cbn [fst]; auto. rewrite <- Z.
    intros s1 t1 Hs Ht. cbn in Hs, Ht. apply M; eapply In_select_l; eauto.
  - destruct (array_pad_cases a df C) as (s0 & l & E & H). rewrite H in *.
    destruct (snd (sensor_zero_pad df s0)); cbn [fst snd] in *; [|discriminate].
    intros s t Hs Ht. cbn in Hs, Ht. apply in_map_iff in Hs as (u & <- & Hu), Ht as (v & <- & Hv).
    apply sensor_pad_agree. now apply C.
  - destruct (mute_keeps a w ss se C) as [S K].
    replace (fst (mute a w ss se)) with (set_sensors a (sensors (fst (mute a w ss se))))
      by (unfold set_sensors; rewrite <- S; now destruct (fst (mute a w ss se))).
    apply same_multiple_forall2; auto. eapply Forall2_impl; [|exact K]. intros s s' H. apply H.
  - cbn [fst]. apply same_multiple_forall2; auto.
    clear. induction (sensors a); cbn; constructor; auto.
Qed.
Lemma array_run_same_step ops : forall a, consistent a -> same_multiple a -> pads_succeed a ops ->
  same_step (array_run a ops).
Proof.
  induction ops as [|o ops IH]; intros a C M P; [now apply same_multiple_step|].
  destruct P as [P1 P2]. cbn [array_run fold_left]. apply IH; auto.
  - now apply array_call_consistent.
  - now apply array_call_same_multiple.
Qed.

Lemma reachable_consistent a : array_reachable a -> consistent a.
Proof.
  intros (l & s & a0 & ops & _ & H & ->). apply array_run_consistent. now apply (new_array_spec l s).
Qed.
Lemma constructed_same_step l s a0 ops : Forall sensor_ok l -> new_array l s = Ok a0 ->
  pads_succeed a0 ops -> same_step (array_run a0 ops).
Proof.
  intros F H P. destruct (new_array_spec _ _ _ H) as (C & Pm & _).
  apply array_run_same_step; auto. intros u v Hu Hv. rewrite Forall_forall in F.
  transitivity 1%Z; [|symmetry]; apply F; eapply Permutation_in; eauto.
Qed.
