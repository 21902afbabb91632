From Verif Require Import NumFacts PyFacts SeriesModel SeriesSpec SeriesProofs ArrayModel ArraySpec ArrayProofs ArrayMatrixProofs.
From Verif Require Import HeaderModel HeaderSpec HeaderProofs HeaderFileProofs HeaderErrorSpec HeaderErrorProofs StackFilesSpec.

Lemma stack_traces_any : forall l ts l', stack_traces l ts = Ok l' ->
  exists ns, Forall2 decodes (firstn (length l) ts) ns /\ length l' = length l /\
    forall i d, i < length l ->
      (i < length ns -> sensor_stack_append (nth i l d) (ObjSensor (nth i ns d)) = (nth i l' d, Ok tt)) /\
      (length ns <= i -> nth i l' d = nth i l d).
Proof.
  induction l as [|s l IH]; intros [|t ts] l' H.
  - injection H as <-. exists []. split; [constructor|]. split; auto. cbn; lia.
  - injection H as <-. exists []. split; [constructor|]. split; auto. cbn; lia.
  - injection H as <-. exists []. split; [constructor|]. split; auto. split; [cbn; lia|auto].
  - cbn [stack_traces] in H. apply bind_ok in H as (n & D & H).
    destruct (sensor_stack_append s (ObjSensor n)) as [s1 [[]|e]] eqn:E; [|discriminate].
    apply bind_ok in H as (r & R & H). injection H as <-.
    destruct (IH ts r R) as (ns & A & B & C). exists (n :: ns). cbn [length firstn]. split; [constructor; auto|].
    split; [lia|]. intros [|i] d Hi; cbn [nth]; [split; [auto|lia]|]. destruct (C i d ltac:(lia)) as [C1 C2]. split; intros; [apply C1|apply C2]; lia.
Qed.
Lemma stack_traces_length l ts l' : stack_traces l ts = Ok l' -> length l' = length l.
Proof. intros H. destruct (stack_traces_any l ts l' H) as (_ & _ & L & _). exact L. Qed.
(** When and how the traces of one file are added. *)
Lemma append_fits s t n : decodes t n ->
  (fits s t -> exists s', sensor_stack_append s (ObjSensor n) = (s', Ok tt)) /\
  (~ fits s t -> exists s', sensor_stack_append s (ObjSensor n) = (s', Err ValueError)).
Proof.
  intros D. unfold sensor_stack_append. pose proof (sensor_is_similar_stack s (ObjSensor n)) as S.
  destruct (sensor_is_similar _ _ _); split; intros F; eauto.
  - elim F. exists n. destruct (proj1 S eq_refl) as (X & Y & Z & C). unfold same_place. auto.
  - destruct F as (n' & D' & (X & Y & Z) & C). unfold decodes in D, D'. rewrite D in D'. injection D' as <-.
    assert (Q : false = true) by (apply S; repeat split; auto; apply C). discriminate.
Qed.
Lemma stack_traces_iff : forall l ts,
  (exists l', stack_traces l ts = Ok l') <-> (forall i d t, i < length l -> i < length ts -> fits (nth i l d) (nth i ts t)).
Proof.
  induction l as [|s l IH]; intros ts.
  - split; [intros _ i d t Hi; cbn in Hi; lia|intros _; eexists; reflexivity].
  - destruct ts as [|t ts]; [split; [intros _ i d t Hi Hj; cbn in Hj; lia|intros _; eexists; reflexivity]|]. split.
    + intros (l' & H). cbn [stack_traces] in H. apply bind_ok in H as (n & D & H).
      destruct (sensor_stack_append s (ObjSensor n)) as [s1 [[]|e]] eqn:E; [|discriminate]. apply bind_ok in H as (r & R & H).
      intros [|i] d u Hi Hj; cbn [nth].
      * apply sensor_stack_ok in E as (SP & C & _). exists n. auto.
      * apply (proj1 (IH ts)); [eauto|cbn in Hi; lia|cbn in Hj; lia].
    + intros H. destruct (H 0 s t ltac:(cbn; lia) ltac:(cbn; lia)) as (n & D & SP & C). cbn [nth] in *.
      destruct (append_fits s t n D) as [A _]. destruct A as (s' & A); [exists n; auto|].
      destruct (proj2 (IH ts)) as (l' & B); [intros i d u Hi Hj; apply (H (S i) d u); cbn; lia|].
      cbn [stack_traces]. unfold decodes in D. rewrite D. cbn [bind]. rewrite A, B. cbn. eauto.
Qed.
Lemma stack_traces_fails : forall i l ts d t, i < length l -> i < length ts ->
  (forall j, j < i -> fits (nth j l d) (nth j ts t)) ->
  (forall e, from_trace (nth i ts t) (fun x => x) (fun y => y) = Err e -> stack_traces l ts = Err e) /\
  (forall n, decodes (nth i ts t) n -> ~ fits (nth i l d) (nth i ts t) -> stack_traces l ts = Err ValueError).
Proof.
  induction i as [|i IH]; intros [|s l] [|u ts] d t Hi Hj F; cbn [length] in *; try lia; cbn [nth stack_traces].
  - split; [intros e E; now rewrite E|]. intros n D NF. destruct (append_fits s u n D) as [_ B]. destruct (B NF) as (s' & Q).
    unfold decodes in D. rewrite D. cbn [bind]. now rewrite Q.
  - destruct (F 0 ltac:(lia)) as (n & D & SP & C). cbn [nth] in *. destruct (append_fits s u n D) as [A _]. destruct A as (s' & A); [exists n; auto|].
    unfold decodes in D. rewrite D. cbn [bind]. rewrite A.
    destruct (IH l ts d t ltac:(lia) ltac:(lia)) as [P Q]; [intros j Hjj; exact (F (S j) ltac:(lia))|].
    split; [intros e E; now rewrite (P e E)|]. intros m Dm NF. now rewrite (Q m Dm NF).
Qed.

Section Any.
  Context {F K : Type} (read : option K -> F -> result (list trace)).

  Lemma stack_files_any f mx my : forall fs a a', stack_files read f mx my a fs = Ok a' ->
    exists S, Forall2 (fun x ns => exists st, read None x = Ok st /\ Forall2 decodes (firstn (length (sensors a)) st) ns) fs S /\
      src a' = src a /\ length (sensors a') = length (sensors a) /\
      forall i d, i < length (sensors a) ->
        stack_sensors (nth i (sensors a) d) (records_at i d S) = (nth i (sensors a') d, Ok tt).
  Proof.
    induction fs as [|x fs IH]; intros a a' H; cbn [stack_files] in H.
    - injection H as <-. exists []. repeat split; auto.
    - apply bind_ok in H as (st & R & H). apply bind_ok in H as (a1 & E & H).
      unfold stack_file in E. destruct st as [|t0 st0]; [discriminate|].
      apply bind_ok in E as (sc & PS & E). destruct (source_eq sc (src a)); [|discriminate]. cbn [negb] in E.
      apply bind_ok in E as (l & ST & E). injection E as <-.
      destruct (stack_traces_any _ _ _ ST) as (ns & A & B & C).
      destruct (IH _ _ H) as (S & P & Q & W & V). cbn [sensors src] in *. rewrite B in P.
      exists (ns :: S). split; [constructor; eauto|]. split; auto. split; [lia|].
      intros i d Hi. destruct (C i d Hi) as [C1 C2]. unfold records_at in *. cbn [filter]. destruct (Nat.ltb_spec i (length ns)) as [L|L].
      + cbn [map stack_sensors]. rewrite C1 by auto. apply V. lia.
      + rewrite <- (C2 L). apply V. lia.
  Qed.
  Lemma any_mean mx my kw f0 rest a :
    from_files read mx my kw (f0 :: rest) = Ok a ->
    exists a0 S, from_files read mx my kw [f0] = Ok a0 /\ src a = src a0 /\ length (sensors a) = length (sensors a0) /\
      Forall2 (fun x ns => exists st, read None x = Ok st /\ Forall2 decodes (firstn (length (sensors a0)) st) ns) rest S /\
      forall i d, i < length (sensors a0) ->
        let r0 := nth i (sensors a0) d in let rs := records_at i d S in let r := nth i (sensors a) d in
        Forall (fun n => same_place n r0) rs /\ same_place r r0 /\
        nstacks (ser r) = total_stacks (map ser (r0 :: rs)) /\
        dt (ser r) = dt (ser r0) /\ delay (ser r) = delay (ser r0) /\ length (amp (ser r)) = length (amp (ser r0)) /\
        forall k, k < length (amp (ser r)) ->
          nth k (amp (ser r)) 0%Qc = weighted_mean (map (fun s => (nstacks (ser s), nth k (amp (ser s)) 0%Qc)) (r0 :: rs)).
  Proof.
    intros H. destruct (from_files_split _ _ _ _ _ _ _ H) as (a0 & f & H0 & ST).
    destruct (stack_files_any f mx my rest a0 a ST) as (S & A & B & C & D).
    exists a0, S. split; auto. split; auto. split; auto. split; auto.
    intros i d Hi r0 rs r. specialize (D i d Hi). fold r0 rs r in D.
    destruct (from_files_base _ _ _ _ _ _ H0) as (C0 & P0). rewrite Forall_forall in P0.
    assert (PR : (0 < nstacks (ser r0))%Z) by (specialize (P0 r0 (nth_In _ _ Hi)); lia).
    assert (PS : Forall (fun n => (0 < nstacks (ser n))%Z) rs).
    { apply Forall_forall. intros n Hn. unfold rs, records_at in Hn. apply in_map_iff in Hn as (ns & <- & Hns).
      apply filter_In in Hns as [Hns LN]. apply Nat.ltb_lt in LN.
      destruct (Forall2_In_r _ _ _ _ A Hns) as (x & _ & st & _ & Q).
      destruct (Forall2_nth_r _ _ _ i d Q LN) as (t & _ & DT). unfold decodes in DT.
      pose proof (from_trace_valid t (fun x => x) (fun y => y)) as V. rewrite DT in V. lia. }
    destruct (stack_sensors_spec rs r0 r PR PS D) as (SP & FA & SA).
    split; [eapply Forall_impl; [|exact FA]; intros n X; apply X|]. split; [exact SP|].
    destruct (stack_all_weighted_mean (ser r0) (map ser rs) PR) as (s' & E1 & E2 & E3 & E4 & _ & E5 & E6).
    { apply Forall_forall. intros s Hs. apply in_map_iff in Hs as (n & <- & Hn).
      rewrite Forall_forall in FA, PS. split; [apply PS|apply FA]; auto. }
    rewrite E1 in SA. injection SA as ->. cbn [map]. repeat split; auto.
    intros k Hk. rewrite E6 by lia. cbn [map]. now rewrite map_map.
  Qed.
  (** The array is consistent exactly if all receivers were stacked equally often. *)
  Lemma any_consistent mx my kw f0 rest a : from_files read mx my kw (f0 :: rest) = Ok a ->
    (consistent a <-> forall s t, In s (sensors a) -> In t (sensors a) -> nstacks (ser s) = nstacks (ser t)).
  Proof.
    intros H. split.
    - intros (_ & _ & G) s t Hs Ht. apply (G s t Hs Ht).
    - intros U. destruct (any_mean _ _ _ _ _ _ H) as (a0 & S & H0 & SR & LEN & A & D).
      destruct (from_files_base _ _ _ _ _ _ H0) as ((Ne & I & G) & _).
      destruct (sensors a0) as [|s0 l0] eqn:E0; [congruence|]. rewrite <- E0 in *. set (d := s0).
      assert (POS : map sx (sensors a) = map sx (sensors a0)).
      { apply (nth_ext_len 0%Qc); rewrite ?map_length; auto. intros i Hi.
        rewrite !(nth_map_lt sx _ _ _ d) by lia. destruct (D i d ltac:(lia)) as (_ & (X & _) & _). exact X. }
      split; [|split].
      + intros E. rewrite E in LEN. rewrite E0 in LEN. discriminate.
      + now rewrite POS.
      + intros s t Hs Ht. pose proof (U s t Hs Ht) as Un. apply In_nth with (d := d) in Hs as (i & Hi & <-). apply In_nth with (d := d) in Ht as (j & Hj & <-).
        destruct (D i d ltac:(lia)) as (_ & _ & N1 & T1 & D1 & L1 & _). destruct (D j d ltac:(lia)) as (_ & _ & N2 & T2 & D2 & L2 & _).
        destruct (G (nth i (sensors a0) d) (nth j (sensors a0) d)) as (G1 & G2 & G3 & G4); [apply nth_In; lia|apply nth_In; lia|].
        unfold agree. rewrite T1, T2, D1, D2, L1, L2. auto.
  Qed.
  (** The next file: accepted exactly if every trace used fits; otherwise the first that does not decides. *)
  Lemma next_traces mx my kw f0 fs f1 a pre u t ts f s :
    from_files read mx my kw (f0 :: fs) = Ok a -> read kw f0 = Ok (pre ++ [u]) -> read None f1 = Ok (t :: ts) ->
    same_format (t_header u) (t_header t) -> fmt_of (t_header t) = Some f -> parse_source f mx my t = Ok s -> s = src a ->
    ((exists b, from_files read mx my kw (f0 :: fs ++ [f1]) = Ok b) <->
     forall i d v, i < length (sensors a) -> i < length (t :: ts) -> fits (nth i (sensors a) d) (nth i (t :: ts) v)) /\
    forall i more d v, i < length (sensors a) -> i < length (t :: ts) -> (forall j, j < i -> fits (nth j (sensors a) d) (nth j (t :: ts) v)) ->
      (forall e, from_trace (nth i (t :: ts) v) (fun x => x) (fun y => y) = Err e ->
         from_files read mx my kw (f0 :: fs ++ f1 :: more) = Err e) /\
      (forall n, decodes (nth i (t :: ts) v) n -> ~ fits (nth i (sensors a) d) (nth i (t :: ts) v) ->
         from_files read mx my kw (f0 :: fs ++ f1 :: more) = Err ValueError).
  Proof.
    intros H R Q SF Fm P ->. destruct (from_files_snoc _ _ _ _ _ _ _ H) as (st & t' & g & R' & L & Fm' & E).
    rewrite R in R'. injection R' as <-. rewrite rev_app_distr in L. cbn in L. injection L as ->.
    assert (g = f) as -> by (apply (same_format_spec _ _ g) in SF; auto; congruence).
    assert (SE : source_eq (src a) (src a) = true) by now apply source_eq_spec.
    split.
    - rewrite E. cbn [stack_files]. rewrite Q. cbn [bind stack_file]. rewrite P. cbn [bind]. rewrite SE. cbn [negb].
      rewrite <- stack_traces_iff. split.
      + intros (b & Hb). destruct (stack_traces (sensors a) (t :: ts)); [eauto|discriminate].
      + intros (l' & ->). cbn. eauto.
    - intros i more d v Hi Hj Hf. rewrite E. cbn [stack_files]. rewrite Q. cbn [bind stack_file]. rewrite P. cbn [bind]. rewrite SE. cbn [negb].
      destruct (stack_traces_fails i (sensors a) (t :: ts) d v Hi Hj Hf) as [A B].
      split; [intros e X; now rewrite (A e X)|]. intros n X Y. now rewrite (B n X Y).
  Qed.
End Any.
