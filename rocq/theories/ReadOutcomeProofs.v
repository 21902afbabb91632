From Coq Require Import Permutation.
From Verif Require Import PyFacts NumFacts SeriesModel SeriesSpec SeriesProofs ArrayModel ArraySpec ArrayProofs HeaderModel HeaderSpec HeaderProofs HeaderFileProofs ReadOutcomeSpec.

(** * Adding records *)
Lemma add_fits a t : fits (length a) t -> exists r, add_in_place a (t_data t) = Ok r /\ length r = length a /\
  forall k, k < length a -> nth k r 0%Qc = (nth k a 0 + contribution (length a) k t)%Qc.
Proof.
  intros Ft. unfold add_in_place, contribution. destruct (Nat.eqb_spec (length (t_data t)) (length a)) as [E|E].
  - eexists. split; [reflexivity|]. split; [rewrite length_map2; lia|]. intros k Hk. apply nth_map2; lia.
  - destruct Ft as [Q|Q]; [contradiction|]. destruct (t_data t) as [|v [|? ?]]; try discriminate Q.
    eexists. split; [reflexivity|]. split; [apply map_length|]. intros k Hk. rewrite (nth_map_lt _ _ _ _ 0%Qc) by exact Hk. reflexivity.
Qed.
Lemma add_unfit a t : ~ fits (length a) t -> add_in_place a (t_data t) = Err ValueError.
Proof.
  intros N. unfold add_in_place. destruct (Nat.eqb_spec (length (t_data t)) (length a)) as [E|E]; [elim N; left; exact E|].
  destruct (t_data t) as [|v [|? ?]] eqn:Q; try reflexivity. elim N. right. rewrite Q. reflexivity.
Qed.
Section Several.
  Context {F K : Type} (read : option K -> F -> result (list trace)).
  Lemma add_all_fits ch : forall fs trs a, Forall2 (recorded read ch) fs trs -> Forall (fits (length a)) trs ->
    exists r, add_all read ch a fs = Ok r /\ length r = length a /\
      forall k, k < length a -> nth k r 0%Qc = (nth k a 0 + Qcsum (map (contribution (length a) k) trs))%Qc.
  Proof.
    intros fs trs a R. revert a. induction R as [|x t fs trs (st & R1 & R2) R IH]; intros a Fa; cbn [add_all].
    - exists a. split; [reflexivity|]. split; [reflexivity|]. intros k Hk. cbn. ring.
    - inversion Fa as [|? ? F1 F2]; subst. rewrite R1. cbn [bind]. rewrite R2. cbn [bind].
      destruct (add_fits a t F1) as (b & B & L & V). rewrite B. cbn [bind].
      destruct (IH b) as (r & Er & Lr & Vr); [rewrite L; exact F2|]. exists r. split; [exact Er|]. split; [lia|].
      intros k Hk. rewrite Vr by lia. rewrite V by lia. rewrite L. cbn [map Qcsum fold_right].
      fold (Qcsum (map (contribution (length a) k) trs)). ring.
  Qed.
  Lemma add_all_unfit ch : forall fs trs a, Forall2 (recorded read ch) fs trs -> ~ Forall (fits (length a)) trs ->
    add_all read ch a fs = Err ValueError.
  Proof.
    intros fs trs a R. revert a. induction R as [|x t fs trs (st & R1 & R2) R IH]; intros a N; cbn [add_all].
    - elim N. constructor.
    - rewrite R1. cbn [bind]. rewrite R2. cbn [bind].
      assert (D : fits (length a) t \/ ~ fits (length a) t) by (unfold fits; lia). destruct D as [D|D].
      + destruct (add_fits a t D) as (b & B & L & _). rewrite B. cbn [bind]. apply IH. rewrite L. intros Q. apply N. constructor; assumption.
      + rewrite (add_unfit a t D). reflexivity.
  Qed.
  Lemma add_all_missing ch x e post : missing read ch x e -> forall pre trs a, Forall2 (recorded read ch) pre trs -> Forall (fits (length a)) trs ->
    add_all read ch a (pre ++ x :: post) = Err e.
  Proof.
    intros M pre trs a R. revert a. induction R as [|y t pre trs (st & R1 & R2) R IH]; intros a Fa; cbn [app add_all].
    - destruct M as [M|(st & M1 & M2)]; [rewrite M; reflexivity|]. rewrite M1. cbn [bind]. rewrite M2. reflexivity.
    - inversion Fa as [|? ? F1 F2]; subst. rewrite R1. cbn [bind]. rewrite R2. cbn [bind].
      destruct (add_fits a t F1) as (b & B & L & _). rewrite B. cbn [bind]. apply IH. rewrite L. exact F2.
  Qed.
  Lemma signal_outcome ch f0 rest t0 trs : recorded read ch f0 t0 -> Forall2 (recorded read ch) rest trs ->
    (Forall (fits (length (t_data t0))) trs ->
     exists r, source_signal read ch (f0 :: rest) = Ok (r, t_delta t0) /\ length r = length (t_data t0) /\
       forall k, k < length r ->
         nth k r 0%Qc = ((nth k (t_data t0) 0 + Qcsum (map (contribution (length (t_data t0)) k) trs)) / QcN (length (f0 :: rest)))%Qc) /\
    (~ Forall (fits (length (t_data t0))) trs -> source_signal read ch (f0 :: rest) = Err ValueError).
  Proof.
    intros (st & R1 & R2) R. unfold source_signal. rewrite R1. cbn [bind]. rewrite R2. cbn [bind]. split.
    - intros Fa. destruct (add_all_fits ch rest trs _ R Fa) as (r & E & L & V). rewrite E. cbn [bind]. eexists. split; [reflexivity|].
      rewrite map_length. split; [exact L|]. intros k Hk. rewrite (nth_map_lt _ _ _ _ 0%Qc) by exact Hk. rewrite V by lia. reflexivity.
    - intros N. rewrite (add_all_unfit ch rest trs _ R N). reflexivity.
  Qed.
  Lemma signal_first ch x e rest : missing read ch x e -> source_signal read ch (x :: rest) = Err e.
  Proof. intros [M|(st & M1 & M2)]; unfold source_signal; [rewrite M; reflexivity|]. rewrite M1. cbn [bind]. rewrite M2. reflexivity. Qed.
  Lemma signal_missing ch f0 t0 pre trs x e post : recorded read ch f0 t0 -> Forall2 (recorded read ch) pre trs ->
    Forall (fits (length (t_data t0))) trs -> missing read ch x e -> source_signal read ch (f0 :: pre ++ x :: post) = Err e.
  Proof.
    intros (st & R1 & R2) R Fa M. unfold source_signal. rewrite R1. cbn [bind]. rewrite R2. cbn [bind].
    rewrite (add_all_missing ch x e post M pre trs _ R Fa). reflexivity.
  Qed.

  (** * Further files and the maps *)
  Lemma stack_traces_places : forall l ts l', stack_traces l ts = Ok l' ->
    map place l' = map place l /\
    forall k s t, nth_error l k = Some s -> nth_error ts k = Some t ->
      exists n, from_trace t (fun x => x) (fun y => y) = Ok n /\ place n = place s.
  Proof.
    induction l as [|s l IH]; intros [|t ts] l' H; cbn [stack_traces] in H; try (injection H as <-; split; [reflexivity|intros [|k] ? ? A B; discriminate]).
    apply bind_ok in H as (n & E & H). destruct (sensor_stack_append s (ObjSensor n)) as [s' [u|e]] eqn:Q; [|discriminate].
    apply bind_ok in H as (r & E2 & H). injection H as <-. destruct (IH ts r E2) as [I1 I2].
    unfold sensor_stack_append in Q. destruct (sensor_is_similar [A_nstacks] s (ObjSensor n)) eqn:Sm; [|discriminate]. injection Q as <- _.
    cbn [sensor_is_similar] in Sm. unfold sensor_similar in Sm. cbn [excluded] in Sm.
    split; [cbn [map]; rewrite I1; reflexivity|]. intros [|k] a b A B.
    - cbn [nth_error] in A, B. injection A as <-. injection B as <-. exists n. split; [exact E|].
      apply andb_prop in Sm as [Sm _]. apply andb_prop in Sm as [Sm S3]. apply andb_prop in Sm as [S1 S2].
      cbn in S1, S2, S3. apply Qceqb_eq in S1. apply Qceqb_eq in S2. apply Qceqb_eq in S3. unfold place. now rewrite S1, S2, S3.
    - exact (I2 k a b A B).
  Qed.
  Lemma stack_file_places f mx my a st a' : stack_file f mx my a st = Ok a' ->
    map place (sensors a') = map place (sensors a) /\ 
    (exists t0 r, st = t0 :: r /\ exists ns, parse_source f mx my t0 = Ok ns /\ source_eq ns (src a) = true /\ src a' = src a) /\
    forall k s t, nth_error (sensors a) k = Some s -> nth_error st k = Some t ->
      exists n, from_trace t (fun x => x) (fun y => y) = Ok n /\ place n = place s.
  Proof.
    destruct st as [|t0 st]; [discriminate|]. cbn [stack_file]. intros H. apply bind_ok in H as (ns & E & H).
    destruct (source_eq ns (src a)) eqn:Q; cbn [negb] in H; [|discriminate].
    apply bind_ok in H as (l & E2 & H). injection H as <-. destruct (stack_traces_places _ _ _ E2) as [A B].
    split; [exact A|]. split; [|exact B]. exists t0, st. split; [reflexivity|]. exists ns. auto.
  Qed.
  Lemma same_place l l' k s : map place l' = map place l -> nth_error l k = Some s -> exists s', nth_error l' k = Some s' /\ place s' = place s.
  Proof.
    revert l' k. induction l as [|x l IH]; intros [|x' l'] [|k] E H; try discriminate; cbn [map nth_error] in *; injection E as E1 E2; intros.
    - injection H as <-. exists x'. unfold place. rewrite E1, E2, H0. auto.
    - apply (IH l' k); assumption.
  Qed.
  Lemma stack_files_places f mx my : forall fs a a', stack_files read f mx my a fs = Ok a' ->
    map place (sensors a') = map place (sensors a) /\
    forall x, In x fs -> exists st, read None x = Ok st /\
      forall k s t, nth_error (sensors a) k = Some s -> nth_error st k = Some t ->
        exists n, from_trace t (fun x => x) (fun y => y) = Ok n /\ place n = place s.
  Proof.
    induction fs as [|x fs IH]; intros a a' H; cbn [stack_files] in H.
    - injection H as <-. split; [reflexivity|]. intros x [].
    - apply bind_ok in H as (st & R & H). apply bind_ok in H as (a1 & E & H).
      destruct (stack_file_places f mx my a st a1 E) as (P1 & _ & P2). destruct (IH a1 a' H) as [Q1 Q2].
      split; [now rewrite Q1|]. intros y [<-|I]; [exists st; split; assumption|].
      destruct (Q2 y I) as (st' & R' & Q). exists st'. split; [exact R'|]. intros k s t A B.
      destruct (same_place _ _ k s P1 A) as (s1 & A1 & PP). destruct (Q k s1 t A1 B) as (n & N1 & N2). exists n. split; [exact N1|congruence].
  Qed.
  Lemma several_files mx my kw f0 rest a : from_files read mx my kw (f0 :: rest) = Ok a ->
    exists a0, from_files read mx my kw [f0] = Ok a0 /\ map place (sensors a) = map place (sensors a0) /\
      forall x, In x rest -> exists st, read None x = Ok st /\
        forall k s t, nth_error (sensors a) k = Some s -> nth_error st k = Some t ->
          exists n, from_trace t (fun x => x) (fun y => y) = Ok n /\ place n = place s.
  Proof.
    unfold from_files. intros H. apply bind_ok in H as (st & R & H). rewrite R. cbn [bind].
    apply bind_ok in H as (ss & E & H). rewrite E. cbn [bind]. destruct (rev st) as [|tl r]; [discriminate|].
    destruct (fmt_of _) as [f|]; [|discriminate]. apply bind_ok in H as (s & E1 & H). rewrite E1. cbn [bind].
    apply bind_ok in H as (a0 & E2 & H). rewrite E2. cbn [bind stack_files]. exists a0. split; [reflexivity|].
    destruct (stack_files_places f mx my rest a0 a H) as [P Q]. split; [exact P|]. intros x I. destruct (Q x I) as (st' & R' & W).
    exists st'. split; [exact R'|]. intros k u t A B. destruct (same_place _ _ k u (eq_sym P) A) as (u0 & A0 & PP).
    destruct (W k u0 t A0 B) as (n & N1 & N2). exists n. split; [exact N1|congruence].
  Qed.
End Several.

(** * The order in which the traces are handed over *)
Lemma flipped_order a m offs : flipped a = (m, offs) ->
  let order := if Qclt_le_dec (last_x a) (src_x (src a)) then rev (sensors a) else sensors a in
  m = map (fun s => amp (ser s)) order /\ offs = map (dist a) order.
Proof.
  unfold flipped, flip_required, offsets. rewrite (map_ext _ _ (offset_dist a)).
  destruct (Qcltb_spec (last_x a) (src_x (src a))) as [L|L], (Qclt_le_dec (last_x a) (src_x (src a))) as [L'|L']; intros E; injection E as <- <-;
    try contradiction; rewrite ?map_rev; auto.
  exfalso. revert L'. apply Qclt_not_le. exact L.
Qed.
Lemma flipped_at_last a m offs : consistent a -> src_x (src a) = last_x a -> flipped a = (m, offs) -> increasing (rev offs).
Proof.
  intros C E H. destruct (flipped_order a m offs H) as [_ ->]. destruct (Qclt_le_dec _ _) as [L|L].
  - rewrite E in L. exfalso. exact (Qclt_not_eq _ _ L eq_refl).
  - apply offsets_right; [exact C|]. rewrite E. apply Qcle_refl.
Qed.
