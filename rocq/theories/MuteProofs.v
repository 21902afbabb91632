(* When muting succeeds and when it is refused. *)
From Verif Require Import PyFacts NumFacts SeriesModel SeriesSpec SeriesProofs.
From Verif Require Import ArrayModel ArraySpec ArrayProofs ArrayMuteProofs.

(** ** Specification *)

(** [i] is [x] without its fractional part. *)
Definition whole_part (x : Qc) (i : Z) : Prop :=
  ((0 <= x)%Qc -> (QcZ i <= x)%Qc /\ (x < QcZ i + 1)%Qc) /\
  ((x < 0)%Qc -> (QcZ i - 1 < x)%Qc /\ (x <= QcZ i)%Qc).
(** The sample number computed for the time [t]: the magnitude of the delay is
    added to the time. *)
Definition sample_number (s : sensor) (t : Qc) (i : Z) : Prop :=
  whole_part ((t + Qcabs (delay (ser s))) / dt (ser s))%Qc i.
(** The two sample numbers of a sensor. *)
Definition first_number (ss : option line) (s : sensor) (i : Z) : Prop :=
  match ss with
  | Some l => exists t, on_line l (sx s) t /\ sample_number s t i
  | None => i = 0%Z
  end.
Definition end_number (se : option line) (s : sensor) (j : Z) : Prop :=
  match se with
  | Some l => exists t, on_line l (sx s) t /\ sample_number s t j
  | None => j = (Z.of_nat (length (amp (ser s))) - 1)%Z
  end.
(** The window from [i] to [j] can be placed in a record of [n] samples: it is
    not reversed, and it is at most one sample long, or inside the record, or
    inside the record when counted backwards from the end. *)
Definition placeable (n i j : Z) : Prop :=
  (i <= j)%Z /\ ((j <= i + 1)%Z \/ (0 <= i /\ j <= n)%Z \/ (- n <= i /\ j < 0)%Z).

(** ** Proofs *)

Lemma whole_part_unique x i j : whole_part x i -> whole_part x j -> i = j.
Proof.
  intros [A1 A2] [B1 B2].
  assert (G : forall a b : Z, (QcZ a < QcZ b + 1)%Qc -> (a <= b)%Z).
  { intros a b H. change 1%Qc with (QcZ 1) in H. rewrite <- QcZ_add, QcZ_lt in H. lia. }
  destruct (Qclt_le_dec x 0) as [L|L].
  - destruct (A2 L), (B2 L). apply Z.le_antisymm; apply G; qclra.
  - destruct (A1 L), (B1 L). apply Z.le_antisymm; apply G; qclra.
Qed.
Lemma whole_trunc x : whole_part x (trunc x).
Proof.
  unfold trunc. destruct (Qcltb_spec x 0) as [L|L].
  - assert (F := Qcfloor_spec (- x)). destruct F as [F1 F2]. split.
    + intros H. elim (Qclt_not_le _ _ L H).
    + intros _. rewrite QcZ_opp. split; qclra.
  - assert (F := Qcfloor_spec x). destruct F as [F1 F2]. split; [auto|].
    intros H. contradiction.
Qed.

Lemma number_formula s t : (0 < dt (ser s))%Qc ->
  ((t + Qcabs (delay (ser s))) / dt (ser s) = t / dt (ser s) + Qcabs (delay (ser s) / dt (ser s)))%Qc.
Proof.
  intros D. assert (N : dt (ser s) <> 0%Qc) by (now apply Qcpos_neq0).
  replace (delay (ser s) / dt (ser s))%Qc with (delay (ser s) * (1 / dt (ser s)))%Qc by (field; exact N).
  rewrite Qcabs_mult, (Qcabs_pos (1 / dt (ser s))).
  - field; exact N.
  - apply Qcdiv_nonneg; auto. vm_compute. discriminate.
Qed.

Lemma line_number l s i : slanted l -> (0 < dt (ser s))%Qc ->
  (exists t, on_line l (sx s) t /\ sample_number s t i) <->
  i = trunc (line_time l (sx s) / dt (ser s) + Qcabs (delay (ser s) / dt (ser s)))%Qc.
Proof.
  intros S D. split.
  - intros (t & O & N). apply (line_time_on _ _ _ S) in O. subst t. unfold sample_number in N.
    rewrite (number_formula s _ D) in N. eapply whole_part_unique; [exact N|apply whole_trunc].
  - intros ->. exists (line_time l (sx s)). split; [now apply line_time_on|].
    unfold sample_number. rewrite (number_formula s _ D). apply whole_trunc.
Qed.

Lemma first_number_is ss s i : match ss with Some l => slanted l | None => True end -> (0 < dt (ser s))%Qc ->
  first_number ss s i <-> i = start_index ss (dt (ser s)) (Qcabs (delay (ser s) / dt (ser s))) (sx s).
Proof. intros S D. destruct ss; cbn; [now apply line_number|reflexivity]. Qed.
Lemma end_number_is se s j : match se with Some l => slanted l | None => True end -> (0 < dt (ser s))%Qc ->
  end_number se s j <->
  j = stop_index se (dt (ser s)) (Qcabs (delay (ser s) / dt (ser s))) (length (amp (ser s))) (sx s).
Proof. intros S D. destruct se; cbn; [now apply line_number|reflexivity]. Qed.

(** One trace. *)
Lemma mute_sensor_outcome taper n i j s : (forall M, length (taper M) = M) -> length (amp (ser s)) = n ->
  (placeable (Z.of_nat n) i j -> snd (mute_sensor taper n i j s) = Ok tt) /\
  (~ placeable (Z.of_nat n) i j -> snd (mute_sensor taper n i j s) = Err ValueError).
Proof.
  intros T Ln. rewrite mute_sensor_fits by exact Ln. unfold tukey. destruct (Z.ltb_spec (j - i) 0) as [L|L].
  { cbn [bind snd]. split; [|reflexivity]. intros [P _]. lia. }
  cbn [bind]. unfold set_slice. rewrite repeat_length.
  assert (LT := T (Z.to_nat (j - i))). set (w := taper _) in *. rewrite LT.
  set (a := clip_index n i). set (b := clip_index n j).
  assert (F : (Z.to_nat (j - i) = b - a)%nat <->
    (j = i \/ (j = i + 1 /\ (0 <= i /\ j <= Z.of_nat n \/ - Z.of_nat n <= i /\ j < 0)) \/
     (0 <= i /\ j <= Z.of_nat n) \/ (- Z.of_nat n <= i /\ j < 0))%Z).
  { unfold a, b, clip_index, norm_index.
    destruct (Z.ltb_spec i 0), (Z.ltb_spec j 0); 
      repeat match goal with |- context [(?x <? 0)%Z] => destruct (Z.ltb_spec x 0) end; lia. }
  destruct (Nat.eqb_spec (Z.to_nat (j - i)) (b - a)) as [E|E].
  { cbn [snd]. split; [reflexivity|]. intros NP. exfalso. apply NP. apply F in E. unfold placeable. lia. }
  destruct w as [|v [|v' w']]; cbn [length] in LT.
  - exfalso. apply E, F. lia.
  - cbn [snd]. split; [reflexivity|]. intros NP. exfalso. apply NP. unfold placeable. lia.
  - cbn [snd]. split; [|reflexivity]. intros P. exfalso. apply E, F. unfold placeable in P. lia.
Qed.

Lemma mute_loop_outcome taper n (f : sensor -> Z * Z) : (forall M, length (taper M) = M) -> forall l,
  (forall s, In s l -> length (amp (ser s)) = n) ->
  ((forall s, In s l -> placeable (Z.of_nat n) (fst (f s)) (snd (f s))) ->
     snd (mute_loop taper n (map f l) l) = Ok tt) /\
  ((exists s, In s l /\ ~ placeable (Z.of_nat n) (fst (f s)) (snd (f s))) ->
     snd (mute_loop taper n (map f l) l) = Err ValueError).
Proof.
  intros T l Ln. induction l as [|s l IH]; cbn [map mute_loop].
  { split; [reflexivity|]. intros (s & [] & _). }
  destruct IH as [IH1 IH2]; [intros x Hx; apply Ln; now right|].
  destruct (mute_sensor_outcome taper n (fst (f s)) (snd (f s)) s T (Ln s (or_introl eq_refl))) as [M1 M2].
  destruct (f s) as [i j] eqn:Ef. cbn [fst snd] in *.
  assert (DP : placeable (Z.of_nat n) i j \/ ~ placeable (Z.of_nat n) i j) by (unfold placeable; lia).
  destruct (mute_sensor taper n i j s) as [s' r]. cbn [fst snd] in *.
  destruct (mute_loop taper n (map f l) l) as [t' r']. cbn [fst snd] in *.
  destruct DP as [P|P].
  - rewrite (M1 P). cbn [snd]. split.
    + intros A. apply IH1. intros x Hx. apply A. now right.
    + intros (x & [<-|Hx] & NP); [rewrite Ef in NP; contradiction|]. apply IH2. eauto.
  - rewrite (M2 P). cbn [snd]. split; [|reflexivity].
    intros A. exfalso. apply P. specialize (A s (or_introl eq_refl)). now rewrite Ef in A.
Qed.

Lemma mute_outcome a taper ss se :
  consistent a -> (forall M, length (taper M) = M) -> lines_slanted ss se ->
  (forall s, In s (sensors a) -> (0 < dt (ser s))%Qc) ->
  ((forall s i j, In s (sensors a) -> first_number ss s i -> end_number se s j ->
      placeable (Z.of_nat (length (amp (ser s)))) i j) -> snd (mute a taper ss se) = Ok tt) /\
  ((exists s i j, In s (sensors a) /\ first_number ss s i /\ end_number se s j /\
      ~ placeable (Z.of_nat (length (amp (ser s)))) i j) -> snd (mute a taper ss se) = Err ValueError).
Proof.
  intros C T SL D. destruct (sensors a) as [|s0 l] eqn:E.
  { destruct C as (N & _). congruence. }
  assert (D0 := D s0 (or_introl eq_refl)).
  rewrite (mute_unfold a taper ss se s0 l E (Qcpos_neq0 _ D0) SL). cbn zeta. rewrite E.
  set (f := fun s => (start_index ss (dt (ser s0)) (Qcabs (delay (ser s0) / dt (ser s0))) (sx s),
                      stop_index se (dt (ser s0)) (Qcabs (delay (ser s0) / dt (ser s0))) (length (amp (ser s0))) (sx s))).
  assert (G : forall s, In s (s0 :: l) -> length (amp (ser s)) = length (amp (ser s0)) /\
     forall i j, first_number ss s i /\ end_number se s j <-> (i, j) = f s).
  { intros s Hs. assert (A : agree s s0).
    { destruct C as (_ & _ & C). rewrite E in C. apply C; [exact Hs|now left]. }
    destruct A as (A1 & _ & A2 & A3). split; [exact A3|]. intros i j. unfold f.
    destruct SL as [SL1 SL2]. rewrite (first_number_is ss s i SL1 (D s Hs)), (end_number_is se s j SL2 (D s Hs)).
    rewrite A1, A2, A3. split; [intros [-> ->]; reflexivity|]. intros X. injection X as -> ->. auto. }
  destruct (mute_loop_outcome taper (length (amp (ser s0))) f T (s0 :: l) (fun s Hs => proj1 (G s Hs))) as [M1 M2].
  destruct (mute_loop taper _ (map f (s0 :: l)) (s0 :: l)) as [l' r]. cbn [snd] in *. split.
  - intros H. apply M1. intros s Hs. destruct (G s Hs) as [Gn Gi].
    destruct (proj2 (Gi (fst (f s)) (snd (f s)))) as [F1 F2]; [now destruct (f s)|].
    rewrite <- Gn. apply (H s); auto.
  - intros (s & i & j & Hs & F1 & F2 & NP). apply M2. exists s. split; [exact Hs|].
    destruct (G s Hs) as [Gn Gi]. rewrite <- (proj1 (Gi i j) (conj F1 F2)). cbn [fst snd]. now rewrite <- Gn.
Qed.
