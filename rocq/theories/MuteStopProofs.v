From Verif Require Import PyFacts NumFacts SeriesModel SeriesSpec SeriesProofs.
From Verif Require Import ArrayModel ArraySpec ArrayProofs ArrayMuteProofs MuteProofs MuteStopSpec.

Ltac idx :=
  unfold clip_index, norm_index in *;
  repeat match goal with
         | H : context [(?x <? 0)%Z] |- _ => destruct (Z.ltb_spec x 0)
         | |- context [(?x <? 0)%Z] => destruct (Z.ltb_spec x 0)
         end; lia.
Lemma nth_placed (w arr : list Qc) a k : (forall i, nth i w 0%Qc = 0%Qc) -> (a + length arr <= length w)%nat ->
  nth k (firstn a w ++ arr ++ skipn (a + length arr) w) 0%Qc =
  if Nat.leb a k && Nat.ltb k (a + length arr) then nth (k - a) arr 0%Qc else 0%Qc.
Proof.
  intros Z L. assert (La : length (firstn a w) = a) by (rewrite firstn_length; lia).
  destruct (Nat.leb_spec a k) as [A|A]; cbn [andb].
  - rewrite app_nth2 by lia. rewrite La. destruct (Nat.ltb_spec k (a + length arr)) as [B|B].
    + rewrite app_nth1 by lia. reflexivity.
    + rewrite app_nth2 by lia. rewrite PyFacts.nth_skipn. apply Z.
  - rewrite app_nth1 by lia. rewrite nth_firstn_lt by lia. apply Z.
Qed.
Lemma mute_sensor_effect taper n i j s : (forall M, length (taper M) = M) -> length (amp (ser s)) = n -> placeable (Z.of_nat n) i j ->
  exists s', mute_sensor taper n i j s = (s', Ok tt) /\ windowed taper i j s s'.
Proof.
  intros T L P. rewrite mute_sensor_fits by exact L. unfold tukey. destruct (Z.ltb_spec (j - i) 0) as [B|B]; [destruct P; lia|]. cbn [bind].
  unfold set_slice. rewrite repeat_length. assert (LT := T (Z.to_nat (j - i))). set (w := taper _) in *. 
  set (a := clip_index n i). set (b := clip_index n j).
  assert (Z0 : forall k, nth k (repeat 0%Qc n) 0%Qc = 0%Qc) by (intros k; apply nth_repeat).
  assert (bounds : (a <= n /\ b <= n)%nat) by (unfold a, b; idx).
  assert (Fin : forall v, length v = n -> (forall k, (k < n)%nat -> nth k v 0%Qc = factor taper (Z.of_nat n) i j (Z.of_nat k)) ->
    windowed taper i j s (set_ser s (set_amp (ser s) (map2 Qcmult (amp (ser s)) v)))).
  { intros v Lv V. split.
    - unfold only_samples_change, set_ser, set_amp. cbn. repeat split; auto. rewrite length_map2, L, Lv. lia.
    - intros k Hk. cbn [ser set_ser set_amp amp]. rewrite L in *. rewrite <- (V k) by exact Hk.
      apply nth_map2; lia. }
  destruct (Nat.eqb_spec (length w) (b - a)) as [E|E].
  - eexists. split; [reflexivity|]. rewrite <- E. apply Fin.
    + rewrite !app_length, firstn_length, skipn_length, repeat_length. lia.
    + intros k Hk. destruct (Nat.le_gt_cases (a + length w) n) as [I|I].
      * rewrite nth_placed by (auto; rewrite repeat_length; lia).
        assert (W : forall lo hi, (Z.of_nat a = lo)%Z -> (hi - lo = j - i)%Z ->
          (if Nat.leb a k && Nat.ltb k (a + length w) then nth (k - a) w 0%Qc else 0%Qc)
          = if (lo <=? Z.of_nat k)%Z && (Z.of_nat k <? hi)%Z then nth (Z.to_nat (Z.of_nat k - lo)) w 0%Qc else 0%Qc).
        { intros lo hi <- H. replace (Z.to_nat (Z.of_nat k - Z.of_nat a)) with (k - a)%nat by lia.
          destruct (Nat.leb_spec a k), (Z.leb_spec (Z.of_nat a) (Z.of_nat k)); try lia; cbn [andb]; try reflexivity.
          destruct (Nat.ltb_spec k (a + length w)), (Z.ltb_spec (Z.of_nat k) hi); try lia; reflexivity. }
        unfold factor. fold w.
        destruct (Z.leb_spec 0 i) as [Q1|Q1], (Z.leb_spec j (Z.of_nat n)) as [Q2|Q2]; cbn [andb].
        -- apply W; [|lia]. unfold a. idx.
        -- destruct (Z.leb_spec (- Z.of_nat n) i), (Z.ltb_spec j 0); cbn [andb]; try lia;
             (assert (length w = 0)%nat by (unfold a, b in *; unfold placeable in P; idx);
              destruct (Nat.leb_spec a k), (Nat.ltb_spec k (a + length w)); cbn [andb]; try lia; reflexivity).
        -- destruct (Z.leb_spec (- Z.of_nat n) i), (Z.ltb_spec j 0); cbn [andb];
             [apply W; [unfold a; idx|lia]| | |];
             (assert (length w = 0)%nat by (unfold a, b in *; unfold placeable in P; idx);
              destruct (Nat.leb_spec a k), (Nat.ltb_spec k (a + length w)); cbn [andb]; try lia; reflexivity).
        -- unfold placeable in P. lia.
      * lia.
  - assert (b - a = 0 /\ length w = 1)%nat as [E0 W1] by (unfold a, b in *; unfold placeable in P; idx).
    destruct w as [|v [|v' w']] eqn:Ew; cbn [length] in W1; try lia.
    eexists. split; [reflexivity|]. rewrite E0. cbn [repeat app]. rewrite Nat.add_0_r, firstn_skipn. apply Fin; [apply repeat_length|].
    intros k Hk. rewrite Z0. unfold factor.
    destruct (Z.leb_spec 0 i) as [Q1|Q1], (Z.leb_spec j (Z.of_nat n)) as [Q2|Q2]; cbn [andb].
    + exfalso. unfold a, b in *. idx.
    + destruct (Z.leb_spec (- Z.of_nat n) i), (Z.ltb_spec j 0); cbn [andb]; try lia; reflexivity.
    + destruct (Z.leb_spec (- Z.of_nat n) i), (Z.ltb_spec j 0); cbn [andb]; try reflexivity.
      exfalso. unfold a, b in *. idx.
    + unfold placeable in P. lia.
Qed.
Lemma mute_sensor_refused taper n i j s : (forall M, length (taper M) = M) -> length (amp (ser s)) = n -> ~ placeable (Z.of_nat n) i j ->
  mute_sensor taper n i j s = (s, Err ValueError).
Proof.
  intros T Ln P. destruct (mute_sensor_outcome taper n i j s T Ln) as [_ M]. specialize (M P). unfold mute_sensor in *.
  destruct (bind _ _) as [w|e]; cbn [snd] in M; [discriminate|]. injection M as ->. reflexivity.
Qed.
Lemma mute_loop_effect taper n (f : sensor -> Z * Z) : (forall M, length (taper M) = M) -> forall l,
  (forall s, In s l -> length (amp (ser s)) = n) ->
  exists done done' rest, l = done ++ rest /\ fst (mute_loop taper n (map f l) l) = done' ++ rest
    /\ Forall2 (fun s s' => placeable (Z.of_nat n) (fst (f s)) (snd (f s)) /\ windowed taper (fst (f s)) (snd (f s)) s s') done done'
    /\ (rest = [] -> snd (mute_loop taper n (map f l) l) = Ok tt)
    /\ (forall s r, rest = s :: r -> ~ placeable (Z.of_nat n) (fst (f s)) (snd (f s)) /\ snd (mute_loop taper n (map f l) l) = Err ValueError).
Proof.
  intros T l. induction l as [|s l IH]; intros L; cbn [map mute_loop].
  - exists [], [], []. repeat split; try constructor; discriminate.
  - destruct (f s) as [i j] eqn:Ef.
    assert (DP : placeable (Z.of_nat n) i j \/ ~ placeable (Z.of_nat n) i j) by (unfold placeable; lia). destruct DP as [P|P].
    + destruct (mute_sensor_effect taper n i j s T (L s (or_introl eq_refl)) P) as (s' & E & W). rewrite E.
      destruct IH as (done & done' & rest & I1 & I2 & I3 & I4 & I5); [intros x Hx; apply L; now right|].
      destruct (mute_loop taper n (map f l) l) as [t' r']. cbn [fst snd] in *.
      exists (s :: done), (s' :: done'), rest. split; [rewrite I1; reflexivity|]. split; [rewrite I2; reflexivity|].
      split; [constructor; [rewrite Ef; auto|exact I3]|]. split; assumption.
    + rewrite (mute_sensor_refused taper n i j s T (L s (or_introl eq_refl)) P). exists [], [], (s :: l). cbn [fst snd].
      split; [reflexivity|]. split; [reflexivity|]. split; [constructor|]. split; [discriminate|].
      intros x r Q. injection Q as <- <-. rewrite Ef. auto.
Qed.
Lemma mute_stops a taper ss se :
  consistent a -> (forall M, length (taper M) = M) -> lines_slanted ss se ->
  (forall s, In s (sensors a) -> (0 < dt (ser s))%Qc) ->
  exists done done' rest, sensors a = done ++ rest /\ sensors (fst (mute a taper ss se)) = done' ++ rest
    /\ src (fst (mute a taper ss se)) = src a
    /\ Forall2 (fun s s' => exists i j, first_number ss s i /\ end_number se s j /\ placeable (Z.of_nat (length (amp (ser s)))) i j
                  /\ windowed taper i j s s') done done'
    /\ (rest = [] -> snd (mute a taper ss se) = Ok tt)
    /\ (forall s r, rest = s :: r -> snd (mute a taper ss se) = Err ValueError
          /\ exists i j, first_number ss s i /\ end_number se s j /\ ~ placeable (Z.of_nat (length (amp (ser s)))) i j).
Proof.
  intros C T SL D. destruct (sensors a) as [|s0 l] eqn:E.
  { destruct C as (N & _). congruence. }
  assert (D0 := D s0 (or_introl eq_refl)).
  rewrite (mute_unfold a taper ss se s0 l E (Qcpos_neq0 _ D0) SL). cbn zeta. rewrite E.
  set (f := fun s => (start_index ss (dt (ser s0)) (Qcabs (delay (ser s0) / dt (ser s0))) (sx s),
                      stop_index se (dt (ser s0)) (Qcabs (delay (ser s0) / dt (ser s0))) (length (amp (ser s0))) (sx s))).
  assert (G : forall s, In s (s0 :: l) -> length (amp (ser s)) = length (amp (ser s0)) /\
     first_number ss s (fst (f s)) /\ end_number se s (snd (f s))).
  { intros s Hs. assert (A : agree s s0).
    { destruct C as (_ & _ & C). rewrite E in C. apply C; [exact Hs|now left]. }
    destruct A as (A1 & _ & A2 & A3). split; [exact A3|]. 
    destruct SL as [SL1 SL2]. rewrite (first_number_is ss s _ SL1 (D s Hs)), (end_number_is se s _ SL2 (D s Hs)).
    rewrite A1, A2, A3. split; reflexivity. }
  destruct (mute_loop_effect taper (length (amp (ser s0))) f T (s0 :: l) (fun s Hs => proj1 (G s Hs))) as (done & done' & rest & M1 & M2 & M3 & M4 & M5).
  destruct (mute_loop taper _ (map f (s0 :: l)) (s0 :: l)) as [l' r]. cbn [fst snd] in *. 
  exists done, done', rest. cbn [set_sensors sensors src]. split; [exact M1|]. split; [exact M2|]. split; [reflexivity|].
  assert (I : forall s, In s done \/ In s rest -> In s (s0 :: l)) by (intros s; rewrite M1, in_app_iff; auto).
  split.
  - clear - M3 G I. induction M3 as [|s s' done done' [P W] M3 IH]; constructor.
    + destruct (G s) as (Gn & G1 & G2); [apply I; left; now left|]. exists (fst (f s)), (snd (f s)). rewrite Gn. auto.
    + apply IH. intros x [Hx|Hx]; apply I; [left; now right|now right].
  - split; [exact M4|]. intros s t Q. destruct (M5 s t Q) as [NP R]. split; [exact R|].
    destruct (G s) as (Gn & G1 & G2); [apply I; right; rewrite Q; now left|]. exists (fst (f s)), (snd (f s)). rewrite Gn. auto.
Qed.
