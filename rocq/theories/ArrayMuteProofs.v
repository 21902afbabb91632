(* Proofs about muting. *)
From Verif Require Import PyFacts NumFacts SeriesModel SeriesSpec SeriesProofs.
From Verif Require Import ArrayModel ArraySpec ArrayProofs.

Lemma set_slice_ok w lo hi arr : lo <= hi -> hi <= length w -> length arr = hi - lo ->
  set_slice w (Z.of_nat lo) (Z.of_nat hi) arr = Ok (firstn lo w ++ arr ++ skipn hi w).
Proof.
  intros H1 H2 H3. unfold set_slice. rewrite !clip_index_nonneg by lia.
  rewrite !Nat2Z.id. rewrite !Nat.min_l by lia. rewrite H3, Nat.eqb_refl.
  do 4 f_equal. lia.
Qed.

Lemma mute_sensor_ok taper n lo hi s : lo <= hi -> hi <= n -> length (amp (ser s)) = n ->
  (forall M, length (taper M) = M) ->
  snd (mute_sensor taper n (Z.of_nat lo) (Z.of_nat hi) s) = Ok tt /\
  muted taper s (fst (mute_sensor taper n (Z.of_nat lo) (Z.of_nat hi) s)) lo hi.
Proof.
  intros H1 H2 L T. rewrite mute_sensor_fits by exact L. unfold tukey.
  destruct (Z.ltb_spec (Z.of_nat hi - Z.of_nat lo) 0); [lia|]. cbn [bind].
  replace (Z.to_nat (Z.of_nat hi - Z.of_nat lo)) with (hi - lo) by lia.
  rewrite set_slice_ok; [|lia|rewrite repeat_length; lia|apply T]. cbn [fst snd]. split; auto.
  intros i Hi. cbn [set_ser ser set_amp amp].
  assert (LF : length (firstn lo (repeat 0%Qc n)) = lo) by (rewrite firstn_length, repeat_length; lia).
  rewrite (nth_map2 _ _ _ i 0%Qc 0%Qc 0%Qc).
  2: exact Hi.
  2:{ rewrite !app_length, LF, T, skipn_length, repeat_length. lia. }
  destruct (Nat.leb_spec lo i) as [A|A]; cbn [andb].
  - rewrite app_nth2 by (rewrite LF; exact A). rewrite LF.
    destruct (Nat.ltb_spec i hi) as [B|B].
    + rewrite app_nth1 by (rewrite T; lia). reflexivity.
    + rewrite app_nth2 by (rewrite T; lia). rewrite nth_skipn, nth_repeat_any. ring.
  - rewrite app_nth1 by (rewrite LF; exact A). rewrite nth_firstn_lt by exact A.
    rewrite nth_repeat_any. ring.
Qed.

Lemma mute_loop_ok taper n : forall bounds l,
  Forall2 (fun b s => fst b <= snd b /\ snd b <= n /\ length (amp (ser s)) = n) bounds l ->
  (forall M, length (taper M) = M) ->
  snd (mute_loop taper n (map (fun b => (Z.of_nat (fst b), Z.of_nat (snd b))) bounds) l) = Ok tt /\
  Forall2 (fun p s' => muted taper (snd p) s' (fst (fst p)) (snd (fst p))) (combine bounds l)
     (fst (mute_loop taper n (map (fun b => (Z.of_nat (fst b), Z.of_nat (snd b))) bounds) l)).
Proof.
  intros bounds l F T. induction F as [|b s bounds l (H1 & H2 & H3) F [IH1 IH2]]; cbn [map mute_loop].
  - split; auto. constructor.
  - destruct (mute_sensor_ok taper n (fst b) (snd b) s H1 H2 H3 T) as [A B].
    destruct (mute_sensor taper n (Z.of_nat (fst b)) (Z.of_nat (snd b)) s) as [s' r].
    cbn [fst snd] in *. subst r.
    destruct (mute_loop taper n _ l) as [t' r']. cbn [fst snd combine] in *. split; auto.
Qed.

Lemma line_time_on l x t : slanted l -> (on_line l x t <-> t = line_time l x).
Proof.
  destruct l as [[x1 t1] [x2 t2]]. unfold slanted, on_line, line_time. intros N.
  assert (D : (x2 - x1)%Qc <> 0%Qc).
  { intros H. apply N. replace x2 with (x2 - x1 + x1)%Qc by ring. rewrite H. ring. }
  split.
  - intros H. replace t with (t1 + (t - t1) * (x2 - x1) / (x2 - x1))%Qc by (field; exact D).
    rewrite H. field. exact D.
  - intros ->. field. exact D.
Qed.

(** Index of a time inside a record whose delay is not positive. *)
Lemma trunc_index s t : (0 < dt (ser s))%Qc -> (delay (ser s) <= 0)%Qc -> (delay (ser s) <= t)%Qc ->
  exists i, trunc (t / dt (ser s) + Qcabs (delay (ser s) / dt (ser s))) = Z.of_nat i /\ at_sample s t i.
Proof.
  intros D H0 H1. set (d := dt (ser s)) in *. set (de := delay (ser s)) in *.
  assert (N : d <> 0%Qc) by (now apply Qcpos_neq0).
  replace (Qcabs (de / d)) with (- de / d)%Qc.
  2:{ rewrite <- Qcabs_opp. replace (- (de / d))%Qc with (- de / d)%Qc by (field; exact N).
      symmetry. apply Qcabs_pos. apply Qcdiv_nonneg; auto. clear - H0. qclra. }
  replace (t / d + - de / d)%Qc with ((t - de) / d)%Qc by (field; exact N).
  assert (P : (0 <= (t - de) / d)%Qc) by (apply Qcdiv_nonneg; auto; clear - H1; qclra).
  unfold trunc. destruct (Qcltb_spec ((t - de) / d) 0) as [L|_]; [elim (Qclt_not_le _ _ L P)|].
  assert (F := Qcfloor_spec ((t - de) / d)). set (f := Qcfloor _) in *. destruct F as [F1 F2].
  assert (Fp : (0 <= f)%Z).
  { assert (X : (0 < QcZ f + 1)%Qc) by qclra. change 1%Qc with (QcZ 1) in X. rewrite <- QcZ_add in X.
    change 0%Qc with (QcZ 0) in X. rewrite QcZ_lt in X. lia. }
  exists (Z.to_nat f). split; [lia|]. unfold at_sample, time_at. fold d de.
  assert (E : ((t - de) / d * d = t - de)%Qc) by (field; exact N).
  rewrite QcN_S. unfold QcN. rewrite Z2Nat.id by exact Fp.
  split.
  - assert (X : (QcZ f * d <= (t - de) / d * d)%Qc) by (apply Qcmult_le_compat_r; [exact F1|now apply Qclt_le_weak]).
    rewrite E in X. qclra.
  - assert (X : ((t - de) / d * d < (QcZ f + 1) * d)%Qc) by (apply Qcmult_lt_compat_r; [exact D|exact F2]).
    rewrite E in X. replace ((QcZ f + 1) * d + de)%Qc with ((QcZ f + 1) * d + de)%Qc by ring. qclra.
Qed.

Lemma at_sample_mono s t u i j : (0 < dt (ser s))%Qc -> (t <= u)%Qc ->
  at_sample s t i -> at_sample s u j -> i <= j.
Proof.
  intros D H [A1 A2] [B1 B2]. destruct (Nat.le_gt_cases i j) as [|L]; auto.
  assert (X := time_at_mono (ser s) (S j) i D L). exfalso. qclra.
Qed.
Lemma at_sample_bound s u j n : (0 < dt (ser s))%Qc -> (u <= time_at (ser s) n)%Qc ->
  at_sample s u j -> j <= n.
Proof.
  intros D H [B1 B2]. destruct (Nat.le_gt_cases j n) as [|L]; auto.
  assert (X := time_at_smono (ser s) n j D L). exfalso. qclra.
Qed.
Lemma at_sample_exact s i : (0 < dt (ser s))%Qc -> at_sample s (time_at (ser s) i) i.
Proof. intros D. split; [apply Qcle_refl|]. apply time_at_smono; auto. Qed.
Lemma at_sample_unique s t i j : (0 < dt (ser s))%Qc -> at_sample s t i -> at_sample s t j -> i = j.
Proof. intros D A B. apply Nat.le_antisymm; eapply at_sample_mono; eauto using Qcle_refl. Qed.

Definition start_index (ss : option line) (d nd x : Qc) : Z :=
  match ss with Some l => trunc (line_time l x / d + nd)%Qc | None => 0%Z end.
Definition stop_index (se : option line) (d nd : Qc) (n : nat) (x : Qc) : Z :=
  match se with Some l => trunc (line_time l x / d + nd)%Qc | None => (Z.of_nat n - 1)%Z end.

Definition lines_slanted (ss se : option line) : Prop :=
  match ss with Some l => slanted l | None => True end /\
  match se with Some l => slanted l | None => True end.

Lemma line_indices_ok l d nd pos : slanted l ->
  line_indices l d nd pos = Ok (map (fun x => trunc (line_time l x / d + nd)%Qc) pos).
Proof.
  destruct l as [[x1 t1] [x2 t2]]. unfold slanted, line_indices. intros N.
  destruct (Qceqb_spec (x2 - x1) 0) as [E|_]; auto.
  elim N. replace x2 with (x2 - x1 + x1)%Qc by ring. rewrite E. ring.
Qed.
Lemma combine_map {A B C} (f : A -> B) (g : A -> C) l : combine (map f l) (map g l) = map (fun x => (f x, g x)) l.
Proof. induction l; cbn; congruence. Qed.

Lemma mute_unfold a taper ss se s0 l : sensors a = s0 :: l -> dt (ser s0) <> 0%Qc -> lines_slanted ss se ->
  mute a taper ss se =
  let d := dt (ser s0) in let nd := Qcabs (delay (ser s0) / d) in let n := length (amp (ser s0)) in
  let (l', r) := mute_loop taper n
      (map (fun s => (start_index ss d nd (sx s), stop_index se d nd n (sx s))) (sensors a)) (sensors a) in
  (set_sensors a l', r).
Proof.
  intros E D (S1 & S2). unfold mute. rewrite E. destruct (Qceqb_spec (dt (ser s0)) 0); [contradiction|].
  unfold position. rewrite E. cbn zeta.
  replace (match ss with Some l0 => line_indices l0 _ _ _ | None => _ end)
    with (Ok (map (start_index ss (dt (ser s0)) (Qcabs (delay (ser s0) / dt (ser s0)))) (map sx (s0 :: l)))).
  2:{ destruct ss; [symmetry; now apply line_indices_ok|reflexivity]. }
  cbn [bind].
  replace (match se with Some l0 => line_indices l0 _ _ _ | None => _ end)
    with (Ok (map (stop_index se (dt (ser s0)) (Qcabs (delay (ser s0) / dt (ser s0))) (length (amp (ser s0)))) (map sx (s0 :: l)))).
  2:{ destruct se; [symmetry; now apply line_indices_ok|reflexivity]. }
  cbn [bind]. rewrite combine_map, map_map. reflexivity.
Qed.

Lemma mute_exact a taper ss se :
  consistent a -> (forall M, length (taper M) = M) -> lines_slanted ss se ->
  (forall s, In s (sensors a) -> (0 < dt (ser s))%Qc /\ (delay (ser s) <= 0)%Qc /\ amp (ser s) <> [] /\
     exists ts te, mute_window ss se s ts te /\ window_fits s ts te) ->
  exists a', mute a taper ss se = (a', Ok tt) /\ src a' = src a /\
    Forall2 (fun s s' => only_samples_change s s' /\
       forall ts te, mute_window ss se s ts te ->
         exists i0 i1, at_sample s ts i0 /\ at_sample s te i1 /\ i0 <= i1 <= length (amp (ser s)) /\
           muted taper s s' i0 i1) (sensors a) (sensors a').
Proof.
  intros C T SL H. destruct (sensors a) as [|s0 l] eqn:E.
  { destruct C as (N & _). congruence. }
  destruct (H s0 (or_introl eq_refl)) as (D0 & De0 & _).
  assert (U := mute_unfold a taper ss se s0 l E (Qcpos_neq0 _ D0) SL). cbn zeta in U.
  assert (K := mute_keeps a taper ss se C). rewrite U in *. clear U. rewrite E in *.
  set (n := length (amp (ser s0))) in *. set (d := dt (ser s0)) in *.
  set (nd := Qcabs (delay (ser s0) / d)) in *.
  (* bounds of every sensor *)
  assert (B : exists bounds,
     map (fun s => (start_index ss d nd (sx s), stop_index se d nd n (sx s))) (s0 :: l)
       = map (fun b => (Z.of_nat (fst b), Z.of_nat (snd b))) bounds /\
     Forall2 (fun b s => (fst b <= snd b /\ snd b <= n /\ length (amp (ser s)) = n) /\
        forall ts te, mute_window ss se s ts te -> at_sample s ts (fst b) /\ at_sample s te (snd b)) bounds (s0 :: l)).
  { assert (G : forall s, In s (s0 :: l) -> agree s s0).
    { intros s Hs. rewrite <- E in Hs. apply C; auto. rewrite E. now left. }
    revert H G. generalize (s0 :: l). clear K. intros L H G. induction L as [|s L IH].
    - exists []. split; constructor.
    - destruct IH as (bs & E1 & F).
      { intros; apply H; now right. } { intros; apply G; now right. }
      destruct (H s (or_introl eq_refl)) as (D & De & Ne & ts & te & W & (W1 & W2 & W3)).
      destruct (G s (or_introl eq_refl)) as (Gd & _ & Gde & Gn).
      assert (I0 : exists i0, start_index ss d nd (sx s) = Z.of_nat i0 /\ at_sample s ts i0).
      { unfold start_index. destruct W as [Wa _]. destruct ss as [ln|].
        - destruct Wa as [S1 O1]. apply line_time_on in O1; auto. rewrite <- O1.
          unfold nd, d. rewrite <- Gd, <- Gde. apply trunc_index; auto.
        - exists 0%nat. split; auto. subst ts. 
          replace (delay (ser s)) with (time_at (ser s) 0); [now apply at_sample_exact|].
          unfold time_at. change (QcN 0) with 0%Qc. ring. }
      assert (I1 : exists i1, stop_index se d nd n (sx s) = Z.of_nat i1 /\ at_sample s te i1).
      { unfold stop_index. destruct W as [_ Wb]. destruct se as [ln|].
        - destruct Wb as [S1 O1]. apply line_time_on in O1; auto. rewrite <- O1.
          unfold nd, d. rewrite <- Gd, <- Gde. apply trunc_index; auto.
          eapply Qcle_trans; eauto.
        - exists (n - 1)%nat. split.
          + unfold n. rewrite <- Gn. destruct (amp (ser s)); [congruence|]. cbn [length]. lia.
          + subst te. unfold n. rewrite <- Gn. now apply at_sample_exact. }
      destruct I0 as (i0 & X0 & A0), I1 as (i1 & X1 & A1).
      exists ((i0, i1) :: bs). cbn [map fst snd]. rewrite X0, X1, E1. split; auto.
      constructor; auto. cbn [fst snd]. split.
      + split; [apply (at_sample_mono s ts te i0 i1 D); auto|]. fold n in Gn. split; auto.
        apply (at_sample_bound s te i1 n D); auto. rewrite <- Gn. exact W3.
      + intros ts' te' W'.
        assert (ts' = ts).
        { destruct W as [Wa _], W' as [Wa' _]. destruct ss as [ln|]; [|congruence].
          destruct Wa as [S1 O1], Wa' as [_ O2]. apply line_time_on in O1, O2; auto. congruence. }
        assert (te' = te).
        { destruct W as [_ Wb], W' as [_ Wb']. destruct se as [ln|]; [|congruence].
          destruct Wb as [S1 O1], Wb' as [_ O2]. apply line_time_on in O1, O2; auto. congruence. }
        subst. auto. }
  destruct B as (bounds & EB & FB). rewrite EB in *.
  assert (FB' : Forall2 (fun b s => fst b <= snd b /\ snd b <= n /\ length (amp (ser s)) = n) bounds (s0 :: l))
    by (eapply Forall2_impl; [|exact FB]; intros ? ? [X _]; exact X).
  destruct (mute_loop_ok taper n bounds (s0 :: l) FB' T) as [O M].
  destruct (mute_loop taper n _ (s0 :: l)) as [l' r]. cbn [fst snd] in *. subst r.
  exists (set_sensors a l'). split; auto. split; [apply K|]. cbn [set_sensors sensors] in *.
  destruct K as [_ K].
  clear -K M FB. revert bounds M FB. induction K as [|s s' L L' X K IH]; intros bounds M FB; [constructor|].
  inversion FB as [|b ? bounds' ? [(Q1 & Q2 & Q3) Q4] FB']; subst. cbn [combine] in M.
  inversion M as [|? ? ? ? M1 M2]; subst. cbn [fst snd] in M1.
  constructor; [|eapply IH; eauto]. split; auto.
  intros ts te W. destruct (Q4 ts te W). exists (fst b), (snd b).
  split; [assumption|]. split; [assumption|]. split; [|assumption]. rewrite Q3. auto.
Qed.

(** Consequences of [muted]. *)
Lemma muted_outside taper s s' i0 i1 ts te i : (0 < dt (ser s))%Qc ->
  at_sample s ts i0 -> at_sample s te i1 -> muted taper s s' i0 i1 -> i < length (amp (ser s)) ->
  ((time_at (ser s) (S i) <= ts)%Qc \/ (te <= time_at (ser s) i)%Qc) -> nth i (amp (ser s')) 0%Qc = 0%Qc.
Proof.
  intros D A B M Hi O. rewrite M by exact Hi.
  destruct (Nat.leb_spec i0 i) as [X|X]; cbn [andb]; auto.
  destruct (Nat.ltb_spec i i1) as [Y|Y]; auto. exfalso.
  destruct O as [O|O].
  - destruct A as [_ A]. assert (Z := time_at_mono (ser s) (S i0) (S i) D (le_n_S _ _ X)). qclra.
  - destruct B as [B _]. assert (Z := time_at_smono (ser s) i i1 D Y). qclra.
Qed.
Lemma muted_bounded taper s s' i0 i1 i : 
  (forall M v, In v (taper M) -> (0 <= v)%Qc /\ (v <= 1)%Qc) -> (forall M, length (taper M) = M) ->
  muted taper s s' i0 i1 -> i < length (amp (ser s)) ->
  (Qcabs (nth i (amp (ser s')) 0) <= Qcabs (nth i (amp (ser s)) 0))%Qc.
Proof.
  intros T L M Hi. rewrite M by exact Hi. destruct (_ && _) eqn:E.
  - apply andb_prop in E as [E1 E2]. apply Nat.leb_le in E1. apply Nat.ltb_lt in E2.
    set (w := nth (i - i0) (taper (i1 - i0)) 0%Qc).
    assert (W : In w (taper (i1 - i0))) by (apply nth_In; rewrite L; lia).
    destruct (T _ _ W) as [W1 W2]. rewrite Qcabs_mult, (Qcabs_pos w W1).
    rewrite Qcmult_comm. rewrite <- (Qcmult_1_l (Qcabs (nth i (amp (ser s)) 0%Qc))) at 2.
    apply Qcmult_le_compat_r; auto. apply Qcabs_nonneg.
  - change (Qcabs 0%Qc) with 0%Qc. apply Qcabs_nonneg.
Qed.
Lemma muted_rectangular taper s s' i0 i1 ts te i : (0 < dt (ser s))%Qc ->
  (forall M v, In v (taper M) -> v = 1%Qc) -> (forall M, length (taper M) = M) ->
  at_sample s ts i0 -> at_sample s te i1 ->
  muted taper s s' i0 i1 -> i < length (amp (ser s)) ->
  (ts <= time_at (ser s) i)%Qc -> (time_at (ser s) (S i) <= te)%Qc ->
  nth i (amp (ser s')) 0%Qc = nth i (amp (ser s)) 0%Qc.
Proof.
  intros D T L A B M Hi H1 H2. rewrite M by exact Hi.
  assert (X : i0 <= i).
  { destruct (Nat.le_gt_cases i0 i) as [|X]; auto. destruct A as [A _].
    assert (Z := time_at_smono (ser s) i i0 D X). exfalso. qclra. }
  assert (Y : i < i1).
  { destruct (Nat.lt_ge_cases i i1) as [|Y]; auto. destruct B as [_ B].
    assert (Z := time_at_mono (ser s) (S i1) (S i) D (le_n_S _ _ Y)). exfalso. qclra. }
  destruct (Nat.leb_spec i0 i); [|lia]. destruct (Nat.ltb_spec i i1); [|lia]. cbn [andb].
  rewrite (T (i1 - i0) (nth (i - i0) (taper (i1 - i0)) 0%Qc)); [ring|].
  apply nth_In. rewrite L. lia.
Qed.

Lemma mute_observable a taper ss se :
  consistent a -> (forall M, length (taper M) = M) -> lines_slanted ss se ->
  (forall s, In s (sensors a) -> (0 < dt (ser s))%Qc /\ (delay (ser s) <= 0)%Qc /\ amp (ser s) <> [] /\
     exists ts te, mute_window ss se s ts te /\ window_fits s ts te) ->
  exists a', mute a taper ss se = (a', Ok tt) /\ src a' = src a /\
    Forall2 (fun s s' => only_samples_change s s' /\
       forall ts te i, mute_window ss se s ts te -> i < length (amp (ser s)) ->
         ((time_at (ser s) i + dt (ser s) <= ts)%Qc -> nth i (amp (ser s')) 0%Qc = 0%Qc) /\
         ((te <= time_at (ser s) i)%Qc -> nth i (amp (ser s')) 0%Qc = 0%Qc) /\
         ((forall M v, In v (taper M) -> (0 <= v)%Qc /\ (v <= 1)%Qc) ->
            (Qcabs (nth i (amp (ser s')) 0) <= Qcabs (nth i (amp (ser s)) 0))%Qc) /\
         ((forall M v, In v (taper M) -> v = 1%Qc) ->
            (ts <= time_at (ser s) i)%Qc -> (time_at (ser s) i + dt (ser s) <= te)%Qc ->
            nth i (amp (ser s')) 0%Qc = nth i (amp (ser s)) 0%Qc)) (sensors a) (sensors a').
Proof.
  intros C T SL H. destruct (mute_exact a taper ss se C T SL H) as (a' & E & S & F).
  exists a'. split; auto. split; auto.
  assert (D : forall s, In s (sensors a) -> (0 < dt (ser s))%Qc) by (intros s Hs; now apply H).
  revert F D. generalize (sensors a) (sensors a'). clear - T. intros l l' F. 
  induction F as [|s s' l l' [K M] F IH]; intros D; constructor.
  - split; auto. intros ts te i W Hi. destruct (M ts te W) as (i0 & i1 & A & B & _ & Mu).
    assert (Ds := D s (or_introl eq_refl)).
    assert (TS : (time_at (ser s) i + dt (ser s) = time_at (ser s) (S i))%Qc)
      by (unfold time_at; rewrite QcN_S; ring).
    rewrite TS. split; [|split; [|split]].
    + intros H. apply (muted_outside taper s s' i0 i1 ts te); auto.
    + intros H. apply (muted_outside taper s s' i0 i1 ts te); auto.
    + intros H. apply (muted_bounded taper s s' i0 i1); auto.
    + intros H. intros. apply (muted_rectangular taper s s' i0 i1 ts te); auto.
  - apply IH. intros; apply D; now right.
Qed.

(** The error branches. *)
Lemma mute_vertical a taper se l s0 t : sensors a = s0 :: t -> dt (ser s0) <> 0%Qc -> ~ slanted l ->
  mute a taper (Some l) se = (a, Err ZeroDivisionError) /\
  (match se with Some m => slanted m | None => True end ->
   mute a taper se (Some l) = (a, Err ZeroDivisionError)).
Proof.
  intros E D N. assert (V : forall d nd pos, line_indices l d nd pos = Err ZeroDivisionError).
  { destruct l as [[x1 t1] [x2 t2]]. unfold slanted in N. intros. unfold line_indices.
    destruct (Qceqb_spec (x2 - x1) 0) as [|H]; auto. elim N. intros ->. apply H. ring. }
  unfold mute. rewrite E. destruct (Qceqb_spec (dt (ser s0)) 0); [contradiction|].
  cbn zeta. rewrite !V. cbn [bind]. split; auto.
  intros S. destruct se as [m|]; [rewrite line_indices_ok by exact S|]; reflexivity.
Qed.

(** A window whose end precedes its start is refused. *)
Lemma mute_sensor_reversed taper n lo hi s : (hi < lo)%Z ->
  mute_sensor taper n lo hi s = (s, Err ValueError).
Proof.
  intros H. unfold mute_sensor, tukey. destruct (Z.ltb_spec (hi - lo) 0); [reflexivity|lia].
Qed.
