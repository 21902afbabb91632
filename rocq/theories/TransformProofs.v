(* Proofs about wavefield transforms: frequencies, velocities, normalisation, peaks, stacking. *)
From Verif Require Import TransformModel TransformSpec PyFacts NumFacts SeriesProofs ArrayMatrixProofs.
From Coq Require Import Permutation.
Local Open Scope nat_scope.
Local Open Scope list_scope.

(** * Frequencies *)
Lemma pyget_nth {A} (l : list A) (i : nat) a : nth_error l i = Some a -> pyget l (Z.of_nat i) = Ok a.
Proof.
  intros H. unfold pyget, norm_index. replace (Z.of_nat i <? 0)%Z with false by (symmetry; apply Z.ltb_ge; lia).
  replace (Z.of_nat i <? 0)%Z with false by (symmetry; apply Z.ltb_ge; lia). now rewrite Nat2Z.id, H.
Qed.
Lemma take_nth {A} (l : list A) (d : A) ids :
  (forall i, In i ids -> i < List.length l) ->
  take l (map Z.of_nat ids) = Ok (map (fun i => nth i l d) ids).
Proof.
  unfold take. induction ids as [|i ids IH]; intros H; cbn [map mapM]; [reflexivity|].
  rewrite (pyget_nth l i (nth i l d)) by (apply nth_error_nth'; apply H; now left).
  cbn [bind]. rewrite IH by (intros; apply H; now right). reflexivity.
Qed.

Lemma pyrange_pos lo hi m : 0 < m ->
  exists c, pyrange (Z.of_nat lo) (Z.of_nat hi + 1) (Z.of_nat m) =
    Ok (map Z.of_nat (map (fun k => lo + k * m) (seq 0 c))) /\
  forall k, k < c <-> lo + k * m <= hi.
Proof.
  intros Hm. unfold pyrange.
  replace (Z.of_nat m =? 0)%Z with false by (symmetry; apply Z.eqb_neq; lia).
  replace (0 <? Z.of_nat m)%Z with true by (symmetry; apply Z.ltb_lt; lia).
  exists (Z.to_nat ((Z.of_nat hi + 1 - Z.of_nat lo + Z.of_nat m - 1) / Z.of_nat m)).
  split.
  - f_equal. rewrite map_map. apply map_ext. intros; lia.
  - intros k. set (z := (Z.of_nat hi + 1 - Z.of_nat lo + Z.of_nat m - 1)%Z).
    pose proof (Z.div_mod z (Z.of_nat m) ltac:(lia)) as D.
    pose proof (Z.mod_pos_bound z (Z.of_nat m) ltac:(lia)) as B.
    set (q := (z / Z.of_nat m)%Z) in *.
    assert (Hq : (-1 < q)%Z \/ (q <= -1)%Z) by lia.
    split; intros H.
    + assert ((Z.of_nat k + 1 <= q)%Z) by lia. unfold z in *. nia.
    + assert ((Z.of_nat k < q)%Z); [|lia]. unfold z in *. nia.
Qed.

Lemma length_frequency_vector n df : List.length (frequency_vector n df) = n.
Proof. unfold frequency_vector, range. now rewrite map_length, seq_length. Qed.
Lemma nth_frequency_vector n df i : i < n -> nth i (frequency_vector n df) 0%Qc = (QcN i * df)%Qc.
Proof. intros. unfold frequency_vector, range. rewrite nth_map_seq by auto. reflexivity. Qed.

Lemma argmin_point n df f i :
  argmin (map (fun u => Qcabs (u - f)%Qc) (frequency_vector n df)) = Ok i <-> nearest_point n df f i.
Proof.
  assert (L : List.length (map (fun u => Qcabs (u - f)%Qc) (frequency_vector n df)) = n)
    by (rewrite map_length; apply length_frequency_vector).
  assert (N : forall k, k < n -> nth k (map (fun u => Qcabs (u - f)%Qc) (frequency_vector n df)) 0%Qc
                                 = Qcabs (QcN k * df - f)%Qc).
  { intros k Hk. rewrite (nth_map_lt _ _ _ _ 0%Qc) by now rewrite length_frequency_vector.
    now rewrite nth_frequency_vector. }
  split.
  - intros H. apply argmin_spec in H. rewrite L in H. destruct H as (A & B & C).
    split; [auto|split].
    + intros k Hk. specialize (B k Hk). now rewrite !N in B by auto.
    + intros k Hk. specialize (C k Hk). rewrite !N in C by lia. auto.
  - intros (A & B & C). apply argmin_unique; rewrite ?L; auto.
    + intros k Hk. rewrite !N by auto. auto.
    + intros k Hk. rewrite !N by lia. auto.
Qed.

Lemma nearest_exists n df f : 0 < n -> exists i, nearest_point n df f i.
Proof.
  intros H. destruct (argmin_ok (map (fun u => Qcabs (u - f)%Qc) (frequency_vector n df))) as [i E].
  - intros E. apply (f_equal (@List.length Qc)) in E. rewrite map_length, length_frequency_vector in E. simpl in E. lia.
  - exists i. now apply argmin_point.
Qed.

(** the kept indices and the kept frequencies *)
Lemma keep_ids_spec n df fl fh m : 0 < n -> 0 < m ->
  exists lo hi c,
    nearest_point n df fl lo /\ nearest_point n df fh hi /\
    (forall k, k < c <-> lo + k * m <= hi) /\
    frequency_keep_ids (frequency_vector n df) fl fh (Z.of_nat m)
      = Ok (map Z.of_nat (map (fun k => lo + k * m) (seq 0 c))).
Proof.
  intros Hn Hm. destruct (nearest_exists n df fl Hn) as [lo L], (nearest_exists n df fh Hn) as [hi H].
  destruct (pyrange_pos lo hi m Hm) as (c & E & C).
  exists lo, hi, c. repeat (split; [assumption|]). unfold frequency_keep_ids.
  rewrite (proj2 (argmin_point _ _ _ _) L), (proj2 (argmin_point _ _ _ _) H). cbn [bind]. exact E.
Qed.
Lemma nearest_lt n df f i : nearest_point n df f i -> i < n.
Proof. now intros (A & _). Qed.
Lemma kept_frequencies n df fl fh m : 0 < n -> 0 < m ->
  exists ids fs, frequency_keep_ids (frequency_vector n df) fl fh (Z.of_nat m) = Ok (map Z.of_nat ids) /\
    take (frequency_vector n df) (map Z.of_nat ids) = Ok fs /\
    (forall i, In i ids -> i < n) /\
    fs = map (fun i => QcN i * df)%Qc ids /\
    every_mth n df fl fh m fs.
Proof.
  intros Hn Hm. destruct (keep_ids_spec n df fl fh m Hn Hm) as (lo & hi & c & L & H & C & E).
  set (ids := map (fun k => lo + k * m) (seq 0 c)) in *.
  assert (R : forall i, In i ids -> i < n).
  { intros i Hi. apply in_map_iff in Hi. destruct Hi as (k & <- & Hk). apply in_seq in Hk.
    destruct Hk as [_ Hk]. apply C in Hk. apply nearest_lt in H. lia. }
  assert (F : map (fun i => nth i (frequency_vector n df) 0%Qc) ids = map (fun i => QcN i * df)%Qc ids).
  { apply map_ext_in. intros i Hi. apply nth_frequency_vector. auto. }
  exists ids, (map (fun i => QcN i * df)%Qc ids).
  split; [exact E|split; [|split; [exact R|split; [reflexivity|]]]].
  - rewrite (take_nth _ 0%Qc) by (intros; rewrite length_frequency_vector; auto). now rewrite F.
  - exists lo, hi. split; [exact L|split; [exact H|]]. intros k f.
    unfold ids. rewrite map_map. rewrite <- C.
    split.
    + intros N. assert (Hk : k < c).
      { assert (nth_error (map (fun x => (QcN (lo + x * m) * df)%Qc) (seq 0 c)) k <> None) as X by congruence.
        apply nth_error_Some in X. rewrite map_length, seq_length in X. exact X. }
      split; auto. rewrite (nth_error_nth' _ 0%Qc) in N by (rewrite map_length, seq_length; auto).
      rewrite nth_map_seq in N by auto. injection N as <-. reflexivity.
    + intros [Hk ->]. rewrite (nth_error_nth' _ 0%Qc) by (rewrite map_length, seq_length; auto).
      rewrite nth_map_seq by auto. reflexivity.
Qed.
Lemma keep_ids_empty df fl fh m : frequency_keep_ids (frequency_vector 0 df) fl fh m = Err ValueError.
Proof. reflexivity. Qed.
Lemma keep_ids_zero n df fl fh : 0 < n ->
  frequency_keep_ids (frequency_vector n df) fl fh 0 = Err ValueError.
Proof.
  intros Hn. destruct (nearest_exists n df fl Hn) as [lo L], (nearest_exists n df fh Hn) as [hi H].
  unfold frequency_keep_ids. rewrite (proj2 (argmin_point _ _ _ _) L), (proj2 (argmin_point _ _ _ _) H). reflexivity.
Qed.

Lemma halves x : (x = x / Q2Qc 2 + x / Q2Qc 2)%Qc.
Proof.
  unfold Qcdiv. assert (E : (/ Q2Qc 2 + / Q2Qc 2 = 1)%Qc) by (apply Qc_is_canon; reflexivity).
  rewrite <- Qcmult_plus_distr_r, E. ring.
Qed.
(** the nearest point is within half a step *)
Lemma nearest_half n df f i : (0 < df)%Qc -> (0 <= f)%Qc -> (f <= QcN (n - 1) * df)%Qc ->
  nearest_point n df f i -> (Qcabs (QcN i * df - f) <= df / Q2Qc 2)%Qc.
Proof.
  intros Hdf H0 H1 (A & B & _).
  set (z := Qcfloor (f / df)).
  destruct (Qcfloor_spec (f / df)) as [F1 F2]. fold z in F1, F2.
  assert (Z0 : (0 <= z)%Z).
  { unfold z. rewrite <- (Qcfloor_QcZ 0). apply Qcfloor_mono. rewrite QcZ_0. now apply Qcdiv_nonneg. }
  set (k := Z.to_nat z).
  assert (Ek : QcN k = QcZ z) by (unfold k, QcN; now rewrite Z2Nat.id).
  assert (G1 : (QcN k * df <= f)%Qc).
  { rewrite Ek. replace f with (f / df * df)%Qc by (field; now apply Qcpos_neq0).
    apply Qcmult_le_compat_r; auto. now apply Qclt_le_weak. }
  assert (G2 : (f < (QcN k + 1) * df)%Qc).
  { rewrite Ek. apply Qclt_div; auto. }
  assert (Hk : k < n).
  { apply Nat.lt_nge. intros C. assert (X : (QcN (n - 1) * df < QcN k * df)%Qc).
    { apply Qcmult_lt_compat_r; auto. apply QcN_lt. lia. }
    clear - X G1 H1. qclra. }
  assert (Hh : (df = df / Q2Qc 2 + df / Q2Qc 2)%Qc) by apply halves.
  destruct (Qclt_le_dec (f - QcN k * df) (df / Q2Qc 2)) as [C|C].
  - eapply Qcle_trans; [apply (B k Hk)|]. apply Qcabs_le.
    set (h := (df / Q2Qc 2)%Qc) in *. set (u := (QcN k * df)%Qc) in *. clear - C G1 Hh Hdf. split; qclra.
  - destruct (Nat.eq_dec (S k) n) as [En|En].
    + exfalso. replace (n - 1) with k in H1 by lia.
      set (u := (QcN k * df)%Qc) in *. set (h := (df / Q2Qc 2)%Qc) in *.
      clear - C H1 Hh Hdf. qclra.
    + eapply Qcle_trans; [apply (B (S k) ltac:(lia))|]. rewrite QcN_S. apply Qcabs_le.
      replace ((QcN k + 1) * df)%Qc with (QcN k * df + df)%Qc in * by ring.
      set (u := (QcN k * df)%Qc) in *. set (h := (df / Q2Qc 2)%Qc) in *.
      clear - C G2 Hh Hdf. split; qclra.
Qed.
Lemma every_mth_within n df fl fh m fs : (0 < df)%Qc -> (0 <= fl)%Qc -> (fl <= fh)%Qc ->
  (fh <= QcN (n - 1) * df)%Qc -> every_mth n df fl fh m fs ->
  forall f, In f fs -> (fl - df / Q2Qc 2 <= f /\ f <= fh + df / Q2Qc 2)%Qc.
Proof.
  intros Hdf H0 H1 H2 (lo & hi & L & H & E) f Hf.
  apply In_nth_error in Hf. destruct Hf as [k Hk]. apply E in Hk. destruct Hk as [K ->].
  apply nearest_half in L; auto; [|eapply Qcle_trans; eauto].
  apply nearest_half in H; auto; [|eapply Qcle_trans; eauto].
  apply Qcabs_le in L. apply Qcabs_le in H.
  assert (A : (QcN lo * df <= QcN (lo + k * m) * df)%Qc).
  { apply Qcmult_le_compat_r; [apply QcN_le; lia|now apply Qclt_le_weak]. }
  assert (B : (QcN (lo + k * m) * df <= QcN hi * df)%Qc).
  { apply Qcmult_le_compat_r; [apply QcN_le; lia|now apply Qclt_le_weak]. }
  set (h := (df / Q2Qc 2)%Qc) in *. set (u := (QcN (lo + k * m) * df)%Qc) in *.
  set (v := (QcN lo * df)%Qc) in *. set (w := (QcN hi * df)%Qc) in *.
  clear - L H A B. destruct L, H. split; qclra.
Qed.
Lemma every_mth_step n df fl fh m fs : every_mth n df fl fh m fs ->
  forall k f g, nth_error fs k = Some f -> nth_error fs (S k) = Some g -> g = (f + df * QcZ (Z.of_nat m))%Qc.
Proof.
  intros (lo & hi & _ & _ & E) k f g F G. apply E in F. apply E in G.
  destruct F as [_ ->], G as [_ ->].
  replace (lo + S k * m) with (lo + k * m + m) by lia. rewrite QcN_add. unfold QcN at 2. ring.
Qed.

(** The empty transform. *)
Lemma empty_from_array_spec geom a st s t vs df m :
  sensors a = s :: t -> 0 < nsamples (ser s) -> multiple (ser s) = Z.of_nat m -> 0 < m ->
  internal_df (ser s) = Ok df ->
  create_vector geom (s_vmin st) (s_vmax st) (s_nvel st) (s_vspace st) = Ok vs ->
  exists w, empty_from_array geom a st = Ok w /\ wn w = 0%Z /\ wvel w = vs /\
    every_mth (nsamples (ser s)) df (s_fmin st) (s_fmax st) m (wfrq w) /\
    power w = repeat (repeat f0 (List.length (wfrq w))) (Z.to_nat (s_nvel st)).
Proof.
  intros Hs Hn Em Hm Hdf Hv. unfold empty_from_array. rewrite Hs, Hdf. cbn [bind]. rewrite Em.
  destruct (kept_frequencies (nsamples (ser s)) df (s_fmin st) (s_fmax st) m Hn Hm)
    as (ids & fs & E1 & E2 & _ & Ef & E3).
  rewrite E1. cbn [bind]. rewrite E2. cbn [bind]. rewrite Hv. cbn [bind].
  eexists. split; [reflexivity|]. cbn. split; [reflexivity|split; [reflexivity|split; [exact E3|]]].
  rewrite Ef. now rewrite !map_length.
Qed.

(** * Trial velocities *)
Lemma linspace_spec a b n : 2 <= n ->
  exists l, linspace a b (Z.of_nat n) = Ok l /\ List.length l = n /\
    nth 0 l 0%Qc = a /\ nth (n - 1) l 0%Qc = b /\
    forall i, i < n -> nth i l 0%Qc = (a + QcN i * (b - a) / QcN (n - 1))%Qc.
Proof.
  intros Hn. unfold linspace.
  replace (Z.of_nat n <? 0)%Z with false by (symmetry; apply Z.ltb_ge; lia).
  replace (Z.of_nat n =? 1)%Z with false by (symmetry; apply Z.eqb_neq; lia).
  rewrite Nat2Z.id. eexists. split; [reflexivity|].
  assert (P : (QcN (n - 1) <> 0)%Qc) by (apply Qcpos_neq0, QcN_pos; lia).
  assert (E : QcZ (Z.of_nat n - 1) = QcN (n - 1)) by (unfold QcN; f_equal; lia).
  unfold range. split; [now rewrite map_length, seq_length|].
  assert (N : forall i, i < n ->
     nth i (map (fun i => if i =? n - 1 then b else (QcN i * ((b - a) / QcZ (Z.of_nat n - 1)) + a)%Qc) (seq 0 n)) 0%Qc
     = (a + QcN i * (b - a) / QcN (n - 1))%Qc).
  { intros i Hi. rewrite nth_map_seq by auto. cbn [Nat.add]. rewrite E.
    destruct (Nat.eqb_spec i (n - 1)) as [->|]; field; auto. }
  split; [|split; [|exact N]].
  - rewrite N by lia. rewrite QcN_0. field. auto.
  - rewrite N by lia. field. auto.
Qed.
Lemma linspace_monotone a b n l : 2 <= n -> (a < b)%Qc -> linspace a b (Z.of_nat n) = Ok l ->
  (forall i j, i < j -> j < n -> (nth i l 0 < nth j l 0)%Qc) /\
  (forall x, In x l -> (a <= x /\ x <= b)%Qc).
Proof.
  intros Hn Hab H. destruct (linspace_spec a b n Hn) as (l' & E & L & A & B & N).
  rewrite E in H. injection H as <-.
  assert (P : (0 < QcN (n - 1))%Qc) by (apply QcN_pos; lia).
  assert (M : forall i j, i < j -> j < n -> (nth i l' 0 < nth j l' 0)%Qc).
  { intros i j Hij Hj. rewrite !N by lia.
    assert (X : (QcN i * (b - a) / QcN (n - 1) < QcN j * (b - a) / QcN (n - 1))%Qc).
    { apply Qcmult_lt_compat_r; [now apply Qcinv_pos|]. apply Qcmult_lt_compat_r.
      - clear - Hab. qclra.
      - now apply QcN_lt. }
    set (u := (QcN i * (b - a) / QcN (n - 1))%Qc) in *. set (v := (QcN j * (b - a) / QcN (n - 1))%Qc) in *.
    clear - X. qclra. }
  split; [exact M|]. intros x Hx. apply (In_nth _ _ 0%Qc) in Hx. destruct Hx as (i & Hi & <-). rewrite L in Hi.
  split.
  - rewrite <- A. destruct (Nat.eq_dec i 0) as [->|]; [apply Qcle_refl|]. apply Qclt_le_weak, M; lia.
  - rewrite <- B. destruct (Nat.eq_dec i (n - 1)) as [->|]; [apply Qcle_refl|]. apply Qclt_le_weak, M; lia.
Qed.
