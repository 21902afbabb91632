(* Proofs about the slant stack and the signal-to-noise ratio. *)
From Verif Require Import TransformModel TransformSpec PyFacts NumFacts SeriesProofs ArrayMatrixProofs TransformProofs.
Local Open Scope nat_scope.
Local Open Scope list_scope.

Lemma map2_same {A B C D} (f : B -> C -> D) (g : A -> B) (h : A -> C) l :
  map2 f (map g l) (map h l) = map (fun x => f (g x) (h x)) l.
Proof. induction l; cbn; congruence. Qed.
Lemma combine_same {A B C} (g : A -> B) (h : A -> C) l :
  combine (map g l) (map h l) = map (fun x => (g x, h x)) l.
Proof. induction l; cbn; congruence. Qed.
Lemma as_map {A} (d : A) l : l = map (fun k => nth k l d) (seq 0 (List.length l)).
Proof.
  apply (nth_ext_len d); [now rewrite map_length, seq_length|].
  intros i Hi. rewrite nth_map_seq by auto. reflexivity.
Qed.
Lemma mapM_map_total {A B C} (f : B -> result C) (g : A -> B) (h : A -> C) l :
  (forall a, In a l -> f (g a) = Ok (h a)) -> mapM f (map g l) = Ok (map h l).
Proof.
  intros H. induction l as [|a l IH]; cbn [map mapM]; auto.
  rewrite H by now left. cbn [bind]. rewrite IH by (intros; apply H; now right). reflexivity.
Qed.
Lemma diffs_map X : forall n a, diffs (map X (seq a n)) = map (fun k => (X (S k) - X k)%Qc) (seq a (n - 1)).
Proof.
  induction n as [|n IH]; intros a; [reflexivity|].
  destruct n as [|n]; [reflexivity|].
  change (diffs (map X (seq a (S (S n))))) with ((X (S a) - X a)%Qc :: diffs (map X (seq (S a) (S n)))).
  rewrite IH. replace (S (S n) - 1) with (S (S n - 1)) by lia. reflexivity.
Qed.
Lemma combine_tl {A} (f : nat -> A) n : combine (tl (map f (seq 0 n))) (map f (seq 0 n))
  = map (fun k => (f (S k), f k)) (seq 0 (n - 1)).
Proof.
  destruct n as [|n]; [reflexivity|]. cbn [seq map tl]. replace (S n - 1) with n by lia.
  rewrite <- seq_shift, map_map.
  change (f 0 :: map (fun x => f (S x)) (seq 0 n)) with (map f (0 :: map S (seq 0 n))) at 1 || idtac.
  generalize 0 as a. induction n as [|n IH]; intros a; [reflexivity|].
  cbn [seq map combine]. f_equal. apply IH.
Qed.
Lemma trunc_floor x : (0 <= x)%Qc -> trunc x = Qcfloor x.
Proof. intros H. unfold trunc. destruct (Qcltb_spec x 0) as [C|C]; auto. exfalso. exact (Qclt_not_le _ _ C H). Qed.
Lemma Qcfloor_nonneg x : (0 <= x)%Qc -> (0 <= Qcfloor x)%Z.
Proof. intros H. rewrite <- (Qcfloor_QcZ 0). apply Qcfloor_mono. now rewrite QcZ_0. Qed.

Section Slant.
  Variables (n nt npts : nat) (R : nat -> list Qc) (X : nat -> Qc).
  Hypothesis HR : forall k, k < n -> List.length (R k) = npts.
  Variable dt : Qc.
  Hypothesis Hdt : (0 < dt)%Qc.
  Hypothesis HX : forall k, k < n -> (0 <= X k)%Qc.
  Local Notation P := (fun k => X k / dt)%Qc.
  Definition low (v : Qc) (k : nat) : Z := Qcfloor (X k / dt / v)%Qc.
  Definition line (v : Qc) (k t : nat) : Qc :=
    let i := t + Z.to_nat (low v k) in let d := (X k / dt / v - QcZ (low v k))%Qc in
    (nth i (R k) 0 * (1 - d) + nth (i + 1) (R k) 0 * d)%Qc.
  Definition fits (v : Qc) : Prop :=
    (0 < v)%Qc /\ forall k, k < n -> (low v k + Z.of_nat nt <= Z.of_nat npts - 1)%Z.

  Lemma low_nonneg v k : (0 < v)%Qc -> k < n -> (0 <= low v k)%Z.
  Proof. intros. apply Qcfloor_nonneg. apply Qcdiv_nonneg; auto. apply Qcdiv_nonneg; auto. Qed.

  Lemma interpolate_ok v k : fits v -> k < n ->
    interpolate (R k) (X k / dt / v - QcZ (low v k))%Qc (map (fun t => (Z.of_nat t + low v k)%Z) (seq 0 nt))
    = Ok (map (line v k) (seq 0 nt)).
  Proof.
    intros [Hv F] Hk. unfold interpolate. apply mapM_map_total. intros t Ht. apply in_seq in Ht.
    specialize (F k Hk). pose proof (low_nonneg v k Hv Hk) as L0.
    assert (E : (Z.of_nat t + low v k)%Z = Z.of_nat (t + Z.to_nat (low v k))) by lia.
    assert (E1 : (Z.of_nat t + low v k + 1)%Z = Z.of_nat (t + Z.to_nat (low v k) + 1)) by lia.
    rewrite E1, E.
    rewrite (pyget_nth _ _ _ (nth_error_nth' (R k) 0%Qc (n := t + Z.to_nat (low v k)) ltac:(rewrite HR by auto; lia))).
    cbn [bind].
    rewrite (pyget_nth _ _ _ (nth_error_nth' (R k) 0%Qc (n := t + Z.to_nat (low v k) + 1) ltac:(rewrite HR by auto; lia))).
    reflexivity.
  Qed.

  Definition stacked (v : Qc) (t : nat) : Qc :=
    Qcsum (map (fun k => Q2Qc (1 # 2) * (X (S k) - X k) * (line v (S k) t + line v k t))%Qc (seq 0 (n - 1))).
  Definition cols_of (L : nat -> Z) : list (list Z) :=
    map (fun k => map (fun t => (Z.of_nat t + L k)%Z) (seq 0 nt)) (seq 0 n).

  Lemma slant_step_ok v L : fits v ->
    slant_step (map R (seq 0 n)) (map (fun k => (X (S k) - X k)%Qc) (seq 0 (n - 1))) (map P (seq 0 n)) nt
      (cols_of L) (map L (seq 0 n)) v
    = Ok (cols_of (low v), map (low v) (seq 0 n), map (stacked v) (seq 0 nt)).
  Proof.
    intros F. unfold slant_step. cbv zeta. rewrite !map_map.
    assert (El : map (fun x => trunc (X x / dt / v)%Qc) (seq 0 n) = map (low v) (seq 0 n)).
    { apply map_ext_in. intros k Hk. apply in_seq in Hk. apply trunc_floor. destruct F as [Hv _].
      apply Qcdiv_nonneg; auto. apply Qcdiv_nonneg; auto. apply HX. lia. }
    rewrite El, !map2_same. change (cols_of L) with (map (fun k => map (fun t => (Z.of_nat t + L k)%Z) (seq 0 nt)) (seq 0 n)). rewrite !map2_same.
    assert (Ec : map (fun x => map (fun c => (c + (low v x - L x))%Z) (map (fun t => (Z.of_nat t + L x)%Z) (seq 0 nt))) (seq 0 n)
                 = cols_of (low v)).
    { unfold cols_of. apply map_ext. intros k. rewrite map_map. apply map_ext. intros; lia. }
    rewrite Ec. unfold cols_of at 1. rewrite !combine_same.
    rewrite (mapM_map_total _ _ (fun k => map (line v k) (seq 0 nt))).
    2:{ intros k Hk. apply in_seq in Hk. cbn [fst snd]. apply interpolate_ok; auto. lia. }
    cbn [bind]. cbv zeta. rewrite combine_tl, map2_same. do 2 f_equal. unfold range. apply map_ext_in. intros t Ht.
    apply in_seq in Ht. unfold stacked. f_equal. rewrite map_map. apply map_ext. intros k. cbn [fst snd].
    rewrite map2_same, nth_map_seq by lia. reflexivity.
  Qed.
  Lemma slant_loop_ok vels : (forall v, In v vels -> fits v) -> forall L,
    slant_loop (map R (seq 0 n)) (map (fun k => (X (S k) - X k)%Qc) (seq 0 (n - 1))) (map P (seq 0 n)) nt
      (cols_of L) (map L (seq 0 n)) vels
    = Ok (map (fun v => map (stacked v) (seq 0 nt)) vels).
  Proof.
    induction vels as [|v vels IH]; intros F L; [reflexivity|]. cbn [slant_loop map].
    rewrite slant_step_ok by (apply F; now left). cbn [bind]. rewrite IH by (intros; apply F; now right). reflexivity.
  Qed.
  Lemma line_interpolated v k t : fits v -> k < n -> t < nt ->
    interpolated (R k) ((QcN t * dt + X k / v) / dt)%Qc (line v k t).
  Proof.
    intros [Hv F] Hk Ht. pose proof (low_nonneg v k Hv Hk) as L0. specialize (F k Hk).
    exists (t + Z.to_nat (low v k)). split; [rewrite HR by auto; lia|].
    assert (E : ((QcN t * dt + X k / v) / dt = QcN t + X k / dt / v)%Qc)
      by (field; split; now apply Qcpos_neq0).
    assert (El : QcN (Z.to_nat (low v k)) = QcZ (low v k)) by (unfold QcN; now rewrite Z2Nat.id).
    destruct (Qcfloor_spec (X k / dt / v)) as [F1 F2]. fold (low v k) in F1, F2.
    rewrite E, QcN_add, El. unfold line. set (x := (X k / dt / v)%Qc) in *.
    split; [clear - F1; qclra|split; [clear - F2; qclra|]]. ring.
  Qed.
End Slant.

Lemma slant_stack_of_spec tm xs x0 dt vels d npts :
  rect (List.length xs) npts tm -> least xs x0 -> (0 < dt)%Qc -> vels <> [] ->
  (forall v, In v vels -> (0 < v)%Qc) -> greatest_delay xs x0 dt vels d ->
  (Z.of_nat npts - 1 < Qcfloor d)%Z /\ slant_stack_of tm xs dt vels = Err ValueError \/
  (Qcfloor d <= Z.of_nat npts - 1)%Z /\
  exists out, slant_stack_of tm xs dt vels = Ok out /\
    rect (List.length vels) (Z.to_nat (Z.of_nat npts - 1 - Qcfloor d)) out /\
    forall i t, i < List.length vels -> (Z.of_nat t < Z.of_nat npts - 1 - Qcfloor d)%Z ->
      slanted_sum tm xs x0 dt (nth i vels 0%Qc) (QcN t * dt) (entry out i t).
Proof.
  intros [Lt Ct] Lx Hdt Hvn Hv G.
  set (n := List.length xs) in *.
  assert (Hn : 0 < n). { destruct Lx as [I _]. unfold n. destruct xs; [destruct I|simpl; lia]. }
  set (X := fun k => (nth k xs 0 - x0)%Qc).
  assert (Em : qmin xs = Ok x0).
  { destruct xs as [|a xs']; [destruct Lx as [[] _]|]. cbn [qmin]. f_equal.
    destruct (lmin_spec xs' a) as (A & B & C). destruct Lx as [I M].
    apply Qcle_antisym.
    - destruct I as [->|I]; auto.
    - apply M. destruct C as [C|C]; [rewrite C; now left|now right]. }
  assert (Epos : map (fun x => (x - x0)%Qc) xs = map X (seq 0 n)).
  { rewrite (as_map 0%Qc xs) at 1. rewrite map_map. reflexivity. }
  assert (HX : forall k, k < n -> (0 <= X k)%Qc).
  { intros k Hk. unfold X. destruct Lx as [_ M]. specialize (M (nth k xs 0%Qc) (nth_In _ _ Hk)). clear - M. qclra. }
  unfold slant_stack_of. rewrite Em. cbn [bind]. rewrite Epos.
  replace (existsb (fun v => Qceqb v 0%Qc) vels || Qceqb dt 0%Qc) with false.
  2:{ symmetry. apply orb_false_iff. split.
      - destruct (existsb _ vels) eqn:E; auto. apply existsb_exists in E. destruct E as (v & I & E).
        apply Qceqb_eq in E. subst v. exfalso. exact (Qcpos_neq0 _ (Hv _ I) eq_refl).
      - destruct (Qceqb_spec dt 0) as [E|E]; auto. exfalso. exact (Qcpos_neq0 _ Hdt E). }
  (* the greatest distance and slowness *)
  assert (Hq : forall l, l <> [] -> exists g, qmax l = Ok g /\ greatest l g).
  { intros l Hl. destruct l as [|a l]; [congruence|]. cbn [qmax]. eexists; split; [reflexivity|].
    destruct (lmax_spec l a) as (A & B & C). split.
    - destruct C as [C|C]; [rewrite C; now left|now right].
    - intros y [<-|I]; auto. }
  destruct (Hq (map X (seq 0 n))) as (far & Ef & [If Mf]); [destruct n; [lia|discriminate]|].
  destruct (Hq (map (fun v => (1 / v)%Qc) vels)) as (slow & Es & [Is Ms]); [destruct vels; [congruence|discriminate]|].
  rewrite Ef, Es. cbn [bind].
  assert (Ed : (far * slow / dt)%Qc = d).
  { destruct G as [G1 (x & v & Ix & Iv & Gd)].
    apply in_map_iff in If. destruct If as (k & Ek & Ik). apply in_seq in Ik.
    apply in_map_iff in Is. destruct Is as (v' & Ev & Iv').
    apply Qcle_antisym.
    - assert (E : (far * slow / dt = (nth k xs 0 - x0) / v' / dt)%Qc).
      { rewrite <- Ek, <- Ev. unfold X. field. split; apply Qcpos_neq0; auto. }
      rewrite E. apply G1; auto. apply nth_In. fold n. lia.
    - rewrite Gd. apply Qcmult_le_compat_r; [|apply Qclt_le_weak, Qcinv_pos; auto].
      assert (Sl : (1 / v <= slow)%Qc) by (apply Ms, in_map_iff; eauto).
      assert (Fa : (x - x0 <= far)%Qc).
      { apply Mf. rewrite <- Epos. apply in_map_iff. eauto. }
      assert (S0 : (0 <= 1 / v)%Qc) by (apply Qclt_le_weak, Qcdiv_pos; auto; reflexivity).
      assert (F0 : (0 <= far)%Qc) by (rewrite <- Ek; apply HX; lia).
      replace ((x - x0) / v)%Qc with ((x - x0) * (1 / v))%Qc by (field; apply Qcpos_neq0; auto).
      eapply Qcle_trans; [apply Qcmult_le_compat_r; eauto|].
      rewrite (Qcmult_comm far (1 / v)), (Qcmult_comm far slow). now apply Qcmult_le_compat_r. }
  rewrite Ed.
  assert (D0 : (0 <= d)%Qc).
  { destruct G as [_ (x & v & Ix & Iv & ->)]. apply Qcdiv_nonneg; auto. apply Qcdiv_nonneg; auto.
    destruct Lx as [_ M]. specialize (M x Ix). clear - M. qclra. }
  rewrite trunc_floor by auto.
  assert (Enp : List.length (nth 0 tm []) = npts) by (apply Ct, nth_In; lia).
  rewrite Enp.
  destruct (Z.ltb_spec (Z.of_nat npts - Qcfloor d - 1) 0) as [C|C].
  - left. split; [lia|reflexivity].
  - right. split; [lia|]. cbv zeta.
    replace (Z.of_nat npts - Qcfloor d - 1)%Z with (Z.of_nat npts - 1 - Qcfloor d)%Z in * by lia.
    set (nt := Z.to_nat (Z.of_nat npts - 1 - Qcfloor d)) in *.
    assert (Hfit : forall v, In v vels -> fits n nt npts X dt v).
    { intros v Iv. split; [auto|]. intros k Hk. unfold low.
      assert (Q : (Qcfloor (X k / dt / v) <= Qcfloor d)%Z).
      { apply Qcfloor_mono. destruct G as [G1 _].
        replace (X k / dt / v)%Qc with ((nth k xs 0 - x0) / v / dt)%Qc
          by (unfold X; field; split; apply Qcpos_neq0; auto).
        apply G1; auto. now apply nth_In. }
      unfold nt. lia. }
    pose proof (as_map [] tm) as Etm. rewrite Lt in Etm. fold n in Etm.
    set (R := fun k => nth k tm []) in *.
    assert (HR : forall k, k < n -> List.length (R k) = npts).
    { intros k Hk. apply Ct, nth_In. lia. }
    pose proof (slant_loop_ok n nt npts R X HR dt Hdt HX vels Hfit (fun _ => 0%Z)) as E.
    unfold cols_of in E. rewrite diffs_map, !map_map.
    assert (Ecol : map (fun x => map Z.of_nat (range nt)) (seq 0 n)
            = map (fun k => map (fun t => (Z.of_nat t + 0)%Z) (seq 0 nt)) (seq 0 n)).
    { apply map_ext. intros. unfold range. apply map_ext. intros. lia. }
    rewrite Ecol. rewrite <- Etm in E. eexists. split; [exact E|]. split.
    + split; [apply map_length|]. intros r I. apply in_map_iff in I. destruct I as (v & <- & _).
      now rewrite map_length, seq_length.
    + intros i t Hi Ht.
      assert (Iv : In (nth i vels 0%Qc) vels) by now apply nth_In.
      unfold entry. rewrite (nth_map_lt _ _ _ _ 0%Qc) by auto. rewrite nth_map_seq by (unfold nt; lia).
      cbn [Nat.add]. set (v := nth i vels 0%Qc) in *.
      exists (fun k => line R X dt v k t). split.
      * intros k Hk. apply (line_interpolated n nt npts R X HR dt Hdt HX v k t); auto. unfold nt; lia.
      * unfold stacked. f_equal. apply map_ext. intros k. rewrite Nat.add_1_r. unfold X.
        set (a := line R (fun k => (nth k xs 0 - x0)%Qc) dt v (S k) t).
        set (b := line R (fun k => (nth k xs 0 - x0)%Qc) dt v k t).
        replace (Q2Qc (1 # 2)) with (/ Q2Qc 2)%Qc by (apply Qc_is_canon; reflexivity).
        field. discriminate.
Qed.
Lemma slant_zero_velocity tm xs dt vels x0 : least xs x0 -> In 0%Qc vels ->
  slant_stack_of tm xs dt vels = Err OverflowError.
Proof.
  intros [I _] H. unfold slant_stack_of. destruct xs as [|a xs]; [destruct I|]. cbn [qmin bind].
  replace (existsb (fun v => Qceqb v 0%Qc) vels) with true; [reflexivity|].
  symmetry. apply existsb_exists. exists 0%Qc. split; auto.
Qed.

(** * Signal-to-noise ratio *)
Lemma mean_spectrum_spec sp m ids : (forall r i, In r m -> In i ids -> i < List.length (sp r)) ->
  mean_spectrum sp m (map Z.of_nat ids) = Ok (map (mean_bin sp m) ids).
Proof.
  intros H. unfold mean_spectrum.
  assert (E : mapM (fun r => take (sp r) (map Z.of_nat ids)) m
              = Ok (map (fun r => map (fun i => nth i (sp r) 0%Qc) ids) m)).
  { induction m as [|r m IH]; [reflexivity|]. cbn [mapM map].
    rewrite (take_nth _ 0%Qc) by (intros; apply H; auto; now left). cbn [bind].
    rewrite IH by (intros; apply H; auto; now right). reflexivity. }
  rewrite E. cbn [bind]. f_equal. rewrite !map_length. unfold range.
  apply (nth_ext_len 0%Qc); [now rewrite !map_length, seq_length|].
  intros j Hj. rewrite map_length, seq_length in Hj. rewrite nth_map_seq by auto.
  rewrite (nth_map_lt _ _ _ _ 0) by auto. cbn [Nat.add]. unfold mean_bin. f_equal. f_equal.
  rewrite map_map. apply map_ext. intros r. now rewrite (nth_map_lt _ _ _ _ 0).
Qed.
Lemma snr_core_spec sp sg no fl fh s ss n ns df m :
  sensors sg = s :: ss -> sensors no = n :: ns ->
  nsamples (ser n) = nsamples (ser s) -> internal_df (ser n) = Ok df ->
  multiple (ser n) = Z.of_nat m -> 0 < m -> 0 < nsamples (ser n) ->
  (forall r, In r (rows_of sg) \/ In r (rows_of no) -> List.length (sp r) = nsamples (ser n)) ->
  exists fs vals, snr_core sp sg no fl fh = Ok (fs, vals) /\
    every_mth (nsamples (ser n)) (df * QcZ (Z.of_nat m)) fl fh m fs /\
    List.length vals = List.length fs /\
    forall k f, nth_error fs k = Some f -> exists i, i < nsamples (ser n) /\
      f = (QcN i * (df * QcZ (Z.of_nat m)))%Qc /\
      nth_error vals k = Some (fdiv (Fin (mean_bin sp (rows_of sg) i)) (Fin (mean_bin sp (rows_of no) i))).
Proof.
  intros Hs Hn Hl Hdf Hm Hm0 Hp Hsp. unfold snr_core. rewrite Hs, Hn, Hl, Nat.eqb_refl. cbn [negb].
  unfold user_df. rewrite Hdf, Hm. cbn [bind]. rewrite Hl in *.
  destruct (kept_frequencies (nsamples (ser s)) (df * QcZ (Z.of_nat m)) fl fh m Hp Hm0)
    as (ids & fs & E1 & E2 & R & Ef & E3).
  rewrite E1. cbn [bind]. rewrite E2. cbn [bind].
  rewrite !mean_spectrum_spec by (intros r i Hr Hi; rewrite Hsp; auto). cbn [bind].
  eexists; eexists; split; [reflexivity|]. split; [exact E3|]. rewrite map2_same. split.
  - rewrite Ef. now rewrite !map_length.
  - intros k f Hf. rewrite Ef, nth_error_map in Hf. destruct (nth_error ids k) as [i|] eqn:Ei; [|discriminate].
    cbn in Hf. injection Hf as <-. exists i. split; [apply R; eapply nth_error_In; eauto|]. split; [reflexivity|].
    rewrite nth_error_map, Ei. reflexivity.
Qed.
Lemma snr_unequal sp sg no fl fh s ss n ns :
  sensors sg = s :: ss -> sensors no = n :: ns -> nsamples (ser n) <> nsamples (ser s) ->
  snr_from_arrays sp sg no fl fh false None = ((sg, no), Err IndexError).
Proof.
  intros Hs Hn Hl. unfold snr_from_arrays, snr_core. rewrite Hs, Hn.
  destruct (Nat.eqb_spec (nsamples (ser n)) (nsamples (ser s))); [contradiction|reflexivity].
Qed.
