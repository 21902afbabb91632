(* Property theorems about the slant-stack spectrum (C29, C80) and the resolution wavenumber (C85). *)
From Verif Require Import BeamProofs BeamArrayProofs SpectrumModel SpectrumSpec SpectrumProofs BeamSpec PyFacts NumFacts TransformSpec TransformProps ArraySpec.
From Coq Require Import Lra Lia Sorted Permutation.
Local Open Scope R_scope.
Local Open Scope list_scope.

(** ** C29: a wave travelling along the array adds up at its own velocity *)
Theorem C29_travelling : forall a s rest x0 xf vels d w v i,
  consistent a -> outside a -> sensors a = s :: rest -> (0 < dt (ser s))%Qc ->
  (forall v, In v vels -> (0 < v)%Qc) ->
  least (map (dist a) (sensors a)) x0 -> greatest (map (dist a) (sensors a)) xf ->
  greatest_delay (map (dist a) (sensors a)) x0 (dt (ser s)) vels d ->
  (Qcfloor d <= Z.of_nat (nsamples (ser s)) - 1)%Z ->
  same_wave a w v -> nth_error vels i = Some v ->
  exists near out, In near (sensors a) /\ dist a near = x0 /\ slant_stack a vels = Ok out /\
    forall t, (Z.of_nat t < Z.of_nat (nsamples (ser s)) - 1 - Qcfloor d)%Z ->
      entry out i t = ((xf - x0) * nth t (amp (ser near)) 0)%Qc.
Proof. exact slant_same_wave. Qed.
Print Assumptions C29_travelling.

(** ** C80: the slant-stack spectrum *)
(** The reported frequencies are those of the records; the value for velocity [v] and frequency
    [f] is the Fourier sum at [f] of the slanted sums for [v]. *)
Theorem C80_spectrum : forall a s rest x0 vels d fl fh n df m,
  consistent a -> sensors a = s :: rest -> outside a ->
  (0 < dt (ser s))%Qc -> vels <> [] -> (forall v, In v vels -> (0 < v)%Qc) ->
  least (map (dist a) (sensors a)) x0 ->
  greatest_delay (map (dist a) (sensors a)) x0 (dt (ser s)) vels d ->
  (Qcfloor d <= Z.of_nat (nsamples (ser s)) - 1)%Z -> grid a n df m ->
  exists order fs pw T, Permutation order (sensors a) /\ Z.of_nat T = (Z.of_nat n - 1 - Qcfloor d)%Z /\
    slant_transform a vels fl fh = Ok (fs, pw) /\ every_mth n df fl fh m fs /\
    rect (List.length vels) (List.length fs) pw /\
    forall i j v f, nth_error vels i = Some v -> nth_error fs j = Some f -> exists p,
      entry_at pw i j = Some (fourier T p (dt (ser s)) (toR f)) /\
      forall t, (t < T)%nat ->
        slanted_sum (map (fun s => amp (ser s)) order) (map (dist a) order) x0 (dt (ser s)) v
          (QcN t * dt (ser s)) (p t).
Proof.
  intros a s rest x0 vels d fl fh n df m Hc Hs Ho Hdt Hn Hv Lx G Hd Gr.
  destruct (C29_array a s rest x0 vels d Hc Hs Ho Hdt Hn Hv Lx G Hd) as (order & out & P & _ & E & R & H).
  assert (En : nsamples (ser s) = n) by (destruct Gr as (s' & r' & Hs' & Q & _); rewrite Hs in Hs'; injection Hs' as <- <-; exact Q).
  rewrite En in *.
  assert (D0 : (0 <= Qcfloor d)%Z).
  { destruct Lx as [I _]. destruct vels as [|v0 vr]; [congruence|]. pose proof (proj1 G x0 v0 I (or_introl eq_refl)) as D.
    replace ((x0 - x0) / v0 / dt (ser s))%Qc with 0%Qc in D by (unfold Qcdiv; ring).
    change 0%Z with (Qcfloor 0). apply Qcfloor_mono. exact D. }
  destruct (slant_transform_spec a s rest vels fl fh n df m out _ Gr Hs E R ltac:(lia)) as (fs & pw & E' & M & R' & H').
  exists order, fs, pw, (Z.to_nat (Z.of_nat n - 1 - Qcfloor d)).
  split; [exact P|]. split; [lia|]. split; [exact E'|]. split; [exact M|]. split; [exact R'|].
  intros i j v f Hi Hj. assert (Li : (i < List.length vels)%nat) by (apply nth_error_Some; congruence).
  exists (fun t => entry out i t). split; [now apply H'|]. intros t Ht.
  specialize (H i t Li ltac:(lia)). rewrite (nth_error_nth _ _ _ Hi) in H. exact H.
Qed.
Print Assumptions C80_spectrum.
(** Whatever stops the slant stack stops the transform, before any frequency is looked at. *)
Theorem C80_errors : forall a vels fl fh e, sensors a <> [] -> slant_stack a vels = Err e ->
  slant_transform a vels fl fh = Err e.
Proof.
  intros a vels fl fh e N E. unfold slant_transform. destruct (sensors a); [congruence|]. rewrite E. reflexivity.
Qed.
Print Assumptions C80_errors.
Theorem C80_no_sensors : forall src vels fl fh, slant_transform (mkArray [] src) vels fl fh = Err IndexError.
Proof. reflexivity. Qed.
Print Assumptions C80_no_sensors.

Local Definition z (n : Z) : Qc := QcZ n.
Local Definition wavelet : list Qc := [z 1; z 2; z 0; z 0; z 0; z 0; z 0; z 0].
Local Definition sen (x : Z) (d : nat) : sensor := mkSensor (mkSeries (delayed d wavelet) 1 1 0 1) (z x) 0 0.
Local Definition a80 : array := mkArray [sen 1 1; sen 2 2; sen 3 3] (mkSource (z 0) 0 0).
Lemma a80_facts : consistent a80 /\ outside a80 /\ grid a80 8 (Q2Qc (1 # 8)) 1 /\ same_wave a80 wavelet (z 1) /\
  least (map (dist a80) (sensors a80)) (z 1) /\ greatest (map (dist a80) (sensors a80)) (z 3) /\
  greatest_delay (map (dist a80) (sensors a80)) (z 1) 1 [z 1; z 2] (z 2).
Proof.
  assert (D : map (dist a80) (sensors a80) = [z 1; z 2; z 3]) by (cbn [map sensors a80]; repeat f_equal; apply Qceqb_eq; vm_compute; reflexivity).
  rewrite D. split; [|split; [|split; [|split; [|split; [|split]]]]].
  - split; [discriminate|]. split.
    + cbn. repeat constructor.
    + intros s t Hs Ht. cbn in Hs, Ht. unfold agree. intuition (subst; vm_compute; auto).
  - left. cbn. apply Qclt_le_weak. reflexivity.
  - exists (sen 1 1), [sen 2 2; sen 3 3]. split; [reflexivity|]. split; [reflexivity|]. split; [lia|].
    split; [|split; [reflexivity|lia]]. unfold internal_df.
    replace (Qceqb _ 0) with false by (vm_compute; reflexivity). f_equal.
  - intros s Hs. cbn in Hs. destruct Hs as [<-|[<-|[<-|[]]]]; [exists 1%nat|exists 2%nat|exists 3%nat];
      (split; [cbn; lia|]; split; [reflexivity|]; apply Qceqb_eq; vm_compute; reflexivity).
  - split; [now left|]. intros y [<-|[<-|[<-|[]]]]; intros Q; vm_compute in Q; discriminate.
  - split; [now right; right; left|]. intros y [<-|[<-|[<-|[]]]]; intros Q; vm_compute in Q; discriminate.
  - split.
    + intros x v [<-|[<-|[<-|[]]]] [<-|[<-|[]]]; intros Q; vm_compute in Q; discriminate.
    + exists (z 3), (z 1). split; [now right; right; left|]. split; [now left|]. apply Qceqb_eq. vm_compute. reflexivity.
Qed.
Example C29_travelling_example : exists near out, In near (sensors a80) /\ dist a80 near = z 1 /\
  slant_stack a80 [z 1; z 2] = Ok out /\ (entry out 0 1 = z 2 /\ entry out 0 2 = z 4 /\ entry out 0 3 = 0)%Qc.
Proof.
  destruct a80_facts as (C & O & G & W & L & M & D).
  destruct (C29_travelling a80 (sen 1 1) [sen 2 2; sen 3 3] (z 1) (z 3) [z 1; z 2] (z 2) wavelet (z 1) 0 C O eq_refl) as (near & out & I & En & E & H); auto.
  - reflexivity.
  - intros v [<-|[<-|[]]]; reflexivity.
  - vm_compute. discriminate.
  - exists near, out. do 3 (split; auto).
    assert (near = sen 1 1) as ->.
    { destruct I as [<-|[<-|[<-|[]]]]; [reflexivity| |]; exfalso; apply Qceqb_eq in En; revert En; vm_compute; discriminate. }
    rewrite !H by (vm_compute; reflexivity). repeat split; apply Qceqb_eq; vm_compute; reflexivity.
Qed.
Example C80_example : exists fs pw, slant_transform a80 [z 1; z 2] 0 1 = Ok (fs, pw) /\ nth_error fs 0 = Some 0%Qc.
Proof.
  destruct a80_facts as (C & O & G & W & L & M & D).
  destruct (C80_spectrum a80 (sen 1 1) [sen 2 2; sen 3 3] (z 1) [z 1; z 2] (z 2) 0%Qc 1%Qc 8 (Q2Qc (1 # 8)) 1 C eq_refl O) as (o & fs & pw & T & _ & _ & E & (lo & hi & Lo & Hi & F) & _).
  - reflexivity.
  - discriminate.
  - intros v [<-|[<-|[]]]; reflexivity.
  - exact L.
  - exact D.
  - vm_compute. discriminate.
  - exact G.
  - exists fs, pw. split; [exact E|]. apply F.
    assert (lo = 0)%nat as ->.
    { destruct lo; auto. exfalso. destruct Lo as (_ & _ & Q). specialize (Q 0%nat ltac:(lia)). revert Q.
      replace (QcN 0 * Q2Qc (1 # 8) - 0)%Qc with 0%Qc by (apply Qceqb_eq; vm_compute; reflexivity). change (Qcabs 0) with 0%Qc. intros Q.
      apply Qclt_not_le in Q. apply Q, Qcabs_nonneg. }
    split; [lia|]. apply Qceqb_eq. vm_compute. reflexivity.
Qed.

(** ** C85: the resolution wavenumber *)
(** kres is pi over the smallest distance between two receivers. *)
Theorem C85_kres : forall a, consistent a -> (2 <= List.length (sensors a))%nat ->
  exists g, smallest_gap a g /\ kres a = Ok (Some (PI / toR g)).
Proof. exact kres_gap. Qed.
Print Assumptions C85_kres.
(** An array of one sensor has none: asking for it raises. *)
Theorem C85_few : forall a, (List.length (sensors a) < 2)%nat -> kres a = Err ValueError.
Proof. exact kres_few. Qed.
Print Assumptions C85_few.
(** Below kres no two plane waves look alike to the array. *)
Theorem C85_distinct : forall a k k1 k2, consistent a -> kres a = Ok (Some k) ->
  - k < k1 < k -> - k < k2 < k -> indistinguishable a k1 k2 -> k1 = k2.
Proof. exact kres_separates. Qed.
Print Assumptions C85_distinct.
(** The bound is sharp on evenly spaced receivers: adding 2 kres to a wavenumber changes nothing. *)
Theorem C85_alias : forall a k g k1, consistent a -> kres a = Ok (Some k) -> smallest_gap a g -> evenly_spaced a g ->
  indistinguishable a (k1 + 2 * k) k1.
Proof.
  intros a k g k1 Hc Hk (Pg & (s & t & Is & It & Eg) & Mg) Ev.
  destruct (Nat.lt_ge_cases (List.length (sensors a)) 2) as [L|L].
  { rewrite (kres_few a L) in Hk. discriminate. }
  destruct (kres_gap a Hc L) as (g' & (Pg' & (s' & t' & Is' & It' & Eg') & Mg') & E). rewrite E in Hk. injection Hk as <-.
  assert (P1 : forall x y, (y - x = g -> x < y)%Qc) by (intros x y Q; apply Qclt_minus_iff; fold (y - x)%Qc; now rewrite Q).
  assert (P2 : forall x y, (y - x = g' -> x < y)%Qc) by (intros x y Q; apply Qclt_minus_iff; fold (y - x)%Qc; now rewrite Q).
  assert (g = g') as ->.
  { apply Qcle_antisym; [rewrite <- Eg'; apply Mg|rewrite <- Eg; apply Mg']; auto. }
  now apply alias_indistinguishable.
Qed.
Print Assumptions C85_alias.
(** So a beamformed image repeats: two velocities whose wavenumbers differ by 2 kres get the same
    power at that frequency, whatever was recorded. *)
Theorem C85_power_repeats : forall angle wt st a vels fl fh n df m k g,
  consistent a -> outside a -> grid a n df m -> st <> Some "cylindrical"%string ->
  kres a = Ok (Some k) -> smallest_gap a g -> evenly_spaced a g ->
  exists fs pw, fdbf angle wt st a vels fl fh = Ok (fs, pw) /\ forall i i' j v v' f,
    nth_error vels i = Some v -> nth_error vels i' = Some v' -> nth_error fs j = Some f -> v <> 0%Qc -> v' <> 0%Qc ->
    2 * PI * toR f / toR v' = 2 * PI * toR f / toR v + 2 * k ->
    entry_at pw i' j = entry_at pw i j.
Proof.
  intros angle wt st a vels fl fh n df m k g Hc Ho G St Hk (Pg & (s & t & Is & It & Eg) & Mg) Ev.
  destruct (Nat.lt_ge_cases (List.length (sensors a)) 2) as [L|L].
  { rewrite (kres_few a L) in Hk. discriminate. }
  destruct (kres_gap a Hc L) as (g' & (Pg' & (s' & t' & Is' & It' & Eg') & Mg') & E). rewrite E in Hk. injection Hk as <-.
  assert (P1 : forall x y, (y - x = g -> x < y)%Qc) by (intros x y Q; apply Qclt_minus_iff; fold (y - x)%Qc; now rewrite Q).
  assert (P2 : forall x y, (y - x = g' -> x < y)%Qc) by (intros x y Q; apply Qclt_minus_iff; fold (y - x)%Qc; now rewrite Q).
  assert (g = g') as ->.
  { apply Qcle_antisym; [rewrite <- Eg'; apply Mg|rewrite <- Eg; apply Mg']; auto. }
  now apply (fdbf_alias angle wt st a vels fl fh n df m g').
Qed.
Print Assumptions C85_power_repeats.
(** On receivers one apart kres is pi, and at 1/2 Hz the velocities 1 and 1/3 get the same power. *)
Example C85_example : smallest_gap a80 (z 1) /\ evenly_spaced a80 (z 1) /\ kres a80 = Ok (Some (PI / 1)) /\
  exists fs pw, fdbf (fun x => x) None None a80 [z 1; Q2Qc (1 # 3)] 0 1 = Ok (fs, pw) /\
    forall j, nth_error fs j = Some (Q2Qc (1 # 2)) -> entry_at pw 1 j = entry_at pw 0 j.
Proof.
  destruct a80_facts as (C & O & G & _).
  assert (Sg : smallest_gap a80 (z 1)).
  { split; [reflexivity|]. split.
    - exists (sen 1 1), (sen 2 2). split; [now left|]. split; [now right; left|]. apply Qceqb_eq. vm_compute. reflexivity.
    - intros s t [<-|[<-|[<-|[]]]] [<-|[<-|[<-|[]]]] Q; try (exfalso; revert Q; vm_compute; discriminate);
        intros R; revert R; vm_compute; discriminate. }
  assert (Ev : evenly_spaced a80 (z 1)).
  { exists (z 1). intros s [<-|[<-|[<-|[]]]]; [exists 0%Z|exists 1%Z|exists 2%Z]; apply Qceqb_eq; vm_compute; reflexivity. }
  assert (K : kres a80 = Ok (Some (PI / toR 1))).
  { unfold kres. change (position a80) with [z 1; z 2; z 3]. cbn [diffs]. 
    replace (z 2 - z 1)%Qc with 1%Qc by (apply Qceqb_eq; vm_compute; reflexivity).
    replace (z 3 - z 2)%Qc with 1%Qc by (apply Qceqb_eq; vm_compute; reflexivity).
    replace (lmin 1 [1%Qc]) with 1%Qc by (apply Qceqb_eq; vm_compute; reflexivity). reflexivity. }
  split; [exact Sg|]. split; [exact Ev|]. split; [now rewrite K, toR_1|].
  destruct (C85_power_repeats (fun x => x) None None a80 [z 1; Q2Qc (1 # 3)] 0%Qc 1%Qc 8 _ 1 _ _ C O G ltac:(discriminate) K Sg Ev) as (fs & pw & E & H).
  exists fs, pw. split; [exact E|]. intros j Hj.
  apply (H 0%nat 1%nat j (z 1) (Q2Qc (1 # 3)) (Q2Qc (1 # 2))); auto; try discriminate.
  assert (T : toR (Q2Qc (1 # 3)) = 1 / 3).
  { assert (A : toR (z 3 * Q2Qc (1 # 3)) = 1) by (replace (z 3 * Q2Qc (1 # 3))%Qc with 1%Qc by (apply Qceqb_eq; vm_compute; reflexivity); apply toR_1).
    rewrite toR_mul in A. unfold z in A. rewrite toR_QcZ in A. lra. }
  assert (T2 : toR (Q2Qc (1 # 2)) = 1 / 2).
  { assert (A : toR (z 2 * Q2Qc (1 # 2)) = 1) by (replace (z 2 * Q2Qc (1 # 2))%Qc with 1%Qc by (apply Qceqb_eq; vm_compute; reflexivity); apply toR_1).
    rewrite toR_mul in A. unfold z in A. rewrite toR_QcZ in A. lra. }
  rewrite T, T2. unfold z. rewrite toR_QcZ, toR_1. field.
Qed.
