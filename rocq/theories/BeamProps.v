(* Property theorems about the phase-shift, beamforming and f-k transforms (C30-C32, C74). *)
From Verif Require Import BeamModel BeamSpec PyFacts NumFacts BeamProofs BeamPowerProofs BeamArrayProofs
  TransformSpec ArraySpec.
From Coq Require Import Lra Lia Sorted.
Local Open Scope R_scope.
Local Open Scope list_scope.

(** ** C30 *)
(** The transform succeeds; its frequencies are the selected grid points; entry (i, j) belongs to
    velocity i and frequency j = k*df.  It lies between 0 and the distance between the outermost
    sensors unless some spectrum vanishes there (then it is NaN), and it attains that distance at
    the velocity of a plane wave. *)
Theorem C30_power : forall a vels fl fh n df m, consistent a -> outside a -> grid a n df m ->
  exists fs pw, phase_shift a vels fl fh = Ok (fs, pw) /\ every_mth n df fl fh m fs /\
    List.length pw = List.length vels /\ (forall r, In r pw -> List.length r = List.length fs) /\
    forall i j v f, nth_error vels i = Some v -> nth_error fs j = Some f -> v <> 0%Qc ->
      exists k, (k < n)%nat /\ f = (QcN k * df)%Qc /\
      ((forall s, In s (sensors a) -> spectrum_of k s <> C0) ->
         exists p, entry_at pw i j = Some (Some p) /\ 0 <= p <= spread a) /\
      (plane_wave a k (toR f) (toR v) -> entry_at pw i j = Some (Some (spread a))) /\
      ((exists s, In s (sensors a) /\ spectrum_of k s = C0) -> (2 <= List.length (sensors a))%nat ->
         entry_at pw i j = Some None).
Proof.
  intros a vels fl fh n df m C O G.
  destruct (phase_shift_power a vels fl fh n df m C O G) as (fs & pw & E & M & [R1 R2] & H).
  exists fs, pw. auto.
Qed.
Print Assumptions C30_power.

Theorem C30_amplitudes : forall a a' vels fl fh,
  Forall2 rescaled (sensors a) (sensors a') -> src_x (src a') = src_x (src a) ->
  phase_shift a' vels fl fh = phase_shift a vels fl fh.
Proof. exact phase_shift_rescaled. Qed.
Print Assumptions C30_amplitudes.

(** A wavelet travelling along the array (every sensor records it with its own gain) gives the
    greatest possible power at its velocity, at every frequency the wavelet contains. *)
Theorem C30_travelling : forall a vels fl fh n df m w v i, consistent a -> outside a -> grid a n df m ->
  List.length w = n -> v <> 0%Qc -> travelling a w v -> nth_error vels i = Some v ->
  exists fs pw, phase_shift a vels fl fh = Ok (fs, pw) /\
    forall j f, nth_error fs j = Some f -> exists k, f = (QcN k * df)%Qc /\
      (dft w k <> C0 -> entry_at pw i j = Some (Some (spread a))).
Proof.
  intros a vels fl fh n df m w v i C O G Lw Vn T Hv.
  destruct (phase_shift_power a vels fl fh n df m C O G) as (fs & pw & E & _ & _ & H).
  exists fs, pw. split; [exact E|]. intros j f Hf.
  destruct (H i j v f Hv Hf Vn) as (k & _ & Ef & _ & P & _). exists k. split; [exact Ef|].
  intros D. apply P. subst f. exact (travelling_plane a w v n df m k C G Lw Vn T D).
Qed.
Print Assumptions C30_travelling.

(** No time records, no frequencies: the call raises, as the other transforms do. *)
Theorem C30_no_sensors : forall src vels fl fh, phase_shift (mkArray [] src) vels fl fh = Err IndexError.
Proof. reflexivity. Qed.
Print Assumptions C30_no_sensors.

(** Non-vacuity: an impulse travelling away from the source at 2 units per sample. *)
Local Definition z (n : Z) : Qc := QcZ n.
Local Definition sen (x g : Z) (d : nat) : sensor :=
  mkSensor (mkSeries (map (Qcmult (z g)) (delayed d [z 1; z 0; z 0; z 0])) 1 1 0 1) (z x) 0 0.
Local Definition a30 : array := mkArray [sen 2 1 1; sen 4 5 2; sen 6 3 3] (mkSource (z 0) 0 0).
Local Definition impulse : list Qc := [z 1; z 0; z 0; z 0].
Lemma a30_facts : consistent a30 /\ outside a30 /\ grid a30 4 (Q2Qc (1 # 4)) 1 /\ travelling a30 impulse (z 2).
Proof.
  split; [|split; [|split]].
  - split; [discriminate|]. split.
    + cbn. repeat constructor.
    + intros s t Hs Ht. cbn in Hs, Ht. unfold agree. intuition (subst; vm_compute; auto).
  - left. cbn. apply Qclt_le_weak. reflexivity.
  - exists (sen 2 1 1), [sen 4 5 2; sen 6 3 3]. split; [reflexivity|]. split; [reflexivity|]. split; [lia|].
    split; [|split; [reflexivity|lia]]. unfold internal_df.
    replace (Qceqb _ 0) with false by (vm_compute; reflexivity). f_equal.
  - intros s Hs. cbn in Hs. destruct Hs as [<-|[<-|[<-|[]]]].
    + exists (z 1), 1%nat. split; [reflexivity|]. split; [cbn; lia|]. split; [reflexivity|]. apply Qceqb_eq. vm_compute. reflexivity.
    + exists (z 5), 2%nat. split; [reflexivity|]. split; [cbn; lia|]. split; [reflexivity|]. apply Qceqb_eq. vm_compute. reflexivity.
    + exists (z 3), 3%nat. split; [reflexivity|]. split; [cbn; lia|]. split; [reflexivity|]. apply Qceqb_eq. vm_compute. reflexivity.
Qed.
Lemma impulse_spectrum k : dft impulse k = C1.
Proof.
  rewrite dft_sum. unfold sumC, impulse. cbn [List.length seq map nth INR]. rewrite !Csum_cons, Csum_nil.
  change (toR (z 1)) with (toR 1). change (toR (z 0)) with (toR 0). rewrite toR_0, toR_1.
  replace (- (2 * PI * INR k * 0 / (1 + 1 + 1 + 1))) with 0 by (field; lra).
  unfold cexp at 1. rewrite cos_0, sin_0. unfold Cadd, Cmul, RtoC, C0, C1. cbn [fst snd]. f_equal; ring.
Qed.
Example C30_example : exists fs pw, phase_shift a30 [z 1; z 2] 0 1 = Ok (fs, pw) /\
  (forall j f, nth_error fs j = Some f -> entry_at pw 1 j = Some (Some (spread a30))) /\ fs <> [].
Proof.
  destruct a30_facts as (C & O & G & T).
  destruct (C30_travelling a30 [z 1; z 2] 0%Qc 1%Qc 4 _ 1 impulse (z 2) 1 C O G eq_refl
    ltac:(discriminate) T eq_refl) as (fs & pw & E & H).
  exists fs, pw. split; [exact E|]. split.
  - intros j f Hf. destruct (H j f Hf) as (k & _ & D). apply D. rewrite impulse_spectrum.
    intros Q. injection Q as Q. lra.
  - destruct (C30_power a30 [z 1; z 2] 0%Qc 1%Qc 4 _ 1 C O G) as (fs' & pw' & E' & (lo & hi & Lo & Hi & M) & _).
    rewrite E in E'. injection E' as <- <-. intros ->.
    assert (lo = 0)%nat.
    { destruct lo; auto. exfalso. destruct Lo as (_ & _ & L). specialize (L 0%nat ltac:(lia)).
      revert L. change (QcN 0 * Q2Qc (1 # 4) - 0)%Qc with (0 * Q2Qc (1 # 4) - 0)%Qc.
      replace (0 * Q2Qc (1 # 4) - 0)%Qc with 0%Qc by ring. change (Qcabs 0) with 0%Qc. intros L.
      apply Qclt_not_le in L. apply L, Qcabs_nonneg. }
    subst lo. specialize (M 0%nat 0%Qc). cbn [nth_error] in M. destruct M as [_ M].
    assert (X : None = Some 0%Qc); [|discriminate X]. apply M. split; [lia|]. apply Qceqb_eq. vm_compute. reflexivity.
Qed.

(** ** C31 *)
Theorem C31_matrix : forall n b t, tensor n b t -> (0 < b)%nat ->
  square n (sscm t) /\
  (forall a c, (a < n)%nat -> (c < n)%nat -> at2 (sscm t) c a = Cconj (at2 (sscm t) a c)) /\
  (forall a c, (a < n)%nat -> (c < n)%nat ->
     at2 (sscm t) a c = Cmul (sumC b (fun j => Cmul (at2 t a j) (Cconj (at2 t c j)))) (RtoC (/ INR b))) /\
  forall u, real_nonneg (form n (sscm t) u).
Proof.
  intros n b t T Hb. split; [eapply sscm_square; eauto|]. split; [intros; eapply sscm_hermitian; eauto|].
  split; [intros; eapply sscm_at; eauto|]. intros u. eapply sscm_psd; eauto.
Qed.
Print Assumptions C31_matrix.

(** Whatever the number of blocks, the weighting and the steering ([angle] is the phase of the
    Hankel function): every entry that is a number is real and non-negative. *)
Theorem C31_cells : forall angle wt st xs n b t v f p, v <> 0 -> List.length xs = n -> tensor n b t ->
  (0 < b)%nat -> fdbf_cell angle wt st xs t v f = Some p -> real_nonneg p.
Proof. exact fdbf_cell_nonneg. Qed.
Print Assumptions C31_cells.
Theorem C31_power : forall angle wt st a vels fl fh n df m, consistent a -> outside a -> grid a n df m ->
  exists fs pw, fdbf angle wt st a vels fl fh = Ok (fs, pw) /\ every_mth n df fl fh m fs /\
    List.length pw = List.length vels /\ (forall r, In r pw -> List.length r = List.length fs) /\
    forall i j v f, nth_error vels i = Some v -> nth_error fs j = Some f -> v <> 0%Qc ->
      exists k, (k < n)%nat /\ f = (QcN k * df)%Qc /\
      (forall p, entry_at pw i j = Some (Some p) -> real_nonneg p) /\
      (wt <> Some "invamp"%string \/ (forall s, In s (sensors a) -> spectrum_of k s <> C0) ->
         exists p, entry_at pw i j = Some (Some p)).
Proof.
  intros angle wt st a vels fl fh n df m C O G.
  destruct (fdbf_power angle wt st a vels fl fh n df m C O G) as (fs & pw & E & M & [R1 R2] & H).
  exists fs, pw. split; [exact E|]. split; [exact M|]. split; [exact R1|]. split; [exact R2|].
  intros i j v f Hv Hf Vn. destruct (H i j v f Hv Hf Vn) as (k & A & B & D & F & _). exists k. auto.
Qed.
Print Assumptions C31_power.
(** a tensor of two channels and two blocks; the power with a silent channel and "invamp" is no number *)
Example C31_example : tensor 2 2 [[C1; (0, 1)]; [(2, 1); C0]] /\
  fdbf_cell (fun x => x) (Some "invamp"%string) None [1; 2] [[C1]; [C0]] 3 1 = None.
Proof.
  split; [split; [reflexivity|intros r [<-|[<-|[]]]; reflexivity]|].
  unfold fdbf_cell. destruct (Req_EM_T 3 0); [lra|].
  unfold weighted_spectra. cbn [String.eqb Ascii.eqb Bool.eqb map all_some].
  assert (Z : invamp_row [C0] = None).
  { unfold invamp_row. destruct (Req_EM_T _ 0) as [_|N]; auto. exfalso. apply N. apply Cmod_zero. cbn.
    unfold Cmul, Cadd, C0, RtoC. cbn. f_equal; ring. }
  rewrite Z. destruct (invamp_row [C1]); reflexivity.
Qed.

(** ** C32 *)
Theorem C32_peak : forall angle wt st a vels fl fh n df m,
  consistent a -> outside a -> grid a n df m -> st <> Some "cylindrical"%string ->
  exists fs pw, fdbf angle wt st a vels fl fh = Ok (fs, pw) /\
    forall j f, nth_error fs j = Some f ->
    forall i0 v0 i v, nth_error vels i0 = Some v0 -> nth_error vels i = Some v -> v0 <> 0%Qc -> v <> 0%Qc ->
      exists k, (k < n)%nat /\ f = (QcN k * df)%Qc /\
      (plane_wave a k (toR f) (toR v0) ->
       exists p0 p, entry_at pw i0 j = Some (Some (RtoC p0)) /\ entry_at pw i j = Some (Some (RtoC p)) /\ p <= p0).
Proof.
  intros angle wt st a vels fl fh n df m C O G S.
  destruct (fdbf_power angle wt st a vels fl fh n df m C O G) as (fs & pw & E & M & _ & H).
  exists fs, pw. split; [exact E|]. intros j f Hf i0 v0 i v H0 Hv Z0 Z1.
  destruct (H i j v f Hv Hf Z1) as (k & A & B & _ & _ & F). exists k. split; [exact A|]. split; [exact B|].
  intros P. exact (F i0 v0 H0 Z0 S P).
Qed.
Print Assumptions C32_peak.
(** The same for a wavelet travelling along the array. *)
Theorem C32_travelling : forall angle wt st a vels fl fh n df m w v0 i0,
  consistent a -> outside a -> grid a n df m -> st <> Some "cylindrical"%string ->
  List.length w = n -> v0 <> 0%Qc -> travelling a w v0 -> nth_error vels i0 = Some v0 ->
  exists fs pw, fdbf angle wt st a vels fl fh = Ok (fs, pw) /\
    forall i v j f, nth_error vels i = Some v -> v <> 0%Qc -> nth_error fs j = Some f ->
      exists k, f = (QcN k * df)%Qc /\ (dft w k <> C0 ->
       exists p0 p, entry_at pw i0 j = Some (Some (RtoC p0)) /\ entry_at pw i j = Some (Some (RtoC p)) /\ p <= p0).
Proof.
  intros angle wt st a vels fl fh n df m w v0 i0 C O G S Lw Z0 T H0.
  destruct (C32_peak angle wt st a vels fl fh n df m C O G S) as (fs & pw & E & H).
  exists fs, pw. split; [exact E|]. intros i v j f Hv Zv Hf.
  destruct (H j f Hf i0 v0 i v H0 Hv Z0 Zv) as (k & _ & Ef & P). exists k. split; [exact Ef|].
  intros D. apply P. subst f. exact (travelling_plane a w v0 n df m k C G Lw Z0 T D).
Qed.
Print Assumptions C32_travelling.
Example C32_example : exists fs pw, fdbf (fun x => x) (Some "sqrt"%string) (Some "plane"%string) a30 [z 1; z 2] 0 1 = Ok (fs, pw) /\
  forall j f, nth_error fs j = Some f ->
    exists p0 p, entry_at pw 1 j = Some (Some (RtoC p0)) /\ entry_at pw 0 j = Some (Some (RtoC p)) /\ p <= p0.
Proof.
  destruct a30_facts as (C & O & G & T).
  destruct (C32_travelling (fun x => x) (Some "sqrt"%string) (Some "plane"%string) a30 [z 1; z 2] 0%Qc 1%Qc 4 _ 1 impulse (z 2) 1
    C O G ltac:(discriminate) eq_refl ltac:(discriminate) T eq_refl) as (fs & pw & E & H).
  exists fs, pw. split; [exact E|]. intros j f Hf.
  destruct (H 0%nat (z 1) j f eq_refl ltac:(discriminate) Hf) as (k & _ & D). apply D. rewrite impulse_spectrum.
  intros Q. injection Q as Q. lra.
Qed.

(** ** C74 *)
(** The f-k transform is beamforming without weights and with plane steering, whatever the
    beamforming settings say. *)
Theorem C74_fk : forall angle wt st a vels fl fh,
  snd (fk angle (Some (wt, st)) a vels fl fh) = fdbf angle None None a vels fl fh.
Proof. reflexivity. Qed.
Print Assumptions C74_fk.
(** Without a beamforming section in the settings it raises. *)
Theorem C74_missing : forall angle a vels fl fh, snd (fk angle None a vels fl fh) = Err KeyError.
Proof. reflexivity. Qed.
Print Assumptions C74_missing.
(** The caller's settings are changed by the call, and the change affects a later transform. *)
Theorem C74_settings_refuted : exists specific angle a vels fl fh,
  fst (fk angle specific a vels fl fh) <> specific.
Proof.
  exists (Some (Some "sqrt"%string, Some "cylindrical"%string)), (fun x => x), a30, [z 2], 0%Qc, 1%Qc. discriminate.
Qed.
Print Assumptions C74_settings_refuted.
