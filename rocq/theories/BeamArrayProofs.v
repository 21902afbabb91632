(* Phase shift and beamforming of whole arrays. *)
From Verif Require Import BeamModel BeamSpec PyFacts NumFacts BeamProofs BeamPowerProofs
  TransformSpec TransformProofs ArraySpec ArrayProofs.
From Coq Require Import Lra Lia Permutation Sorted.
Local Open Scope R_scope.
Local Open Scope list_scope.

(** * Rationals as reals *)
Lemma toR_0 : toR 0 = 0. Proof. unfold toR. cbn. unfold Q2R. cbn. lra. Qed.
Lemma toR_inj x y : toR x = toR y -> x = y.
Proof. intros H. apply Qc_is_canon. now apply eqR_Qeq. Qed.
Lemma toR_nonzero x : x <> 0%Qc -> toR x <> 0.
Proof. intros H E. apply H, toR_inj. now rewrite toR_0. Qed.
Lemma toR_lt x y : (x < y)%Qc -> toR x < toR y. Proof. intros. now apply Qlt_Rlt. Qed.
Lemma toR_le x y : (x <= y)%Qc -> toR x <= toR y. Proof. intros. now apply Qle_Rle. Qed.
Lemma toR_add x y : toR (x + y)%Qc = toR x + toR y.
Proof. unfold toR. rewrite <- Q2R_plus. apply Qeq_eqR. apply this_plus. Qed.
Lemma toR_opp x : toR (- x)%Qc = - toR x.
Proof. assert (H : toR (x + - x)%Qc = 0) by (rewrite Qcplus_opp_r; apply toR_0). rewrite toR_add in H. lra. Qed.
Lemma toR_sub x y : toR (x - y)%Qc = toR x - toR y.
Proof. unfold Qcminus. rewrite toR_add, toR_opp. ring. Qed.
Lemma toR_1 : toR 1 = 1. Proof. unfold toR, Q2R. cbn. lra. Qed.
Lemma toR_QcN n : toR (QcN n) = INR n.
Proof.
  unfold toR, QcN, QcZ. rewrite (Qeq_eqR _ (inject_Z (Z.of_nat n))) by apply Qred_correct.
  unfold Q2R, inject_Z. cbn. rewrite Rinv_1, INR_IZR_INZ. ring.
Qed.
Lemma toR_div x y : y <> 0%Qc -> toR (x / y)%Qc = toR x / toR y.
Proof.
  intros H. pose proof (toR_nonzero y H). assert (E : toR (x / y * y)%Qc = toR x) by (f_equal; field; auto).
  rewrite toR_mul in E. rewrite <- E. field. auto.
Qed.

(** * Shape of the results *)
Lemma QcN_inj a b : QcN a = QcN b -> a = b.
Proof. intros H. assert (E : toR (QcN a) = toR (QcN b)) by congruence. rewrite !toR_QcN in E. now apply INR_eq. Qed.
Lemma grid_df a n df m : grid a n df m -> df <> 0%Qc /\ exists s, In s (sensors a) /\ nsamples (ser s) = n /\
  (df * (QcN n * dt (ser s)) = 1)%Qc.
Proof.
  intros (s & rest & Hs & Hn & Pn & Hd & _). unfold internal_df in Hd. rewrite Hn in Hd.
  destruct (Qceqb_spec (QcN n * dt (ser s)) 0%Qc) as [E|E]; [discriminate|]. injection Hd as <-.
  assert (Z : ((1 / (QcN n * dt (ser s))) * (QcN n * dt (ser s)) = 1)%Qc)
    by (set (q := (QcN n * dt (ser s))%Qc) in *; field; auto).
  split.
  - intros Q. rewrite Q in Z. rewrite Qcmult_0_l in Z. discriminate.
  - exists s. rewrite Hs. repeat split; auto. now left.
Qed.
Lemma kept_grid a fl fh n df m : grid a n df m ->
  exists ids, BeamModel.kept a fl fh = Ok (map Z.of_nat ids, map (fun i => QcN i * df)%Qc ids) /\
    (forall i, In i ids -> (i < n)%nat) /\ every_mth n df fl fh m (map (fun i => QcN i * df)%Qc ids).
Proof.
  intros (s & rest & Hs & Hn & Pn & Hd & Em & Pm). unfold BeamModel.kept. rewrite Hs, Hd, Hn, Em. cbn [bind].
  destruct (kept_frequencies n df fl fh m Pn Pm) as (ids & fs & E & T & L & F & M).
  rewrite E. cbn [bind]. rewrite T. cbn [bind]. subst fs. eauto.
Qed.
Lemma entries {X} (F : nat -> Qc -> Qc -> X) (vels : list Qc) ids df i j v f k :
  df <> 0%Qc -> nth_error vels i = Some v -> nth_error (map (fun i => QcN i * df)%Qc ids) j = Some f ->
  f = (QcN k * df)%Qc ->
  entry_at (map (fun v => map (fun jf => F (Z.to_nat (fst jf)) v (snd jf))
     (combine (map Z.of_nat ids) (map (fun i => QcN i * df)%Qc ids))) vels) i j = Some (F k v f).
Proof.
  intros Hd Hv Hf E. unfold entry_at. rewrite (map_nth_error _ _ _ Hv).
  assert (N : nth_error ids j = Some k).
  { rewrite nth_error_map in Hf. destruct (nth_error ids j) as [i0|] eqn:N; [|discriminate].
    cbn in Hf. injection Hf as Hf. f_equal. apply QcN_inj. rewrite E in Hf.
    transitivity ((QcN i0 * df) / df)%Qc; [field; auto|]. rewrite Hf. field; auto. }
  assert (C : nth_error (combine (map Z.of_nat ids) (map (fun i => QcN i * df)%Qc ids)) j = Some (Z.of_nat k, f)).
  { clear - N E. revert j N. induction ids as [|a ids IH]; intros [|j] N; try discriminate.
    - cbn in N. injection N as ->. cbn. now rewrite E.
    - cbn. now apply IH. }
  rewrite (map_nth_error _ _ _ C). cbn [fst snd]. now rewrite Nat2Z.id.
Qed.
Lemma grid_on a n df m ids f : grid a n df m -> (forall i, In i ids -> (i < n)%nat) ->
  In f (map (fun i => QcN i * df)%Qc ids) -> exists k, (k < n)%nat /\ f = (QcN k * df)%Qc.
Proof. intros _ L I. apply in_map_iff in I. destruct I as (k & <- & I). eauto. Qed.

Lemma last_nth (l : list Qc) d : last l d = nth (List.length l - 1) l d.
Proof.
  induction l as [|a l IH]; [reflexivity|]. destruct l as [|b l]; [reflexivity|].
  change (last (a :: b :: l) d) with (last (b :: l) d). rewrite IH. cbn [List.length Nat.sub].
  rewrite Nat.sub_0_r. reflexivity.
Qed.
(** what the flipped matrix and offsets are *)
Lemma ascending_increasing l : increasing l -> ascending (map toR l).
Proof.
  intros H i Hi. rewrite map_length in Hi. apply Rlt_le.
  rewrite !(nth_map_lt _ _ _ _ 0%Qc) by lia. apply toR_lt.
  revert i Hi. induction H as [|x l S IH F]; intros i Hi; cbn in Hi; [lia|].
  destruct i as [|i].
  - cbn. rewrite Forall_forall in F. apply F, nth_In. lia.
  - cbn. apply IH. lia.
Qed.
Lemma flipped_aperture a m offs : consistent a -> outside a -> flipped a = (m, offs) ->
  aperture (map toR offs) = spread a.
Proof.
  intros C P E. pose proof C as (N & _ & _). unfold aperture, spread.
  unfold flipped, flip_required in E.
  assert (Off : offsets a = map (dist a) (sensors a)).
  { unfold offsets. apply map_ext. apply offset_dist. }
  assert (Fx : first_x a = sx (nth 0 (sensors a) (mkSensor (mkSeries [] 0 0 0 0) 0 0 0))).
  { unfold first_x, position. destruct (sensors a); [congruence|reflexivity]. }
  set (d0 := mkSensor (mkSeries [] 0 0 0 0) 0 0 0) in *.
  assert (Lx : last_x a = sx (nth (List.length (sensors a) - 1) (sensors a) d0)).
  { unfold last_x, position. destruct (sensors a) as [|s l] eqn:Q; [congruence|]. rewrite <- Q.
    rewrite (last_nth _ 0%Qc). rewrite map_length. now rewrite (nth_map_lt _ _ _ _ d0) by (rewrite Q; cbn; lia). }
  assert (Pos : (0 < List.length (sensors a))%nat) by (destruct (sensors a); [congruence|cbn; lia]).
  assert (I0 : In (nth 0 (sensors a) d0) (sensors a)) by (apply nth_In; lia).
  assert (I1 : In (nth (List.length (sensors a) - 1) (sensors a) d0) (sensors a)) by (apply nth_In; lia).
  pose proof (first_x_le a _ C I1) as FL. rewrite <- Lx in FL.
  assert (D : forall i, (i < List.length (sensors a))%nat -> nth i (offsets a) 0%Qc = dist a (nth i (sensors a) d0)).
  { intros i Hi. rewrite Off. now rewrite (nth_map_lt _ _ _ _ d0). }
  assert (LO : List.length (offsets a) = List.length (sensors a)) by (rewrite Off; apply map_length).
  destruct (Qcltb_spec (last_x a) (src_x (src a))) as [L|L]; injection E as <- <-.
  - rewrite map_length, rev_length, LO. rewrite !(nth_map_lt _ _ _ _ 0%Qc) by (rewrite rev_length, LO; lia).
    rewrite !rev_nth by (rewrite LO; lia). rewrite LO.
    replace (List.length (sensors a) - S (List.length (sensors a) - 1))%nat with 0%nat by lia.
    rewrite !D by lia. unfold dist. rewrite <- Fx, <- Lx.
    rewrite !(Qcabs_minus _ (src_x (src a))), !Qcabs_pos by (clear - L FL; qclra). rewrite <- toR_sub. f_equal. ring.
  - destruct P as [P|P]; [|contradiction]. rewrite map_length, LO.
    rewrite !(nth_map_lt _ _ _ _ 0%Qc) by (rewrite LO; lia). rewrite !D by lia. unfold dist. rewrite <- Fx, <- Lx.
    rewrite !Qcabs_pos by (clear - P FL; qclra). rewrite <- toR_sub. f_equal. ring.
Qed.

Definition rectangle {X} (nr nc : nat) (m : list (list X)) : Prop :=
  List.length m = nr /\ forall r, In r m -> List.length r = nc.
Lemma phase_shift_entries a vels fl fh n df m tm offs : grid a n df m -> flipped a = (tm, offs) ->
  exists fs pw, phase_shift a vels fl fh = Ok (fs, pw) /\ every_mth n df fl fh m fs /\
    rectangle (List.length vels) (List.length fs) pw /\
    (forall f, In f fs -> exists k, (k < n)%nat /\ f = (QcN k * df)%Qc) /\
    forall i j v f k, nth_error vels i = Some v -> nth_error fs j = Some f -> f = (QcN k * df)%Qc ->
      entry_at pw i j = Some (phase_shift_cell (map toR offs) (map (fun r => dft r k) tm) (toR v) (toR f)).
Proof.
  intros G E. destruct (kept_grid a fl fh n df m G) as (ids & K & L & M). unfold phase_shift. rewrite K. cbn [bind].
  rewrite E. cbn [fst snd]. eexists; eexists. split; [reflexivity|]. split; [exact M|]. split; [|split].
  - split; [now rewrite map_length|]. intros r I. apply in_map_iff in I. destruct I as (v & <- & _).
    rewrite map_length, combine_length, !map_length. lia.
  - intros f I. eapply grid_on; eauto.
  - intros i j v f k Hv Hf Ef. destruct (grid_df _ _ _ _ G) as [Hd _].
    exact (entries (fun k v f => phase_shift_cell (map toR offs) (map (fun r => dft r k) tm) (toR v) (toR f))
             vels ids df i j v f k Hd Hv Hf Ef).
Qed.
Lemma fdbf_entries angle wt st a vels fl fh n df m tm offs : grid a n df m -> flipped a = (tm, offs) ->
  exists fs pw, fdbf angle wt st a vels fl fh = Ok (fs, pw) /\ every_mth n df fl fh m fs /\
    rectangle (List.length vels) (List.length fs) pw /\
    (forall f, In f fs -> exists k, (k < n)%nat /\ f = (QcN k * df)%Qc) /\
    forall i j v f k, nth_error vels i = Some v -> nth_error fs j = Some f -> f = (QcN k * df)%Qc ->
      entry_at pw i j = Some (fdbf_cell angle wt st (map toR offs) (map (fun r => [dft r k]) tm) (toR v) (toR f)).
Proof.
  intros G E. destruct (kept_grid a fl fh n df m G) as (ids & K & L & M). unfold fdbf. rewrite K. cbn [bind].
  rewrite E. cbn [fst snd]. eexists; eexists. split; [reflexivity|]. split; [exact M|]. split; [|split].
  - split; [now rewrite map_length|]. intros r I. apply in_map_iff in I. destruct I as (v & <- & _).
    rewrite map_length, combine_length, !map_length. lia.
  - intros f I. eapply grid_on; eauto.
  - intros i j v f k Hv Hf Ef. destruct (grid_df _ _ _ _ G) as [Hd _].
    exact (entries (fun k v f => fdbf_cell angle wt st (map toR offs) (map (fun r => [dft r k]) tm) (toR v) (toR f))
             vels ids df i j v f k Hd Hv Hf Ef).
Qed.

(** * Phase shift *)
Lemma Cmod_zero u : Cmod u = 0 <-> u = C0.
Proof.
  split; [|intros ->; unfold Cmod, C0; cbn; rewrite Rmult_0_l, Rplus_0_l; apply sqrt_0].
  intros H. pose proof (Cmod_sq u) as S. rewrite H in S. destruct u as [x y]; cbn in S.
  pose proof (sq_nonneg x); pose proof (sq_nonneg y). unfold C0. f_equal; apply Rsqr_0_uniq; unfold Rsqr; nra.
Qed.
Lemma order_nth {X} (g : sensor -> X) order d i x : (i < List.length order)%nat -> nth i (map g order) x = g (nth i order d).
Proof. intros. now rewrite (nth_map_lt _ _ _ _ d). Qed.
Lemma phase_shift_power a vels fl fh n df m : consistent a -> outside a -> grid a n df m ->
  exists fs pw, phase_shift a vels fl fh = Ok (fs, pw) /\ every_mth n df fl fh m fs /\
    rectangle (List.length vels) (List.length fs) pw /\
    forall i j v f, nth_error vels i = Some v -> nth_error fs j = Some f -> v <> 0%Qc ->
      exists k, (k < n)%nat /\ f = (QcN k * df)%Qc /\
      ((forall s, In s (sensors a) -> spectrum_of k s <> C0) ->
         exists p, entry_at pw i j = Some (Some p) /\ 0 <= p <= spread a) /\
      (plane_wave a k (toR f) (toR v) -> entry_at pw i j = Some (Some (spread a))) /\
      ((exists s, In s (sensors a) /\ spectrum_of k s = C0) -> (2 <= List.length (sensors a))%nat ->
         entry_at pw i j = Some None).
Proof.
  intros C O G. destruct (flipped a) as [tm offs] eqn:E.
  destruct (flipped_spec a tm offs C O E) as (order & P & Em & Eo & I).
  pose proof (flipped_aperture a tm offs C O E) as Ap. pose proof (ascending_increasing offs I) as As.
  destruct (phase_shift_entries a vels fl fh n df m tm offs G E) as (fs & pw & K & M & R & L & N).
  exists fs, pw. split; [exact K|]. split; [exact M|]. split; [exact R|].
  intros i j v f Hv Hf Vn. destruct (L f (nth_error_In _ _ Hf)) as (k & Hk & Ef). exists k. split; [exact Hk|].
  split; [exact Ef|]. rewrite (N i j v f k Hv Hf Ef).
  assert (Ne : map toR offs <> []).
  { rewrite Eo. intros Q. apply map_eq_nil, map_eq_nil in Q. subst order. apply Permutation_nil in P. destruct C as [Cn _]. congruence. }
  assert (Ls : List.length (map (fun r => dft r k) tm) = List.length (map toR offs)) by (rewrite Em, Eo, !map_length; reflexivity).
  pose proof (toR_nonzero v Vn) as Vr. split; [|split].
  - intros S. destruct (phase_shift_cell_bounds (map toR offs) (map (fun r => dft r k) tm) (toR v) (toR f) Vr As Ne Ls) as (p & -> & B).
    + intros u Iu. rewrite Em, map_map in Iu. apply in_map_iff in Iu. destruct Iu as (s & <- & Is).
      rewrite Cmod_zero. apply (S s). now apply (Permutation_in _ P).
    + exists p. split; [reflexivity|]. now rewrite <- Ap.
  - intros [phi W]. f_equal. rewrite <- Ap. apply (phase_shift_cell_aligned _ _ _ _ phi); auto.
    intros i0 Hi0. rewrite Eo, !map_length in Hi0. set (d0 := mkSensor (mkSeries [] 0 0 0 0) 0 0 0).
    destruct (W (nth i0 order d0)) as (A & PA & EA).
    { apply (Permutation_in _ P), nth_In, Hi0. }
    exists A. split; [exact PA|]. rewrite Em, Eo, !map_map. rewrite !(order_nth _ order d0) by auto. exact EA.
  - intros (s & Is & Zs) H2. f_equal. apply phase_shift_cell_nan; auto.
    + rewrite Eo, !map_length. rewrite <- (Permutation_length P) in H2. exact H2.
    + exists C0. split; [|now apply Cmod_zero]. rewrite Em, map_map. apply in_map_iff. exists s. split; [exact Zs|].
      now apply (Permutation_in _ (Permutation_sym P)).
Qed.
(** scaling *)
Lemma Forall2_nth' {X Y} (P : X -> Y -> Prop) l l' : Forall2 P l l' -> List.length l = List.length l' /\
  forall i d d', (i < List.length l)%nat -> P (nth i l d) (nth i l' d').
Proof.
  induction 1 as [|a b l l' H F [L N]]; split; cbn; auto; try lia.
  intros [|i] d d' Hi; auto. apply N. lia.
Qed.
Lemma Forall2_rev' {X Y} (P : X -> Y -> Prop) l l' : Forall2 P l l' -> Forall2 P (rev l) (rev l').
Proof. induction 1; cbn; auto. apply Forall2_app; auto. Qed.
Lemma phase_shift_rescaled a a' vels fl fh : Forall2 rescaled (sensors a) (sensors a') -> src_x (src a') = src_x (src a) ->
  phase_shift a' vels fl fh = phase_shift a vels fl fh.
Proof.
  intros F S. unfold phase_shift.
  assert (K : BeamModel.kept a' fl fh = BeamModel.kept a fl fh).
  { unfold BeamModel.kept. destruct F as [|s s' l l' (c & _ & A & D & M & _) F]; auto.
    assert (N : nsamples (ser s') = nsamples (ser s)) by (unfold nsamples; rewrite A; apply map_length).
    unfold internal_df. now rewrite N, D, M. }
  rewrite K.
  assert (Po : position a' = position a).
  { unfold position. induction F as [|s s' l l' (c & _ & _ & _ & _ & X) F IH]; auto. cbn. now rewrite X, IH. }
  assert (Of : offsets a' = offsets a).
  { unfold offsets. clear - F S. induction F as [|s s' l l' (c & _ & _ & _ & _ & X) F IH]; auto. cbn.
    unfold offset_of in *. rewrite X, S. f_equal. rewrite S in IH. exact IH. }
  assert (Fl : flip_required a' = flip_required a) by (unfold flip_required, last_x; now rewrite Po, S).
  unfold flipped. rewrite Fl, Of.
  set (tm := if flip_required a then rev (map (fun s => amp (ser s)) (sensors a)) else map (fun s => amp (ser s)) (sensors a)).
  set (tm' := if flip_required a then rev (map (fun s => amp (ser s)) (sensors a')) else map (fun s => amp (ser s)) (sensors a')).
  set (of := if flip_required a then rev (offsets a) else offsets a).
  assert (T : Forall2 (fun r r' => exists c, (0 < c)%Qc /\ r' = map (Qcmult c) r) tm tm').
  { assert (T0 : Forall2 (fun r r' => exists c, (0 < c)%Qc /\ r' = map (Qcmult c) r)
       (map (fun s => amp (ser s)) (sensors a)) (map (fun s => amp (ser s)) (sensors a'))).
    { clear - F. induction F as [|s s' l l' (c & P & A & _) F IH]; cbn; constructor; eauto. }
    unfold tm, tm'. destruct (flip_required a); auto. now apply Forall2_rev'. }
  assert (Cell : forall k v f, phase_shift_cell (map toR of) (map (fun r => dft r k) tm') v f
      = phase_shift_cell (map toR of) (map (fun r => dft r k) tm) v f).
  { intros k v f. destruct (Forall2_nth' _ _ _ T) as [L N]. apply phase_shift_cell_scaled.
    - now rewrite !map_length.
    - intros i Hi. rewrite map_length in Hi. destruct (N i [] [] Hi) as (c & Pc & Ec).
      exists (toR c). split; [rewrite <- toR_0; now apply toR_lt|].
      rewrite !(nth_map_lt _ _ _ _ []) by lia. rewrite Ec. apply dft_scale. }
  destruct (BeamModel.kept a fl fh) as [[ks fs]|e]; cbn [bind]; auto.
  unfold tm, tm', of in *. destruct (flip_required a); cbn [fst snd]; do 2 f_equal;
    apply map_ext; intros v; apply map_ext; intros [k f]; apply Cell.
Qed.

(** * Beamforming *)
Lemma one_block tm k : tensor (List.length tm) 1 (map (fun r => [dft r k]) tm).
Proof. split; [apply map_length|]. intros r I. apply in_map_iff in I. destruct I as (x & <- & _). reflexivity. Qed.
Lemma fdbf_power angle wt st a vels fl fh n df m : consistent a -> outside a -> grid a n df m ->
  exists fs pw, fdbf angle wt st a vels fl fh = Ok (fs, pw) /\ every_mth n df fl fh m fs /\
    rectangle (List.length vels) (List.length fs) pw /\
    forall i j v f, nth_error vels i = Some v -> nth_error fs j = Some f -> v <> 0%Qc ->
      exists k, (k < n)%nat /\ f = (QcN k * df)%Qc /\
      (forall p, entry_at pw i j = Some (Some p) -> real_nonneg p) /\
      (wt <> Some "invamp"%string \/ (forall s, In s (sensors a) -> spectrum_of k s <> C0) ->
         exists p, entry_at pw i j = Some (Some p)) /\
      forall i0 v0, nth_error vels i0 = Some v0 -> v0 <> 0%Qc -> st <> Some "cylindrical"%string ->
        plane_wave a k (toR f) (toR v0) ->
        exists p0 p, entry_at pw i0 j = Some (Some (RtoC p0)) /\ entry_at pw i j = Some (Some (RtoC p)) /\ p <= p0.
Proof.
  intros C O G. destruct (flipped a) as [tm offs] eqn:E.
  destruct (flipped_spec a tm offs C O E) as (order & P & Em & Eo & I).
  destruct (fdbf_entries angle wt st a vels fl fh n df m tm offs G E) as (fs & pw & K & M & R & L & N).
  exists fs, pw. split; [exact K|]. split; [exact M|]. split; [exact R|].
  intros i j v f Hv Hf Vn. destruct (L f (nth_error_In _ _ Hf)) as (k & Hk & Ef). exists k. split; [exact Hk|].
  split; [exact Ef|]. rewrite (N i j v f k Hv Hf Ef).
  pose proof (toR_nonzero v Vn) as Vr. pose proof (one_block tm k) as T.
  assert (Lx : List.length (map toR offs) = List.length tm) by (rewrite Em, Eo, !map_length; reflexivity).
  split; [|split].
  - intros p Q. injection Q as Q. exact (fdbf_cell_nonneg angle wt st _ _ 1 _ _ _ p Vr Lx T Nat.lt_0_1 Q).
  - intros [W|S].
    + destruct (fdbf_cell_defined angle wt st (map toR offs) (map (fun r => [dft r k]) tm) (toR v) (toR f) Vr W) as (p & ->). eauto.
    + assert (D : forall wt, exists p, fdbf_cell angle wt st (map toR offs) (map (fun r => [dft r k]) tm) (toR v) (toR f) = Some p).
      { intros [w|]; [destruct (String.string_dec w "invamp") as [->|W]|]; try (apply fdbf_cell_defined; congruence).
        apply fdbf_cell_defined_invamp; auto. intros r Ir. rewrite Em, map_map in Ir. apply in_map_iff in Ir. destruct Ir as (s & <- & Is).
        cbn [List.length]. rewrite Csum_cons, Csum_nil. cbn [INR]. rewrite Rinv_1, RtoC_1, Cmod_zero.
        intros Q. apply (S s); [now apply (Permutation_in _ P)|]. unfold spectrum_of.
        transitivity (Cmul (Cadd (dft (amp (ser s)) k) C0) C1); [ring|exact Q]. }
      destruct (D wt) as (p & ->). eauto.
  - intros i0 v0 Hv0 Vn0 Hst [phi W]. rewrite (N i0 j v0 f k Hv0 Hf Ef).
    assert (Pl : plane (map toR offs) (2 * PI * toR f / toR v0) phi
              (fun i => Cmod (at2 (map (fun r => [dft r k]) tm) i 0)) (map (fun r => [dft r k]) tm)).
    { split; [now rewrite Lx|]. intros i1 Hi1. rewrite Eo, !map_length in Hi1.
      set (d0 := mkSensor (mkSeries [] 0 0 0 0) 0 0 0).
      destruct (W (nth i1 order d0)) as (A & PA & EA).
      { apply (Permutation_in _ P), nth_In, Hi1. }
      assert (Q : at2 (map (fun r => [dft r k]) tm) i1 0 = spectrum_of k (nth i1 order d0)).
      { unfold at2. rewrite Em, map_map. now rewrite (order_nth _ order d0). }
      rewrite Q, EA, Cmod_cexp_mul by lra. split; [exact PA|].
      rewrite Eo, map_map, (order_nth _ order d0) by auto. do 3 f_equal. unfold Rdiv. ring. }
    assert (Px : forall x, In x (map toR offs) -> 0 <= x).
    { intros x Ix. apply in_map_iff in Ix. destruct Ix as (y & <- & Iy). rewrite Eo in Iy. apply in_map_iff in Iy.
      destruct Iy as (s & <- & _). rewrite <- toR_0. apply toR_le. apply Qcabs_nonneg. }
    destruct (plane_peak angle wt st _ _ _ _ phi _ (toR v) (toR_nonzero v0 Vn0) Vr Hst Px Pl) as (p0 & p & -> & -> & B).
    eauto.
Qed.

(** * Travelling wavelets are plane waves *)
Lemma sumC_split p r g : sumC (p + r) g = Cadd (sumC p g) (sumC r (fun i => g (p + i)%nat)).
Proof.
  induction r as [|r IH].
  - rewrite Nat.add_0_r. change (sumC 0 (fun i => g (p + i)%nat)) with C0. ring.
  - assert (St : forall n h, sumC (S n) h = Cadd (sumC n h) (h n)).
    { intros n h. unfold sumC. rewrite seq_S, map_app, Csum_app. cbn [map]. rewrite Csum_cons, Csum_nil, Nat.add_0_l. ring. }
    rewrite Nat.add_succ_r, !St, IH. ring.
Qed.
Lemma dft_sum row k : dft row k = sumC (List.length row) (fun n => Cmul (RtoC (toR (nth n row 0%Qc)))
   (cexp (- (2 * PI * INR k * INR n / INR (List.length row))))).
Proof. reflexivity. Qed.
Lemma cexp_period t k : cexp (t - 2 * INR k * PI) = cexp t.
Proof.
  unfold cexp. rewrite <- (cos_period (t - 2 * INR k * PI) k), <- (sin_period (t - 2 * INR k * PI) k).
  do 2 f_equal; ring.
Qed.
Lemma delayed_length {X} d (w : list X) : (d <= List.length w)%nat -> List.length (delayed d w) = List.length w.
Proof. intros. unfold delayed. rewrite app_length, skipn_length, firstn_length. lia. Qed.
Lemma nth_skipn {X} p : forall (w : list X) i d, nth i (skipn p w) d = nth (p + i) w d.
Proof. induction p as [|p IH]; intros w i d; auto. destruct w as [|x w]; [destruct i; reflexivity|]. cbn. apply IH. Qed.
Lemma nth_firstn {X} p : forall (w : list X) i d, (i < p)%nat -> nth i (firstn p w) d = nth i w d.
Proof. induction p as [|p IH]; intros w i d H; [lia|]. destruct w as [|x w]; auto. destruct i; cbn; auto. apply IH. lia. Qed.
Lemma dft_delayed w d k : (d <= List.length w)%nat -> (0 < List.length w)%nat ->
  dft (delayed d w) k = Cmul (cexp (- (2 * PI * INR k * INR d / INR (List.length w)))) (dft w k).
Proof.
  intros Hd Hw. rewrite !dft_sum, delayed_length by auto. set (N := List.length w) in *.
  assert (NZ : INR N <> 0) by (apply not_0_INR; lia).
  set (e := fun x => cexp (- (2 * PI * INR k * x / INR N))).
  change (cexp (- (2 * PI * INR k * INR d / INR N))) with (e (INR d)).
  assert (S1 : forall h, sumC N h = Cadd (sumC d h) (sumC (N - d) (fun i => h (d + i)%nat))).
  { intros h. rewrite <- sumC_split. f_equal. lia. }
  assert (S2 : forall h, sumC N h = Cadd (sumC (N - d) h) (sumC d (fun i => h (N - d + i)%nat))).
  { intros h. rewrite <- sumC_split. f_equal. lia. }
  rewrite (S1 (fun n => Cmul (RtoC (toR (nth n (delayed d w) 0%Qc))) _)), (S2 (fun n => Cmul (RtoC (toR (nth n w 0%Qc))) _)).
  transitivity (Cadd (Cmul (e (INR d)) (sumC d (fun i => Cmul (RtoC (toR (nth (N - d + i) w 0%Qc))) (e (INR (N - d + i))))))
                     (Cmul (e (INR d)) (sumC (N - d) (fun i => Cmul (RtoC (toR (nth i w 0%Qc))) (e (INR i)))))).
  2: { unfold e. ring. }
  rewrite <- !sumC_mul. f_equal; apply sumC_ext; intros i Hi; unfold delayed; fold N.
  - rewrite app_nth1 by (rewrite skipn_length; fold N; lia). rewrite nth_skipn.
    transitivity (Cmul (RtoC (toR (nth (N - d + i) w 0%Qc))) (Cmul (e (INR d)) (e (INR (N - d + i))))); [|ring].
    f_equal. unfold e. rewrite <- cexp_add. rewrite <- (cexp_period (- (2 * PI * INR k * INR i / INR N)) k).
    f_equal. rewrite plus_INR, minus_INR by auto. field. auto.
  - rewrite app_nth2 by (rewrite skipn_length; fold N; lia). rewrite skipn_length. fold N.
    replace (d + i - (N - (N - d)))%nat with i by lia. rewrite nth_firstn by auto.
    transitivity (Cmul (RtoC (toR (nth i w 0%Qc))) (Cmul (e (INR d)) (e (INR i)))); [|ring].
    f_equal. unfold e. rewrite <- cexp_add. f_equal. rewrite plus_INR. field. auto.
Qed.
(** polar form *)
Lemma polar u : u <> C0 -> exists r phi, 0 < r /\ u = Cmul (RtoC r) (cexp phi).
Proof.
  intros H. set (r := Cmod u).
  assert (Pr : 0 < r).
  { destruct (Rle_lt_or_eq_dec 0 r (Cmod_nonneg u)) as [L|L]; auto. exfalso. apply H, Cmod_zero. now rewrite L. }
  pose proof (Cmod_sq u) as S. fold r in S. destruct u as [x y]. cbn [fst snd] in S.
  set (c := x / r). set (s := y / r).
  assert (U : c * c + s * s = 1).
  { unfold c, s. transitivity ((x * x + y * y) / (r * r)); [field; lra|]. rewrite <- S. field. lra. }
  assert (B : -1 <= c <= 1) by (pose proof (sq_nonneg s); nra).
  assert (Q : sqrt (1 - c * c) = Rabs s).
  { replace (1 - c * c) with (Rsqr s) by (unfold Rsqr; lra). apply sqrt_Rsqr_abs. }
  assert (X : exists phi, cos phi = c /\ sin phi = s).
  { destruct (Rle_dec 0 s) as [Sp|Sn].
    - exists (acos c). split; [now apply cos_acos|]. rewrite sin_acos by auto. unfold Rsqr. rewrite Q. now apply Rabs_pos_eq.
    - exists (- acos c). split; [rewrite cos_neg; now apply cos_acos|]. rewrite sin_neg, sin_acos by auto.
      unfold Rsqr. rewrite Q, Rabs_left by lra. ring. }
  destruct X as (phi & E1 & E2). exists r, phi. split; [exact Pr|]. unfold cexp, Cmul, RtoC. cbn [fst snd].
  rewrite E1, E2. unfold c, s. f_equal; field; lra.
Qed.
Lemma travelling_plane a w v n df m k : consistent a -> grid a n df m -> List.length w = n -> v <> 0%Qc ->
  travelling a w v -> dft w k <> C0 -> plane_wave a k (toR (QcN k * df)) (toR v).
Proof.
  intros C G Lw Vn Tr Nz. destruct (polar _ Nz) as (r & phi & Pr & Ep). exists phi. intros s Is.
  destruct (Tr s Is) as (A & d & PA & Hd & Ea & Ed).
  destruct (grid_df _ _ _ _ G) as (_ & s0 & I0 & N0 & D0).
  assert (Pn : (0 < n)%nat) by (destruct G as (? & ? & ? & ? & ? & _); auto).
  exists (toR A * r). split.
  { apply Rmult_lt_0_compat; auto. rewrite <- toR_0. now apply toR_lt. }
  unfold spectrum_of. rewrite Ea, dft_scale, dft_delayed by lia. rewrite Ep, Ed, Lw.
  assert (Edt : dt (ser s) = dt (ser s0)).
  { destruct C as (_ & _ & Ag). destruct (Ag s s0 Is I0) as (Q & _). exact Q. }
  assert (DR : toR df * (INR n * toR (dt (ser s))) = 1) by (rewrite Edt, <- toR_QcN, <- !toR_mul, D0; apply toR_1).
  transitivity (Cmul (Cmul (RtoC (toR A)) (RtoC r)) (Cmul (cexp phi) (cexp (- (2 * PI * INR k * INR d / INR n))))); [ring|].
  rewrite <- RtoC_mul, <- cexp_add. do 2 f_equal. rewrite !toR_mul, !toR_QcN.
  pose proof (toR_nonzero v Vn) as Vr.
  assert (NZ : INR n <> 0) by (apply not_0_INR; lia).
  assert (E : toR df * toR (dt (ser s)) = / INR n).
  { apply (Rmult_eq_reg_l (INR n)); auto. rewrite Rinv_r by auto. rewrite <- DR. ring. }
  transitivity (phi - 2 * PI * INR k * INR d * (toR df * toR (dt (ser s)))); [rewrite E; field; auto|field; auto].
Qed.
