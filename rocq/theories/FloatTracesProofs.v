(* Proofs about the matrix of traces in double precision. *)
From Coq Require Import Lra Lia.
From Verif Require Import PyFacts FloatModel FloatSpec FloatProofs FloatSlantModel FloatSlantProofs FloatNormModel FloatNormProofs FloatOffsetProofs FloatTracesModel FloatTracesSpec.

Lemma RN_opp x : RN (- x) = - RN x.
Proof. apply round_NE_opp. Qed.
Lemma double_abs x : double x -> double (Rabs x).
Proof. intros D. rewrite <- (RN_id x D), <- RN_Rabs. apply RN_double. Qed.
Lemma double_opp x : double x -> double (- x).
Proof. intros D. rewrite <- (RN_id x D), <- RN_opp. apply RN_double. Qed.

Lemma quotient_normalised p x : double p -> double x -> 0 < p -> Rabs x <= p -> normalised p x (RN (x / p)).
Proof.
  intros Dp Dx P Hx. pose proof u_pos as U0. apply Rabs_le_inv in Hx.
  assert (I : 0 < / p) by now apply Rinv_0_lt_compat.
  assert (One : p / p = 1) by (unfold Rdiv; apply Rinv_r; lra).
  assert (Z : RN (p / p) = 1) by (rewrite One; apply RN_1).
  assert (Zm : RN (- p / p) = -1) by (replace (- p / p) with (- (p / p)) by (unfold Rdiv; ring); now rewrite RN_opp, Z).
  assert (Up : RN (x / p) <= 1) by (rewrite <- Z; apply RN_mono, Rmult_le_compat_r; lra).
  assert (Lo : -1 <= RN (x / p)) by (rewrite <- Zm; apply RN_mono, Rmult_le_compat_r; lra).
  assert (Nn : 0 <= x -> 0 <= RN (x / p)) by (intros X; apply RN_nonneg, Rmult_le_pos; lra).
  assert (Np : x <= 0 -> RN (x / p) <= 0).
  { intros X. rewrite <- RN_0. apply RN_mono. assert (0 <= - x * / p) by (apply Rmult_le_pos; lra). unfold Rdiv. lra. }
  assert (Qd : forall y, RN (- y / p) = - RN (y / p)) by (intros y; rewrite <- RN_opp; f_equal; unfold Rdiv; ring).
  split; [apply RN_double|]. split; [lra|]. split; [|split; [|split; [|split]]]; auto; [| |apply RN_error].
  - split; [|intros ->; exact Z]. intros E. destruct (Rle_lt_dec 0 x) as [X|X]; [|assert (RN (x / p) <= 0) by (apply Np; lra); lra].
    destruct (Rle_lt_dec p x) as [Y|Y]; [lra|]. pose proof (quotient_below x p Dx Dp X Y). lra.
  - split; [|intros ->; exact Zm]. intros E. destruct (Rle_lt_dec x 0) as [X|X]; [|assert (0 <= RN (x / p)) by (apply Nn; lra); lra].
    destruct (Rle_lt_dec x (- p)) as [Y|Y]; [lra|].
    pose proof (quotient_below (- x) p (double_opp x Dx) Dp ltac:(lra) ltac:(lra)) as Q. rewrite Qd in Q. lra.
Qed.

Lemma at_in n k m i j : recorded n k m -> (i < n)%nat -> (j < k)%nat -> In (at_ m i j) (concat m) /\ In (at_ m i j) (nth i m []) /\ double (at_ m i j).
Proof.
  intros [L F] Hi Hj. rewrite Forall_forall in F. assert (R : In (nth i m []) m) by (apply nth_In; lia). destruct (F _ R) as [Lk D].
  assert (In (at_ m i j) (nth i m [])) as X by (apply nth_In; lia). rewrite Forall_forall in D. split; [|split]; auto.
  apply in_concat. eauto.
Qed.
Lemma in_at n k m x : recorded n k m -> In x (concat m) -> exists i j, (i < n)%nat /\ (j < k)%nat /\ at_ m i j = x.
Proof.
  intros [L F] H. apply in_concat in H. destruct H as (t & Ht & Hx). rewrite Forall_forall in F. destruct (F _ Ht) as [Lt _].
  apply (In_nth _ _ []) in Ht. apply (In_nth _ _ 0) in Hx. destruct Ht as (i & Hi & Ei), Hx as (j & Hj & Ej).
  exists i, j. unfold at_. rewrite Ei, Ej. repeat split; lia.
Qed.
Lemma largest_is l x : (exists y, In y l /\ Rabs y = x) -> (forall y, In y l -> Rabs y <= x) -> largest l = x.
Proof.
  intros (y & Hy & <-) H. apply np_max_unique; [now apply in_map|]. intros z Hz. apply in_map_iff in Hz. destruct Hz as (w & <- & Hw). auto.
Qed.
Lemma trace_peak n k m i x : recorded n k m -> (i < n)%nat -> peak_of_trace k m i x -> largest (nth i m []) = x.
Proof.
  intros Rc Hi [(j & Hj & E) H]. apply largest_is.
  - exists (at_ m i j). split; [now apply (at_in n k)|exact E].
  - intros y Hy. destruct Rc as [L F]. rewrite Forall_forall in F. destruct (F (nth i m [])) as [Lk _]; [apply nth_In; lia|].
    apply (In_nth _ _ 0) in Hy. destruct Hy as (j' & Hj' & <-). apply H. lia.
Qed.
Lemma all_peak n k m x : recorded n k m -> peak_of_all n k m x -> largest (concat m) = x.
Proof.
  intros Rc [(i & j & Hi & Hj & E) H]. apply largest_is.
  - exists (at_ m i j). split; [now apply (at_in n k)|exact E].
  - intros y Hy. destruct (in_at n k m y Rc Hy) as (i' & j' & Hi' & Hj' & <-). auto.
Qed.
Lemma divided_nth l d j : (j < length l)%nat -> nth j (divided l d) 0 = RN (nth j l 0 / d).
Proof. intros H. unfold divided. now rewrite (nth_map_lt (fun x => RN (x / d)) l j 0 0). Qed.

Section Matrix.
Variables (n k : nat) (detrend : list R -> list R) (traces : list (list R)).
Hypothesis Rc : recorded n k (map detrend traces).
Local Notation m := (map detrend traces).
Lemma count : length traces = n. Proof. destruct Rc as [L _]. now rewrite map_length in L. Qed.
Lemma row_length i : (i < n)%nat -> length (nth i m []) = k.
Proof. intros Hi. destruct Rc as [L F]. rewrite Forall_forall in F. apply F, nth_In. lia. Qed.
Lemma row_is i : (i < n)%nat -> nth i m [] = detrend (nth i traces []).
Proof. intros Hi. apply nth_map_lt. now rewrite count. Qed.
Lemma plain s : s <> "each"%string -> s <> "all"%string -> timeseriesmatrix detrend s traces = m.
Proof.
  intros E A. unfold timeseriesmatrix, row_of. apply String.eqb_neq in E. apply String.eqb_neq in A. rewrite A, E. reflexivity.
Qed.
Lemma each_at i j : (i < n)%nat -> (j < k)%nat -> at_ (timeseriesmatrix detrend "each" traces) i j = RN (at_ m i j / largest (nth i m [])).
Proof.
  intros Hi Hj. unfold at_, timeseriesmatrix. cbn [String.eqb Ascii.eqb Bool.eqb].
  rewrite (nth_map_lt _ _ _ [] []) by now rewrite count. unfold row_of. cbn [String.eqb Ascii.eqb Bool.eqb]. rewrite divided_nth; rewrite <- row_is by exact Hi; auto.
  now rewrite row_length.
Qed.
Lemma all_at i j : (i < n)%nat -> (j < k)%nat -> at_ (timeseriesmatrix detrend "all" traces) i j = RN (at_ m i j / largest (concat m)).
Proof.
  intros Hi Hj. unfold at_, timeseriesmatrix. cbn [String.eqb Ascii.eqb Bool.eqb].
  change (map (row_of detrend "all") traces) with m.
  rewrite (nth_map_lt _ _ _ [] []) by (rewrite map_length; now rewrite count). apply divided_nth. now rewrite row_length.
Qed.
Lemma shape s : length (timeseriesmatrix detrend s traces) = n /\ forall t, In t (timeseriesmatrix detrend s traces) -> length t = k.
Proof.
  destruct Rc as [L F]. rewrite Forall_forall in F. rewrite map_length in L.
  assert (Rw : forall t, In t (map (row_of detrend s) traces) -> length t = k).
  { intros t Ht. apply in_map_iff in Ht. destruct Ht as (a & <- & Ha). unfold row_of, divided.
    destruct (F (detrend a)) as [Q _]; [now apply in_map|]. destruct (String.eqb s "each"); [now rewrite map_length|exact Q]. }
  unfold timeseriesmatrix. destruct (String.eqb s "all").
  - rewrite !map_length. split; [exact L|]. intros t Ht. apply in_map_iff in Ht. destruct Ht as (a & <- & Ha). unfold divided. rewrite map_length. auto.
  - rewrite map_length. auto.
Qed.
Lemma each_normalised i p : (i < n)%nat -> peak_of_trace k m i p -> 0 < p ->
  forall j, (j < k)%nat -> normalised p (at_ m i j) (at_ (timeseriesmatrix detrend "each" traces) i j).
Proof.
  intros Hi Pk P j Hj. rewrite each_at by auto. rewrite (trace_peak n k m i p) by auto. destruct Pk as [(j' & Hj' & E) H].
  apply quotient_normalised; auto; [rewrite <- E; apply double_abs|]; now apply (at_in n k).
Qed.
Lemma all_normalised p : peak_of_all n k m p -> 0 < p ->
  forall i j, (i < n)%nat -> (j < k)%nat -> normalised p (at_ m i j) (at_ (timeseriesmatrix detrend "all" traces) i j).
Proof.
  intros Pk P i j Hi Hj. rewrite all_at by auto. rewrite (all_peak n k m p) by auto. destruct Pk as [(i' & j' & Hi' & Hj' & E) H].
  apply quotient_normalised; auto; [rewrite <- E; apply double_abs|]; now apply (at_in n k).
Qed.
Lemma each_order i p : (i < n)%nat -> peak_of_trace k m i p -> 0 < p -> forall j j', (j < k)%nat -> (j' < k)%nat ->
  at_ m i j <= at_ m i j' -> at_ (timeseriesmatrix detrend "each" traces) i j <= at_ (timeseriesmatrix detrend "each" traces) i j'.
Proof.
  intros Hi Pk P j j' Hj Hj' L. rewrite !each_at by auto. rewrite (trace_peak n k m i p) by auto.
  apply RN_mono, Rmult_le_compat_r; [left; now apply Rinv_0_lt_compat|exact L].
Qed.
Lemma all_order p : peak_of_all n k m p -> 0 < p -> forall i j i' j', (i < n)%nat -> (j < k)%nat -> (i' < n)%nat -> (j' < k)%nat ->
  at_ m i j <= at_ m i' j' -> at_ (timeseriesmatrix detrend "all" traces) i j <= at_ (timeseriesmatrix detrend "all" traces) i' j'.
Proof.
  intros Pk P i j i' j' Hi Hj Hi' Hj' L. rewrite !all_at by auto. rewrite (all_peak n k m p) by auto.
  apply RN_mono, Rmult_le_compat_r; [left; now apply Rinv_0_lt_compat|exact L].
Qed.
End Matrix.

Lemma same_matrix n k a b : length a = n -> length b = n -> (forall t, In t a -> length t = k) -> (forall t, In t b -> length t = k) ->
  (forall i j, (i < n)%nat -> (j < k)%nat -> at_ a i j = at_ b i j) -> a = b.
Proof.
  intros La Lb Fa Fb H. apply (nth_ext _ _ [] []); [lia|]. intros i Hi.
  assert (length (nth i a []) = k) by (apply Fa, nth_In; lia). assert (length (nth i b []) = k) by (apply Fb, nth_In; lia).
  apply (nth_ext _ _ 0 0); [lia|]. intros j Hj. apply H; lia.
Qed.
Lemma recorded_of n k detrend traces s : recorded n k (map detrend traces) ->
  (s = "each"%string -> forall i, (i < n)%nat -> exists p, 0 < p /\ peak_of_trace k (map detrend traces) i p) ->
  (s = "all"%string -> exists p, 0 < p /\ peak_of_all n k (map detrend traces) p) ->
  recorded n k (timeseriesmatrix detrend s traces).
Proof.
  intros Rc He Ha. destruct (shape n k detrend traces Rc s) as [L F]. split; [exact L|]. apply Forall_forall. intros t Ht.
  pose proof (F t Ht) as Lt. split; [exact Lt|]. apply Forall_forall. intros x Hx.
  apply (In_nth _ _ []) in Ht. apply (In_nth _ _ 0) in Hx. destruct Ht as (i & Hi & Ei), Hx as (j & Hj & Ej).
  assert (X : x = at_ (timeseriesmatrix detrend s traces) i j) by (unfold at_; now rewrite Ei).
  destruct (string_dec s "each") as [->|Se].
  - destruct (He eq_refl i ltac:(lia)) as (p & P & Pk). rewrite X. apply (each_normalised n k detrend traces Rc i p); auto; lia.
  - destruct (string_dec s "all") as [->|Sa].
    + destruct (Ha eq_refl) as (p & P & Pk). rewrite X. apply (all_normalised n k detrend traces Rc p); auto; lia.
    + rewrite X, plain by auto. apply (at_in n k); auto; lia.
Qed.
(** Normalising what has been normalised changes nothing. *)
Lemma quotient_by_one n k detrend traces s : recorded n k (map detrend traces) -> s = "each"%string \/ s = "all"%string ->
  (forall i, (i < n)%nat -> s = "each"%string -> exists p, 0 < p /\ peak_of_trace k (map detrend traces) i p) ->
  (s = "all"%string -> exists p, 0 < p /\ peak_of_all n k (map detrend traces) p) ->
  timeseriesmatrix (fun l => l) s (timeseriesmatrix detrend s traces) = timeseriesmatrix detrend s traces.
Proof.
  intros Rc Hs He Ha. assert (Rc' : recorded n k (timeseriesmatrix detrend s traces)) by (apply recorded_of; auto).
  set (b := timeseriesmatrix detrend s traces) in *. assert (Rc2 : recorded n k (map (fun l : list R => l) b)) by now rewrite map_id.
  destruct (shape n k _ _ Rc2 s) as [L1 F1]. destruct (shape n k _ _ Rc s) as [L2 F2]. fold b in L2, F2.
  apply (same_matrix n k); auto. intros i j Hi Hj. pose proof (at_in n k b i j Rc' Hi Hj) as (_ & _ & D). destruct Hs as [-> | ->].
  - rewrite (each_at n k) by auto. destruct (He i Hi eq_refl) as (p & P & Pk).
    rewrite (trace_peak n k _ i 1), map_id; auto; [unfold Rdiv; rewrite Rinv_1, Rmult_1_r; now apply RN_id|]. rewrite map_id.
    pose proof (each_normalised n k detrend traces Rc i p Hi Pk P) as Nm. fold b in Nm. split.
    + destruct Pk as [(j' & Hj' & E) _]. exists j'. split; [exact Hj'|]. destruct (Nm j' Hj') as (_ & _ & N1 & N2 & _).
      unfold Rabs in E. destruct (Rcase_abs (at_ (map detrend traces) i j')).
      * rewrite (proj2 N2) by lra. rewrite Rabs_left; lra.
      * rewrite (proj2 N1) by lra. apply Rabs_R1.
    + intros j' Hj'. destruct (Nm j' Hj') as (_ & B & _). apply Rabs_le. lra.
  - rewrite (all_at n k) by auto. destruct (Ha eq_refl) as (p & P & Pk).
    rewrite (all_peak n k _ 1), map_id; auto; [unfold Rdiv; rewrite Rinv_1, Rmult_1_r; now apply RN_id|]. rewrite map_id.
    pose proof (all_normalised n k detrend traces Rc p Pk P) as Nm. fold b in Nm. split.
    + destruct Pk as [(i' & j' & Hi' & Hj' & E) _]. exists i', j'. split; [exact Hi'|]. split; [exact Hj'|]. destruct (Nm i' j' Hi' Hj') as (_ & _ & N1 & N2 & _).
      unfold Rabs in E. destruct (Rcase_abs (at_ (map detrend traces) i' j')).
      * rewrite (proj2 N2) by lra. rewrite Rabs_left; lra.
      * rewrite (proj2 N1) by lra. apply Rabs_R1.
    + intros i' j' Hi' Hj'. destruct (Nm i' j' Hi' Hj') as (_ & B & _). apply Rabs_le. lra.
Qed.
(** A change of units by a factor that rounds nothing changes nothing. *)
Lemma largest_scaled c l : 0 < c -> l <> [] -> largest (map (Rmult c) l) = c * largest l.
Proof.
  intros C Ne. destruct (np_max_spec (map Rabs l)) as [H1 H2]; [now destruct l|]. fold (largest l) in *. apply largest_is.
  - apply in_map_iff in H1. destruct H1 as (y & E & Hy). exists (c * y). split; [now apply in_map|]. rewrite Rabs_mult, E, (Rabs_right c) by lra. reflexivity.
  - intros y Hy. apply in_map_iff in Hy. destruct Hy as (z & <- & Hz). rewrite Rabs_mult, (Rabs_right c) by lra.
    apply Rmult_le_compat_l; [lra|]. apply H2, in_map, Hz.
Qed.
Lemma divided_scaled c l d : 0 < c -> divided (map (Rmult c) l) (c * d) = divided l d.
Proof.
  intros C. unfold divided. rewrite map_map. apply map_ext. intros x. f_equal. destruct (Req_dec d 0) as [->|Hd].
  - rewrite Rmult_0_r. unfold Rdiv. rewrite Rinv_0. ring.
  - field. lra.
Qed.
Lemma units c s traces : 0 < c -> s = "each"%string \/ s = "all"%string -> (forall t, In t traces -> t <> []) -> 
  timeseriesmatrix (fun l => l) s (map (map (Rmult c)) traces) = timeseriesmatrix (fun l => l) s traces.
Proof.
  intros C Hs Ne. destruct Hs as [-> | ->]; unfold timeseriesmatrix; cbn [String.eqb Ascii.eqb Bool.eqb].
  - rewrite map_map. apply map_ext_in. intros t Ht. unfold row_of. cbn [String.eqb Ascii.eqb Bool.eqb].
    rewrite largest_scaled by auto. now apply divided_scaled.
  - unfold row_of. cbn [String.eqb Ascii.eqb Bool.eqb]. rewrite !map_id. rewrite map_map. apply map_ext_in. intros t Ht.
    rewrite <- concat_map, largest_scaled; [now apply divided_scaled|auto|].
    intros E. apply (Ne t Ht). destruct t as [|x t]; [reflexivity|]. assert (X : In x (concat traces)) by (apply in_concat; exists (x :: t); split; [exact Ht|now left]).
    now rewrite E in X.
Qed.
