(* Proofs about normalisation in double precision. *)
From Coq Require Import Lra Lia Psatz.
From Flocq Require Import Relative.
From Verif Require Import FloatModel FloatSpec FloatProofs FloatNormModel FloatNormSpec.

Local Instance valid_fexp : Valid_exp fexp. Proof. apply FLT_exp_valid. reflexivity. Qed.
Local Instance valid_rnd : Valid_rnd ZnearestE. Proof. apply valid_rnd_N. Qed.
Local Instance prec_pos : Prec_gt_0 53. Proof. reflexivity. Qed.

Lemma u_bpow : u = bpow radix2 (-53).
Proof. unfold u. change (-53)%Z with (- (53))%Z. rewrite bpow_opp. f_equal. Qed.
Lemma small_pos : 0 < small. Proof. unfold small. apply Rinv_0_lt_compat. apply IZR_lt. reflexivity. Qed.
Lemma small_bpow : small = bpow radix2 (-1000).
Proof. unfold small. change (-1000)%Z with (- (1000))%Z. rewrite bpow_opp. f_equal. Qed.
Lemma double_0 : double 0. Proof. apply generic_format_0. Qed.
Lemma double_1 : double 1.
Proof. change 1 with (bpow radix2 0). apply generic_format_bpow. unfold fexp, FLT_exp. lia. Qed.
Lemma RN_0 : RN 0 = 0. Proof. apply RN_id, double_0. Qed.
Lemma RN_1 : RN 1 = 1. Proof. apply RN_id, double_1. Qed.
Lemma RN_nonneg x : 0 <= x -> 0 <= RN x.
Proof. intros H. rewrite <- RN_0. now apply RN_mono. Qed.

(** A quotient of two different doubles is never rounded up to one. *)
Lemma below_one x : x < 1 - u / 2 -> RN x <= 1 - u.
Proof.
  intros H.
  assert (P : pred radix2 fexp 1 = 1 - u).
  { change 1 with (bpow radix2 0) at 1. rewrite pred_bpow, u_bpow. reflexivity. }
  assert (D : double (1 - u)) by (rewrite <- P; apply generic_format_pred; [apply valid_fexp|apply double_1]).
  apply round_N_le_midp; [apply valid_fexp|exact D|].
  replace (succ radix2 fexp (1 - u)) with 1; [lra|].
  rewrite <- P. symmetry. apply succ_pred; [apply valid_fexp|apply double_1].
Qed.
Lemma quotient_below p g : double p -> double g -> 0 <= p -> p < g -> RN (p / g) <= 1 - u.
Proof.
  intros Dp Dg H0 H. apply below_one.
  assert (Q : p + ulp radix2 fexp p <= g).
  { rewrite <- succ_eq_pos by exact H0. now apply succ_le_lt; [apply valid_fexp| | |]. }
  pose proof (ulp_FLT_gt radix2 (-1074) 53 p) as U. rewrite Rabs_pos_eq in U by exact H0.
  change (bpow radix2 (- (53))) with (bpow radix2 (-53)) in U. rewrite <- u_bpow in U.
  change (FLT_exp (-1074) 53) with fexp in U.
  pose proof u_pos as U0. assert (U1 : u <= / 1000) by (rewrite u_value; lra).
  apply Rmult_lt_reg_r with g; [lra|]. unfold Rdiv. rewrite Rmult_assoc, Rinv_l, Rmult_1_r by lra. nra.
Qed.
Lemma product_below q g : double g -> small <= g -> q <= 1 - u -> RN (q * g) < g.
Proof.
  intros Dg Hg Hq. pose proof u_pos as U0. pose proof small_pos as S0.
  assert (G0 : 0 < g) by lra.
  set (p := pred radix2 fexp g).
  assert (P : p + ulp radix2 fexp p = g) by (apply pred_plus_ulp; [apply valid_fexp|exact G0|exact Dg]).
  assert (L : bpow radix2 (-1022) <= p).
  { apply pred_ge_gt; [apply valid_fexp| |exact Dg|].
    - apply generic_format_bpow. unfold fexp, FLT_exp. lia.
    - apply Rlt_le_trans with (2 := Hg). rewrite small_bpow. apply bpow_lt. lia. }
  assert (P0 : 0 < p) by (pose proof (bpow_gt_0 radix2 (-1022)); lra).
  pose proof (ulp_FLT_le radix2 (-1074) 53 p) as U. rewrite Rabs_pos_eq in U by lra.
  specialize (U L). change (FLT_exp (-1074) 53) with fexp in U.
  replace (bpow radix2 (1 - 53)) with (2 * u) in U by (rewrite u_bpow; change 2 with (bpow radix2 1) at 1; now rewrite <- bpow_plus).
  apply Rle_lt_trans with p; [|apply pred_lt_id; lra].
  apply round_N_le_midp; [apply valid_fexp|apply generic_format_pred; [apply valid_fexp|exact Dg]|].
  unfold p at 2. rewrite succ_pred by (apply valid_fexp || exact Dg).
  assert (q * g <= (1 - u) * g) by (apply Rmult_le_compat_r; lra).
  assert (p < g) by (apply pred_lt_id; lra). assert (u * p < u * g) by (apply Rmult_lt_compat_l; lra). lra.
Qed.

(** What one normalisation by [d] and the following return leave of [x]. *)
Definition there_and_back (d x : R) : R := RN (RN (x / d) * d).
Lemma back_top d : double d -> 0 < d -> there_and_back d d = d /\ RN (d / d) = 1.
Proof.
  intros D H. unfold there_and_back. unfold Rdiv. rewrite Rinv_r by lra. rewrite RN_1, Rmult_1_l. split; [now apply RN_id|reflexivity].
Qed.
Lemma back_below d x : double d -> small <= d -> double x -> 0 <= x < d -> RN (x / d) < 1 /\ there_and_back d x < d.
Proof.
  intros D H Dx Hx. pose proof u_pos. pose proof (quotient_below x d Dx D ltac:(lra) ltac:(lra)) as Q.
  split; [lra|]. now apply product_below.
Qed.
Lemma back_mono d x y : 0 < d -> x <= y -> there_and_back d x <= there_and_back d y.
Proof.
  intros H L. apply RN_mono, Rmult_le_compat_r; [lra|]. apply RN_mono.
  apply Rmult_le_compat_r; [left; now apply Rinv_0_lt_compat|exact L].
Qed.
Lemma quotient_nonneg d x : 0 < d -> 0 <= x -> 0 <= RN (x / d).
Proof. intros H Hx. apply RN_nonneg. apply Rmult_le_pos; [exact Hx|left; now apply Rinv_0_lt_compat]. Qed.
Lemma back_nonneg d x : 0 < d -> 0 <= x -> 0 <= there_and_back d x.
Proof.
  intros H Hx. apply RN_nonneg, Rmult_le_pos; [|lra]. now apply quotient_nonneg.
Qed.
Lemma back_error d x : 0 < d -> 0 <= x -> Rabs (there_and_back d x - x) <= 3 * (u * x) + tiny / 16 * (d + 1).
Proof.
  intros H Hx. unfold there_and_back. pose proof u_pos as U0. pose proof tiny_pos as T0.
  assert (U1 : u <= / 1000) by (rewrite u_value; lra).
  set (t := tiny / 32). replace (tiny / 16) with (2 * t) by (unfold t; lra). assert (T1 : 0 < t) by (unfold t; lra).
  pose proof (RN_error (x / d)) as E1. fold t in E1.
  assert (Q0 : 0 <= x / d) by (apply Rmult_le_pos; [lra|left; now apply Rinv_0_lt_compat]).
  rewrite (Rabs_pos_eq (x / d)) in E1 by exact Q0.
  pose proof (RN_error (RN (x / d) * d)) as E2. fold t in E2.
  set (q := RN (x / d)) in *. assert (q0 : 0 <= q) by now apply quotient_nonneg.
  rewrite (Rabs_pos_eq (q * d)) in E2 by (apply Rmult_le_pos; lra).
  assert (X : x / d * d = x) by (unfold Rdiv; rewrite Rmult_assoc, Rinv_l by lra; lra).
  assert (E3 : Rabs (q * d - x) <= u * x + t * d).
  { replace (q * d - x) with ((q - x / d) * d) by lra. rewrite Rabs_mult, (Rabs_pos_eq d) by lra.
    apply Rle_trans with ((u * (x / d) + t) * d); [apply Rmult_le_compat_r; lra|].
    right. replace ((u * (x / d) + t) * d) with (u * (x / d * d) + t * d) by ring. now rewrite X. }
  assert (E4 : q * d <= x + u * x + t * d) by (pose proof (Rle_abs (q * d - x)); lra).
  replace (RN (q * d) - x) with ((RN (q * d) - q * d) + (q * d - x)) by ring.
  apply Rle_trans with (1 := Rabs_triang _ _).
  assert (u * (q * d) <= u * (x + u * x + t * d)) by (apply Rmult_le_compat_l; lra).
  assert (X0 : 0 <= u * x) by (apply Rmult_le_pos; lra). assert (X1 : 0 <= t * d) by (apply Rmult_le_pos; lra).
  assert (u * (u * x) <= / 1000 * (u * x)) by (apply Rmult_le_compat_r; lra).
  assert (u * (t * d) <= / 1000 * (t * d)) by (apply Rmult_le_compat_r; lra). lra.
Qed.

(** Lists. *)
Lemma np_max_spec l : l <> [] -> In (np_max l) l /\ forall x, In x l -> x <= np_max l.
Proof.
  destruct l as [|y t]; [easy|]. intros _. unfold np_max. split; [apply greatest_in|].
  destruct (greatest_ge t y) as [H1 H2]. intros x [<-|Hx]; auto.
Qed.
Lemma np_max_unique l x : In x l -> (forall y, In y l -> y <= x) -> np_max l = x.
Proof.
  intros I H. assert (N : l <> []) by now destruct l.
  destruct (np_max_spec l N) as [I' H']. apply Rle_antisym; auto.
Qed.
Lemma nth_map_in {A B} (f : A -> B) l i d d' : (i < length l)%nat -> nth i (map f l) d' = f (nth i l d).
Proof. intros H. rewrite (nth_indep _ d' (f d)) by now rewrite map_length. apply map_nth. Qed.
Lemma map2_length f a b : length a = length b -> length (map2 f a b) = length a.
Proof. intros H. unfold map2. rewrite map_length, combine_length. lia. Qed.
Lemma map2_nth f a b j : length a = length b -> (j < length a)%nat -> nth j (map2 f a b) 0 = f (nth j a 0) (nth j b 0).
Proof.
  intros H J. unfold map2. rewrite (nth_map_in _ _ _ (0, 0)) by (rewrite combine_length; lia).
  rewrite combine_nth by exact H. reflexivity.
Qed.

(** Entries. *)
Definition shape (nr nc : nat) (m : list (list R)) : Prop := length m = nr /\ Forall (fun row => length row = nc) m.
Definition fac (f : factor) (j : nat) : R := match f with One x => x | Each l => nth j l 0 end.
Definition fac_ok (nc : nat) (f : factor) : Prop := match f with One _ => True | Each l => length l = nc end.
Lemma shape_row nr nc m i : shape nr nc m -> (i < nr)%nat -> length (nth i m []) = nc.
Proof. intros [L F] H. rewrite Forall_forall in F. apply F, nth_In. lia. Qed.
Lemma powers_shape nr nc m : powers nr nc m -> shape nr nc m.
Proof. intros [L F]. split; [exact L|]. eapply Forall_impl; [|exact F]. now intros r [H _]. Qed.
Lemma powers_at nr nc m i j : powers nr nc m -> (i < nr)%nat -> (j < nc)%nat -> double (at_ m i j) /\ 0 <= at_ m i j.
Proof.
  intros [L F] Hi Hj. rewrite Forall_forall in F. assert (Hm : (i < length m)%nat) by lia. destruct (F (nth i m []) (nth_In _ _ Hm)) as [Lr Fr].
  rewrite Forall_forall in Fr. apply Fr, nth_In. lia.
Qed.
Lemma powers_of nr nc m : shape nr nc m -> (forall i j, (i < nr)%nat -> (j < nc)%nat -> double (at_ m i j) /\ 0 <= at_ m i j) -> powers nr nc m.
Proof.
  intros [L F] H. split; [exact L|]. apply Forall_forall. intros row Hr. rewrite Forall_forall in F.
  split; [auto|]. apply Forall_forall. intros x Hx.
  destruct (In_nth _ _ [] Hr) as (i & Hi & <-). destruct (In_nth _ _ 0 Hx) as (j & Hj & <-).
  apply (H i j); [lia|]. rewrite (F _ Hr) in Hj. exact Hj.
Qed.
Lemma shape_eq nr nc m m' : shape nr nc m -> shape nr nc m' ->
  (forall i j, (i < nr)%nat -> (j < nc)%nat -> at_ m i j = at_ m' i j) -> m = m'.
Proof.
  intros S1 S2 H. apply nth_ext with [] []; [destruct S1, S2; lia|]. intros i Hi.
  assert (i < nr)%nat by (destruct S1; lia).
  apply nth_ext with 0 0; [now rewrite (shape_row _ _ _ _ S1), (shape_row _ _ _ _ S2)|].
  intros j Hj. rewrite (shape_row _ _ _ _ S1) in Hj by assumption. now apply H.
Qed.
Lemma by_factor_shape nr nc op m f : shape nr nc m -> fac_ok nc f -> shape nr nc (by_factor op m f).
Proof.
  intros [L F] K. destruct f as [x|l]; cbn in *; (split; [now rewrite map_length|]); apply Forall_forall; intros r Hr;
  apply in_map_iff in Hr; destruct Hr as (row & <- & Hr); rewrite Forall_forall in F; specialize (F _ Hr).
  - now rewrite map_length.
  - rewrite map2_length; congruence.
Qed.
Lemma by_factor_at nr nc op m f i j : shape nr nc m -> fac_ok nc f -> (i < nr)%nat -> (j < nc)%nat ->
  at_ (by_factor op m f) i j = RN (op (at_ m i j) (fac f j)).
Proof.
  intros Sh K Hi Hj. pose proof (shape_row _ _ _ _ Sh Hi) as Lr. destruct Sh as [L _]. unfold at_. destruct f as [x|l]; cbn in *.
  - rewrite (nth_map_in _ _ _ []) by lia. now rewrite (nth_map_in _ _ _ 0) by lia.
  - rewrite (nth_map_in _ _ _ []) by lia. apply map2_nth; lia.
Qed.
Lemma abs_same nr nc m : powers nr nc m -> map (map Rabs) m = m.
Proof.
  intros [_ F]. rewrite <- (map_id m) at 2. apply map_ext_in. intros row Hr. rewrite Forall_forall in F.
  destruct (F _ Hr) as [_ Fr]. rewrite <- (map_id row) at 2. apply map_ext_in. intros x Hx. rewrite Forall_forall in Fr.
  apply Rabs_pos_eq. now apply Fr.
Qed.

(** The greatest entries. *)
Lemma column_in nr nc m j x : shape nr nc m -> In x (column m j) <-> exists i, (i < nr)%nat /\ at_ m i j = x.
Proof.
  intros [L _]. unfold column. rewrite in_map_iff. split.
  - intros (row & <- & Hr). destruct (In_nth _ _ [] Hr) as (i & Hi & <-). exists i. split; [lia|reflexivity].
  - intros (i & Hi & <-). exists (nth i m []). split; [reflexivity|]. apply nth_In. lia.
Qed.
Lemma column_max nr nc m j : shape nr nc m -> (0 < nr)%nat -> column_top nr m j (np_max (column m j)).
Proof.
  intros Sh Hn. assert (N : column m j <> []).
  { intros E. assert (L : length (column m j) = nr) by (unfold column; rewrite map_length; apply Sh). rewrite E in L. cbn in L. lia. }
  destruct (np_max_spec _ N) as [I H]. split.
  - now apply (column_in nr nc).
  - intros i Hi. apply H. apply (column_in nr nc); [exact Sh|]. now exists i.
Qed.
Lemma column_top_unique nr m j x y : column_top nr m j x -> column_top nr m j y -> x = y.
Proof.
  intros [(i & Hi & <-) H1] [(k & Hk & <-) H2]. apply Rle_antisym; auto.
Qed.
Lemma top_unique nr nc m x y : top nr nc m x -> top nr nc m y -> x = y.
Proof.
  intros [(i & j & Hi & Hj & <-) H1] [(k & l & Hk & Hl & <-) H2]. apply Rle_antisym; auto.
Qed.
Lemma max_columns_nth nr nc m j : shape nr nc m -> (0 < nr)%nat -> (j < nc)%nat -> column_top nr m j (nth j (max_columns m) 0).
Proof.
  intros Sh Hn Hj. unfold max_columns.
  assert (W : width m = nc). { unfold width. destruct m as [|row t]; destruct Sh as [L F]; [cbn in L; lia|]. now inversion F. }
  rewrite W. rewrite (nth_map_in _ _ _ 0%nat) by now rewrite seq_length. rewrite seq_nth by exact Hj.
  now apply column_max with nc.
Qed.
Lemma max_columns_length nr nc m : shape nr nc m -> (0 < nr)%nat -> length (max_columns m) = nc.
Proof.
  intros Sh Hn. unfold max_columns. rewrite map_length, seq_length.
  unfold width. destruct m as [|row t]; destruct Sh as [L F]; [cbn in L; lia|]. now inversion F.
Qed.
Lemma max_all_top nr nc m : shape nr nc m -> (0 < nr)%nat -> (0 < nc)%nat -> top nr nc m (max_all m).
Proof.
  intros Sh Hr Hc. unfold max_all.
  assert (X : forall x, In x (concat m) <-> exists i j, (i < nr)%nat /\ (j < nc)%nat /\ at_ m i j = x).
  { intros x. rewrite in_concat. split.
    - intros (row & Hrow & Hx). destruct (In_nth _ _ [] Hrow) as (i & Hi & <-). destruct (In_nth _ _ 0 Hx) as (j & Hj & <-).
      assert (i < nr)%nat by (destruct Sh; lia). exists i, j. rewrite (shape_row _ _ _ _ Sh) in Hj by assumption. auto.
    - intros (i & j & Hi & Hj & <-). exists (nth i m []). split; [apply nth_In; destruct Sh; lia|]. apply nth_In. rewrite (shape_row _ _ _ _ Sh); assumption. }
  assert (N : concat m <> []).
  { intros E. assert (I : In (at_ m 0 0) (concat m)) by (apply X; exists 0%nat, 0%nat; auto). rewrite E in I. destruct I. }
  destruct (np_max_spec _ N) as [I H]. split; [now apply X|]. intros i j Hi Hj. apply H, X. now exists i, j.
Qed.

(** One call, in terms of the image before any normalisation. *)
Definition restored (w : image) : list (list R) := by_factor Rmult (power w) (to_abs w).
Lemma restored_fresh nr nc m : powers nr nc m -> restored (mk m (One 1)) = m.
Proof.
  intros P. pose proof (powers_shape _ _ _ P) as Sh. unfold restored. cbn [power to_abs].
  apply (shape_eq nr nc); [now apply by_factor_shape|exact Sh|]. intros i j Hi Hj.
  rewrite (by_factor_at nr nc) by (exact Sh || exact I || assumption). cbn [fac]. rewrite Rmult_1_r. apply RN_id. now apply (powers_at nr nc).
Qed.
Section step.
  Context (nr nc : nat) (Hr : (0 < nr)%nat) (Hc : (0 < nc)%nat).
  Definition good (w : image) : Prop := shape nr nc (power w) /\ fac_ok nc (to_abs w) /\ powers nr nc (restored w).
  Lemma fresh_good m : powers nr nc m -> good (mk m (One 1)).
  Proof. intros P. split; [now apply powers_shape|]. split; [exact I|]. now rewrite (restored_fresh nr nc). Qed.
  Lemma divided m f : powers nr nc m -> fac_ok nc f -> (forall j, (j < nc)%nat -> 0 < fac f j) ->
    good (mk (by_factor Rdiv m f) f) /\ forall i j, (i < nr)%nat -> (j < nc)%nat ->
    at_ (by_factor Rdiv m f) i j = RN (at_ m i j / fac f j) /\ at_ (restored (mk (by_factor Rdiv m f) f)) i j = there_and_back (fac f j) (at_ m i j).
  Proof.
    intros P K Hf. pose proof (powers_shape _ _ _ P) as Sh. pose proof (by_factor_shape nr nc Rdiv m f Sh K) as Sd.
    assert (A : forall i j, (i < nr)%nat -> (j < nc)%nat ->
      at_ (by_factor Rdiv m f) i j = RN (at_ m i j / fac f j) /\ at_ (restored (mk (by_factor Rdiv m f) f)) i j = there_and_back (fac f j) (at_ m i j)).
    { intros i j Hi Hj. assert (E : at_ (by_factor Rdiv m f) i j = RN (at_ m i j / fac f j)) by now apply (by_factor_at nr nc).
      split; [exact E|]. unfold restored. cbn [power to_abs]. rewrite (by_factor_at nr nc) by assumption. now rewrite E. }
    split; [|exact A]. split; [exact Sd|]. split; [exact K|]. apply powers_of; [now apply by_factor_shape|].
    intros i j Hi Hj. rewrite (proj2 (A i j Hi Hj)). split; [apply RN_double|]. apply back_nonneg; [auto|]. now apply (powers_at nr nc).
  Qed.
  Lemma step_none w w' : good w -> normalize w "none" = Some w' -> good w' /\ power w' = restored w /\ restored w' = restored w.
  Proof.
    intros (S1 & K & P). unfold normalize. cbn [String.eqb Ascii.eqb Bool.eqb]. fold (restored w). rewrite (abs_same nr nc) by exact P.
    intros E. injection E as <-. split; [now apply fresh_good|]. split; [reflexivity|]. now apply (restored_fresh nr nc).
  Qed.
  Lemma step_all w w' : good w -> (forall g, top nr nc (restored w) g -> 0 < g) -> normalize w "absolute-maximum" = Some w' ->
    good w' /\ exists g, top nr nc (restored w) g /\ forall i j, (i < nr)%nat -> (j < nc)%nat ->
      at_ (power w') i j = RN (at_ (restored w) i j / g) /\ at_ (restored w') i j = there_and_back g (at_ (restored w) i j).
  Proof.
    intros (S1 & K & P) Hg. unfold normalize. cbn [String.eqb Ascii.eqb Bool.eqb]. fold (restored w). rewrite (abs_same nr nc) by exact P.
    intros E. injection E as <-. pose proof (max_all_top nr nc (restored w) (powers_shape _ _ _ P) Hr Hc) as T.
    destruct (divided (restored w) (One (max_all (restored w))) P I (fun _ _ => Hg _ T)) as [G A].
    split; [exact G|]. exists (max_all (restored w)). split; [exact T|]. exact A.
  Qed.
  Lemma step_columns w w' : good w -> (forall j g, (j < nc)%nat -> column_top nr (restored w) j g -> 0 < g) -> normalize w "frequency-maximum" = Some w' ->
    good w' /\ exists g, (forall j, (j < nc)%nat -> column_top nr (restored w) j (g j)) /\ forall i j, (i < nr)%nat -> (j < nc)%nat ->
      at_ (power w') i j = RN (at_ (restored w) i j / g j) /\ at_ (restored w') i j = there_and_back (g j) (at_ (restored w) i j).
  Proof.
    intros (S1 & K & P) Hg. unfold normalize. cbn [String.eqb Ascii.eqb Bool.eqb]. fold (restored w). rewrite (abs_same nr nc) by exact P.
    intros E. injection E as <-. pose proof (powers_shape _ _ _ P) as Sh.
    assert (T : forall j, (j < nc)%nat -> column_top nr (restored w) j (nth j (max_columns (restored w)) 0)).
    { intros j Hj. now apply (max_columns_nth nr nc). }
    destruct (divided (restored w) (Each (max_columns (restored w))) P (max_columns_length nr nc _ Sh Hr) (fun j Hj => Hg j _ Hj (T j Hj))) as [G A].
    split; [exact G|]. exists (fun j => nth j (max_columns (restored w)) 0). split; [exact T|]. exact A.
  Qed.
  Lemma names w b w' : normalize w b = Some w' -> b = "none"%string \/ b = "absolute-maximum"%string \/ b = "frequency-maximum"%string.
  Proof.
    unfold normalize. destruct (String.eqb_spec b "none"); [auto|]. destruct (String.eqb_spec b "absolute-maximum"); [auto|].
    destruct (String.eqb_spec b "frequency-maximum"); [auto|discriminate].
  Qed.
End step.

(** Peaks. *)
Lemma first_equal_same x x' : forall l l', length l = length l' ->
  (forall i, (i < length l)%nat -> nth i l 0 = x <-> nth i l' 0 = x') -> first_equal x l = first_equal x' l'.
Proof.
  induction l as [|y l IH]; intros [|y' l'] L H; try discriminate L; [reflexivity|]. cbn.
  pose proof (H 0%nat ltac:(cbn; lia)) as H0. cbn in H0.
  destruct (Req_EM_T y x), (Req_EM_T y' x'); try tauto. f_equal. apply IH; [now injection L|].
  intros i Hi. apply (H (S i)). cbn. lia.
Qed.
Lemma column_nth nr nc m i j : shape nr nc m -> (i < nr)%nat -> nth i (column m j) 0 = at_ m i j.
Proof. intros [L _] Hi. unfold column. now rewrite (nth_map_in _ _ _ []) by lia. Qed.
Lemma column_top_max nr nc m j h : shape nr nc m -> (0 < nr)%nat -> column_top nr m j h -> np_max (column m j) = h.
Proof. intros Sh Hr T. apply column_top_unique with nr m j; [now apply column_max with nc|exact T]. Qed.
Lemma argmax_same nr nc m m' j h h' : (0 < nr)%nat -> shape nr nc m -> shape nr nc m' -> column_top nr m j h -> column_top nr m' j h' ->
  (forall i, (i < nr)%nat -> at_ m i j = h <-> at_ m' i j = h') -> argmax (column m j) = argmax (column m' j).
Proof.
  intros Hr Sm Sm' T T' H. unfold argmax. rewrite (column_top_max _ _ _ _ _ Sm Hr T), (column_top_max _ _ _ _ _ Sm' Hr T').
  assert (Lm : length (column m j) = nr) by (unfold column; rewrite map_length; apply Sm).
  assert (Lm' : length (column m' j) = nr) by (unfold column; rewrite map_length; apply Sm').
  apply first_equal_same; [congruence|]. intros i Hi. rewrite Lm in Hi.
  rewrite (column_nth nr nc), (column_nth nr nc) by assumption. now apply H.
Qed.

(** Histories with the names "none" and "frequency-maximum". *)
Section columns.
  Context (nr nc : nat) (Hr : (0 < nr)%nat) (Hc : (0 < nc)%nat) (m0 : list (list R)) (P0 : powers nr nc m0).
  Context (g : nat -> R) (G : forall j, (j < nc)%nat -> column_top nr m0 j (g j) /\ small <= g j).
  Definition kept_columns (w : image) : Prop := good nr nc w /\ forall j, (j < nc)%nat ->
    column_top nr (restored w) j (g j) /\ (forall i, (i < nr)%nat -> at_ (restored w) i j = g j <-> at_ m0 i j = g j) /\
    exists h, column_top nr (power w) j h /\ forall i, (i < nr)%nat -> at_ (power w) i j = h <-> at_ m0 i j = g j.
  Lemma columns_fresh : kept_columns (mk m0 (One 1)).
  Proof.
    split; [now apply fresh_good|]. intros j Hj. rewrite (restored_fresh nr nc) by exact P0. cbn [power].
    destruct (G j Hj) as [T _]. split; [exact T|]. split; [tauto|]. exists (g j). split; [exact T|tauto].
  Qed.
  Lemma columns_step w b w' : kept_columns w -> b = "none"%string \/ b = "frequency-maximum"%string -> normalize w b = Some w' ->
    kept_columns w' /\ forall j, (j < nc)%nat ->
      (b = "none"%string -> column_top nr (power w') j (g j)) /\
      (b = "frequency-maximum"%string -> column_top nr (power w') j 1 /\ forall i, (i < nr)%nat -> at_ (power w') i j = 1 <-> at_ m0 i j = g j).
  Proof.
    intros [Gw I] [-> | ->] E.
    - destruct (step_none _ _ _ _ Gw E) as (Gw' & E1 & E2). split.
      + split; [exact Gw'|]. intros j Hj. destruct (I j Hj) as (T & B & _). rewrite E1, E2. split; [exact T|]. split; [exact B|]. now exists (g j).
      + intros j Hj. destruct (I j Hj) as (T & B & _). rewrite E1. split; [intros _; exact T|discriminate].
    - destruct (step_columns _ _ Hr w w' Gw) as (Gw' & d & D & A); [|exact E|].
      { intros j x Hj Tx. destruct (I j Hj) as (T & _). rewrite (column_top_unique _ _ _ _ _ Tx T). pose proof small_pos. destruct (G j Hj). lra. }
      assert (X : forall j, (j < nc)%nat -> d j = g j) by (intros j Hj; apply (column_top_unique nr (restored w) j); [now apply D|now apply I]).
      assert (Y : forall i j, (i < nr)%nat -> (j < nc)%nat ->
        (at_ (restored w) i j = g j /\ at_ (power w') i j = 1 /\ at_ (restored w') i j = g j) \/
        (at_ (restored w) i j <> g j /\ at_ (power w') i j < 1 /\ at_ (restored w') i j < g j)).
      { intros i j Hi Hj. destruct (A i j Hi Hj) as [A1 A2]. rewrite X in A1, A2 by exact Hj. destruct (I j Hj) as (T & _ & _). destruct (G j Hj) as [_ Hs].
        pose proof small_pos as S0. destruct (powers_at _ _ _ i j (proj2 (proj2 Gw)) Hi Hj) as [Dx Hx].
        assert (Dg : double (g j)). { destruct T as [(k & Hk & Q) _]. rewrite <- Q. apply (powers_at nr nc); [apply Gw|exact Hk|exact Hj]. }
        destruct (Req_dec (at_ (restored w) i j) (g j)) as [Q|Q].
        - left. split; [exact Q|]. rewrite Q in A1, A2. destruct (back_top (g j) Dg ltac:(lra)) as [B1 B2]. split; congruence.
        - right. split; [exact Q|]. assert (L : at_ (restored w) i j < g j). { destruct T as [_ T]. specialize (T i Hi). lra. }
          destruct (back_below (g j) (at_ (restored w) i j) Dg Hs Dx) as [B1 B2]; [lra|]. rewrite A1, A2. auto. }
      assert (Z : forall j, (j < nc)%nat -> column_top nr (power w') j 1 /\ forall i, (i < nr)%nat -> at_ (power w') i j = 1 <-> at_ m0 i j = g j).
      { intros j Hj. destruct (I j Hj) as (((k & Hk & Q) & _) & B & _). split; [split|].
        - exists k. split; [exact Hk|]. destruct (Y k j Hk Hj) as [Y1|Y1]; tauto.
        - intros i Hi. destruct (Y i j Hi Hj) as [Y1|Y1]; lra.
        - intros i Hi. rewrite <- B by exact Hi. destruct (Y i j Hi Hj) as [Y1|Y1]; [tauto|]. split; [lra|tauto]. }
      split; [|intros j Hj; split; [discriminate|intros _; now apply Z]].
      split; [exact Gw'|]. intros j Hj. destruct (I j Hj) as (((k & Hk & Q) & _) & B & _). split; [split|split].
      + exists k. split; [exact Hk|]. destruct (Y k j Hk Hj) as [Y1|Y1]; tauto.
      + intros i Hi. destruct (Y i j Hi Hj) as [Y1|Y1]; lra.
      + intros i Hi. rewrite <- B by exact Hi. destruct (Y i j Hi Hj) as [Y1|Y1]; [tauto|]. split; [lra|tauto].
      + exists 1. now apply Z.
  Qed.
  Lemma columns_calls l : forall w w', kept_columns w -> Forall (fun b => b = "none"%string \/ b = "frequency-maximum"%string) l ->
    calls w l = Some w' -> kept_columns w'.
  Proof.
    induction l as [|b l IH]; intros w w' K F E; cbn in E; [now injection E as <-|]. inversion_clear F as [|? ? Hb F'].
    destruct (normalize w b) as [w1|] eqn:N; [|discriminate]. apply (IH w1); auto. now apply (columns_step w b).
  Qed.
End columns.
Lemma calls_app w l1 l2 : calls w (l1 ++ l2) = match calls w l1 with Some w' => calls w' l2 | None => None end.
Proof. revert w. induction l1 as [|b l IH]; intros w; cbn; [reflexivity|]. destruct (normalize w b); auto. Qed.
Lemma calls_last w l b w' : calls w (l ++ [b]) = Some w' -> exists w1, calls w l = Some w1 /\ normalize w1 b = Some w'.
Proof.
  rewrite calls_app. destruct (calls w l) as [w1|]; [|discriminate]. cbn. intros E. exists w1. split; [reflexivity|].
  destruct (normalize w1 b); [exact E|discriminate].
Qed.
Lemma columns_peaks nr nc m l w : (0 < nr)%nat -> (0 < nc)%nat -> powers nr nc m ->
  (forall j x, (j < nc)%nat -> column_top nr m j x -> small <= x) ->
  Forall (fun b => b = "none"%string \/ b = "frequency-maximum"%string) l -> calls (mk m (One 1)) l = Some w ->
  forall j, (j < nc)%nat -> peak_row w j = peak_row (mk m (One 1)) j.
Proof.
  intros Hr Hc P L F E j Hj. pose proof (powers_shape _ _ _ P) as Sh.
  assert (G : forall j, (j < nc)%nat -> column_top nr m j (np_max (column m j)) /\ small <= np_max (column m j)).
  { intros k Hk. pose proof (column_max nr nc m k Sh Hr) as T. split; [exact T|]. now apply (L k). }
  pose proof (columns_calls nr nc Hr m _ G l _ w (columns_fresh nr nc m P _ G) F E) as [Gw K].
  destruct (K j Hj) as (_ & _ & h & T & B). unfold peak_row. cbn [power].
  apply (argmax_same nr nc _ _ _ h (np_max (column m j))); [exact Hr|apply Gw|exact Sh|exact T|now apply G|exact B].
Qed.
Lemma columns_none nr nc m l w : (0 < nr)%nat -> (0 < nc)%nat -> powers nr nc m ->
  (forall j x, (j < nc)%nat -> column_top nr m j x -> small <= x) ->
  Forall (fun b => b = "none"%string \/ b = "frequency-maximum"%string) l -> calls (mk m (One 1)) (l ++ ["none"%string]) = Some w ->
  forall j x, (j < nc)%nat -> column_top nr m j x -> column_top nr (power w) j x.
Proof.
  intros Hr Hc P L F E j x Hj Tx. pose proof (powers_shape _ _ _ P) as Sh.
  assert (G : forall j, (j < nc)%nat -> column_top nr m j (np_max (column m j)) /\ small <= np_max (column m j)).
  { intros k Hk. pose proof (column_max nr nc m k Sh Hr) as T. split; [exact T|]. now apply (L k). }
  destruct (calls_last _ _ _ _ E) as (w1 & E1 & E2).
  pose proof (columns_calls nr nc Hr m _ G l _ w1 (columns_fresh nr nc m P _ G) F E1) as K.
  destruct (columns_step nr nc Hr m _ G w1 _ w K (or_introl eq_refl) E2) as [_ A].
  rewrite (column_top_unique _ _ _ _ _ Tx (proj1 (G j Hj))). now apply A.
Qed.
Lemma columns_ones nr nc m l w : (0 < nr)%nat -> (0 < nc)%nat -> powers nr nc m ->
  (forall j x, (j < nc)%nat -> column_top nr m j x -> small <= x) ->
  Forall (fun b => b = "none"%string \/ b = "frequency-maximum"%string) l -> calls (mk m (One 1)) (l ++ ["frequency-maximum"%string]) = Some w ->
  forall j x, (j < nc)%nat -> column_top nr m j x -> column_top nr (power w) j 1 /\ forall i, (i < nr)%nat -> at_ (power w) i j = 1 <-> at_ m i j = x.
Proof.
  intros Hr Hc P L F E j x Hj Tx. pose proof (powers_shape _ _ _ P) as Sh.
  assert (G : forall j, (j < nc)%nat -> column_top nr m j (np_max (column m j)) /\ small <= np_max (column m j)).
  { intros k Hk. pose proof (column_max nr nc m k Sh Hr) as T. split; [exact T|]. now apply (L k). }
  destruct (calls_last _ _ _ _ E) as (w1 & E1 & E2).
  pose proof (columns_calls nr nc Hr m _ G l _ w1 (columns_fresh nr nc m P _ G) F E1) as K.
  destruct (columns_step nr nc Hr m _ G w1 _ w K (or_intror eq_refl) E2) as [_ A].
  rewrite (column_top_unique _ _ _ _ _ Tx (proj1 (G j Hj))). now apply A.
Qed.

(** Any history. *)
Section any.
  Context (nr nc : nat) (Hr : (0 < nr)%nat) (Hc : (0 < nc)%nat) (m0 : list (list R)) (P0 : powers nr nc m0) (R0 : in_range nr nc m0).
  Context (g : R) (G : top nr nc m0 g).
  Lemma step_any w b w' : good nr nc w -> (forall j, (j < nc)%nat -> exists i, (i < nr)%nat /\ 0 < at_ (restored w) i j) -> normalize w b = Some w' ->
    good nr nc w' /\ (restored w' = restored w \/ exists d, forall j, (j < nc)%nat -> (exists i k, (i < nr)%nat /\ (k < nc)%nat /\ d j = at_ (restored w) i k) /\ 0 < d j /\
      forall i, (i < nr)%nat -> at_ (restored w) i j <= d j /\ at_ (restored w') i j = there_and_back (d j) (at_ (restored w) i j)).
  Proof.
    intros Gw Pos E. destruct (names _ _ _ E) as [-> |[-> | ->]].
    - destruct (step_none _ _ _ _ Gw E) as (Gw' & _ & E2). auto.
    - destruct (step_all nr nc Hr Hc w w' Gw) as (Gw' & x & T & A); [|exact E|].
      { intros x [_ T]. destruct (Pos 0%nat Hc) as (i & Hi & Q). specialize (T i 0%nat Hi Hc). lra. }
      split; [exact Gw'|]. right. exists (fun _ => x). intros j Hj. destruct T as [(i & k & Hi & Hk & Q) T]. split; [|split].
      + exists i, k. auto.
      + destruct (Pos j Hj) as (i' & Hi' & Q'). specialize (T i' j Hi' Hj). lra.
      + intros i' Hi'. split; [now apply T|]. now apply A.
    - destruct (step_columns nr nc Hr w w' Gw) as (Gw' & d & T & A); [|exact E|].
      { intros j x Hj [_ T]. destruct (Pos j Hj) as (i & Hi & Q). specialize (T i Hi). lra. }
      split; [exact Gw'|]. right. exists d. intros j Hj. destruct (T j Hj) as [(i & Hi & Q) T']. split; [|split].
      + exists i, j. auto.
      + destruct (Pos j Hj) as (i' & Hi' & Q'). specialize (T' i' Hi'). lra.
      + intros i' Hi'. split; [now apply T'|]. now apply A.
  Qed.
  Definition kept_any (k : nat) (w : image) : Prop := good nr nc w /\
    (forall i j, (i < nr)%nat -> (j < nc)%nat -> Rabs (at_ (restored w) i j - at_ m0 i j) <= allowed k (at_ m0 i j)) /\
    top nr nc (restored w) g /\ (forall i j, (i < nr)%nat -> (j < nc)%nat -> at_ (restored w) i j = g <-> at_ m0 i j = g).
  Lemma any_fresh : kept_any 0 (mk m0 (One 1)).
  Proof.
    split; [now apply fresh_good|]. rewrite (restored_fresh nr nc) by exact P0. split; [|split; [exact G|tauto]].
    intros i j Hi Hj. unfold Rminus. rewrite Rplus_opp_r, Rabs_R0. unfold allowed. cbn [INR]. lra.
  Qed.
  Lemma half400 : / IZR (2 ^ 600) * IZR (2 ^ 200) = / IZR (2 ^ 400).
  Proof.
    replace (2 ^ 600)%Z with (2 ^ 400 * 2 ^ 200)%Z by reflexivity. rewrite mult_IZR. field.
    split; apply not_0_IZR; discriminate.
  Qed.
  Lemma floor_value : 1000000000000000000 * / IZR (2 ^ 600) <= / IZR (2 ^ 400).
  Proof.
    rewrite <- half400. rewrite Rmult_comm. apply Rmult_le_compat_l.
    - left. apply Rinv_0_lt_compat, IZR_lt. reflexivity.
    - apply IZR_le. intros H. discriminate H.
  Qed.
  Lemma tiny_value : tiny * (IZR (2 ^ 400) + 1) <= / IZR (2 ^ 600).
  Proof.
    apply Rmult_le_reg_r with (IZR (2 ^ 600)); [apply IZR_lt; reflexivity|]. rewrite Rinv_l by (apply not_0_IZR; discriminate).
    unfold tiny. rewrite Rmult_assoc. apply Rmult_le_reg_l with (IZR (2 ^ 1070)); [apply IZR_lt; reflexivity|].
    rewrite <- Rmult_assoc, Rinv_r, Rmult_1_l, Rmult_1_r by (apply not_0_IZR; discriminate).
    rewrite <- plus_IZR, <- mult_IZR. apply IZR_le. intros H. discriminate H.
  Qed.
  Lemma allowed_small k x : INR k <= 1099511627776 -> 0 <= x -> allowed k x <= x / 2000 + 4398046511104 * / IZR (2 ^ 600).
  Proof.
    intros Hk Hx. unfold allowed. rewrite u_value. pose proof (pos_INR k).
    assert (E0 : 0 < / IZR (2 ^ 600)) by (apply Rinv_0_lt_compat, IZR_lt; reflexivity). set (e := / IZR (2 ^ 600)) in *.
    apply Rle_trans with (4 * 1099511627776 * (/ 9007199254740992 * x + e)); [|lra].
    apply Rmult_le_compat_r; lra.
  Qed.
  Lemma any_step k w b w' : INR k <= 1099511627776 -> kept_any k w -> normalize w b = Some w' -> kept_any (S k) w'.
  Proof.
    intros Hk (Gw & Er & T & B) E.
    assert (E0 : 0 < / IZR (2 ^ 600)) by (apply Rinv_0_lt_compat, IZR_lt; reflexivity).
    pose proof floor_value as FV. pose proof tiny_value as TV. pose proof tiny_pos as T0. pose proof u_pos as U0.
    assert (U1 : u <= / 1000000) by (rewrite u_value; lra).
    assert (Lo : 0 < / IZR (2 ^ 400)) by (apply Rinv_0_lt_compat, IZR_lt; reflexivity).
    set (e := / IZR (2 ^ 600)) in *. set (lo := / IZR (2 ^ 400)) in *. 
    assert (Nn : forall i j, (i < nr)%nat -> (j < nc)%nat -> 0 <= at_ m0 i j) by (intros i j Hi Hj; now apply (powers_at nr nc)).
    assert (Mono : forall x, 0 <= x -> allowed k x <= allowed (S k) x).
    { intros x Hx. unfold allowed. fold e. rewrite S_INR. assert (0 <= u * x) by (apply Rmult_le_pos; lra). nra. }
    destruct (step_any w b w' Gw) as [Gw' A]; [|exact E|].
    { intros j Hj. destruct (proj1 R0 j Hj) as (i & Hi & Q). fold lo in Q. exists i. split; [exact Hi|].
      specialize (Er i j Hi Hj). pose proof (allowed_small k _ Hk (Nn i j Hi Hj)) as S1. fold e in S1.
      apply Rabs_le_inv in Er. lra. }
    destruct A as [Same|(d & A)].
    { split; [exact Gw'|]. rewrite Same. split; [|auto]. intros i j Hi Hj. eapply Rle_trans; [now apply Er|]. apply Mono. now apply Nn. }
    assert (Hd : forall j, (j < nc)%nat -> 0 < d j <= g /\ double (d j)).
    { intros j Hj. destruct (A j Hj) as ((i & l & Hi & Hl & Q) & P & _). split; [split; [exact P|]|].
      - rewrite Q. now apply T.
      - rewrite Q. apply (powers_at nr nc); [apply Gw|exact Hi|exact Hl]. }
    assert (Hg : lo <= g <= IZR (2 ^ 400)).
    { destruct G as [(i & j & Hi & Hj & Q) G']. split.
      - destruct (proj1 R0 0%nat Hc) as (i' & Hi' & Q'). fold lo in Q'. specialize (G' i' 0%nat Hi' Hc). lra.
      - rewrite <- Q. now apply R0. }
    assert (Sg : small <= g).
    { apply Rle_trans with lo; [|apply Hg]. unfold small, lo. apply Rinv_le; [apply IZR_lt; reflexivity|]. apply IZR_le. intros H. discriminate H. }
    assert (Y : forall i j, (i < nr)%nat -> (j < nc)%nat -> at_ (restored w') i j <= g /\ (at_ (restored w') i j = g <-> at_ (restored w) i j = g)).
    { intros i j Hi Hj. destruct (A j Hj) as (_ & _ & A'). destruct (A' i Hi) as [L Q]. destruct (Hd j Hj) as [[D1 D2] D3]. rewrite Q.
      destruct (powers_at _ _ _ i j (proj2 (proj2 Gw)) Hi Hj) as [Dx Hx].
      destruct (back_top (d j) D3 D1) as [B1 _].
      assert (L2 : there_and_back (d j) (at_ (restored w) i j) <= d j) by (rewrite <- B1 at 2; now apply back_mono).
      split; [lra|]. destruct (Req_dec (at_ (restored w) i j) g) as [Q1|Q1].
      - rewrite Q1. assert (Q2 : d j = g) by lra. rewrite Q2 in *. tauto.
      - split; [|tauto]. intros Q2. exfalso. assert (Q3 : d j = g) by lra. rewrite Q3 in *.
        destruct (back_below g (at_ (restored w) i j) D3 Sg Dx) as [_ B2]; lra. }
    split; [exact Gw'|]. split; [|split; [split|]].
    - intros i j Hi Hj. destruct (A j Hj) as (_ & _ & A'). destruct (A' i Hi) as [L Q]. destruct (Hd j Hj) as [[D1 D2] _]. rewrite Q.
      destruct (powers_at _ _ _ i j (proj2 (proj2 Gw)) Hi Hj) as [_ Hx]. specialize (Er i j Hi Hj). specialize (Nn i j Hi Hj).
      set (r := at_ (restored w) i j) in *. set (x := at_ m0 i j) in *.
      pose proof (back_error (d j) r D1 Hx) as BE.
      pose proof (allowed_small k x Hk Nn) as S1. fold e in S1. 
      assert (Rr : r <= x + x / 2000 + 4398046511104 * e) by (apply Rabs_le_inv in Er; lra).
      assert (D4 : tiny / 16 * (d j + 1) <= e / 16).
      { apply Rle_trans with (tiny / 16 * (IZR (2 ^ 400) + 1)); [|lra]. apply Rmult_le_compat_l; lra. }
      assert (Ux : 0 <= u * x) by (apply Rmult_le_pos; lra).
      assert (U4 : u * r <= u * x + u * x / 2000 + e / 1000).
      { apply Rle_trans with (u * (x + x / 2000 + 4398046511104 * e)); [apply Rmult_le_compat_l; lra|].
        assert (u * (4398046511104 * e) <= e / 1000) by (rewrite u_value; lra). lra. }
      replace (there_and_back (d j) r - x) with ((there_and_back (d j) r - r) + (r - x)) by ring.
      apply Rle_trans with (1 := Rabs_triang _ _).
      replace (allowed (S k) x) with (allowed k x + 4 * (u * x + e)) by (unfold allowed; fold e; rewrite S_INR; ring). lra.
    - destruct T as [(i & j & Hi & Hj & Q) _]. exists i, j. split; [exact Hi|]. split; [exact Hj|]. now apply Y.
    - intros i j Hi Hj. now apply Y.
    - intros i j Hi Hj. rewrite <- B by assumption. now apply Y.
  Qed.
  Lemma any_calls l : forall k w w', INR (k + length l) <= 1099511627776 -> kept_any k w -> calls w l = Some w' -> kept_any (k + length l) w'.
  Proof.
    induction l as [|b l IH]; intros k w w' L K E; cbn in E.
    - cbn [length]. rewrite Nat.add_0_r. now injection E as <-.
    - destruct (normalize w b) as [w1|] eqn:N; [|discriminate]. cbn [length] in *. rewrite <- Nat.add_succ_comm in *.
      apply (IH (S k) w1); auto. apply (any_step k w b w1); auto.
      apply Rle_trans with (2 := L). apply le_INR. lia.
  Qed.
End any.
Lemma any_error nr nc m l w : (0 < nr)%nat -> (0 < nc)%nat -> powers nr nc m -> in_range nr nc m -> INR (length l) <= 1099511627776 ->
  calls (mk m (One 1)) (l ++ ["none"%string]) = Some w ->
  forall i j, (i < nr)%nat -> (j < nc)%nat -> Rabs (at_ (power w) i j - at_ m i j) <= allowed (length l) (at_ m i j).
Proof.
  intros Hr Hc P R0 L E. pose proof (max_all_top nr nc m (powers_shape _ _ _ P) Hr Hc) as T.
  destruct (calls_last _ _ _ _ E) as (w1 & E1 & E2).
  destruct (any_calls nr nc Hr Hc m P R0 _ T l 0%nat _ w1 L (any_fresh nr nc m P _ T) E1) as (Gw & Er & _).
  destruct (step_none _ _ _ _ Gw E2) as (_ & -> & _). exact Er.
Qed.
Lemma any_top nr nc m l w : (0 < nr)%nat -> (0 < nc)%nat -> powers nr nc m -> in_range nr nc m -> INR (length l) <= 1099511627776 ->
  calls (mk m (One 1)) (l ++ ["none"%string]) = Some w ->
  forall x, top nr nc m x -> top nr nc (power w) x /\ forall i j, (i < nr)%nat -> (j < nc)%nat -> at_ (power w) i j = x <-> at_ m i j = x.
Proof.
  intros Hr Hc P R0 L E x T. destruct (calls_last _ _ _ _ E) as (w1 & E1 & E2).
  destruct (any_calls nr nc Hr Hc m P R0 _ T l 0%nat _ w1 L (any_fresh nr nc m P _ T) E1) as (Gw & _ & Er).
  destruct (step_none _ _ _ _ Gw E2) as (_ & -> & _). exact Er.
Qed.
