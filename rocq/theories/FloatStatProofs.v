(* Proofs about statistics in double precision. *)
From Coq Require Import Lra Lia Psatz.
From Flocq Require Import Relative Plus_error.
From Verif Require Import FloatModel FloatSpec FloatProofs FloatSlantProofs FloatStatModel FloatStatSpec.

Local Instance valid_fexp : Valid_exp fexp. Proof. apply FLT_exp_valid. reflexivity. Qed.
Local Instance valid_rnd : Valid_rnd ZnearestE. Proof. apply valid_rnd_N. Qed.
Local Instance prec_pos : Prec_gt_0 53. Proof. reflexivity. Qed.

(** Additions have no underflow. *)
Lemma add_error x y : double x -> double y -> Rabs (RN (x + y) - (x + y)) <= u * Rabs (x + y).
Proof.
  intros Hx Hy. destruct (FLT_plus_error_N_ex radix2 (-1074) 53 (fun z => negb (Z.even z)) x y Hx Hy) as (eps & E1 & E2).
  change (RN (x + y) = (x + y) * (1 + eps)) in E2. rewrite E2.
  replace ((x + y) * (1 + eps) - (x + y)) with (eps * (x + y)) by ring. rewrite Rabs_mult.
  apply Rmult_le_compat_r; [apply Rabs_pos|]. apply Rle_trans with (1 := E1).
  assert (U : u_ro radix2 53 = u) by (unfold u_ro, u; cbn; lra). rewrite U. pose proof u_pos.
  apply Rmult_le_reg_r with (1 + u); [lra|]. unfold Rdiv. rewrite Rmult_assoc, Rinv_l by lra. nra.
Qed.
Lemma sub_error x y : double x -> double y -> Rabs (RN (x - y) - (x - y)) <= u * Rabs (x - y).
Proof. intros Hx Hy. apply (add_error x (- y)); [exact Hx|]. now apply generic_format_opp. Qed.

(** Sums. *)
Lemma Rsum_app a b : Rsum (a ++ b) = Rsum a + Rsum b.
Proof. induction a as [|x a IH]; cbn; [ring|]. rewrite IH. ring. Qed.
Lemma Rsum_nonneg l : (forall x, In x l -> 0 <= x) -> 0 <= Rsum l.
Proof.
  induction l as [|x l IH]; intros H; cbn; [lra|]. assert (0 <= x) by (apply H; now left).
  assert (0 <= Rsum l) by (apply IH; intros; apply H; now right). lra.
Qed.
Lemma Rsum_size_nonneg l : 0 <= Rsum (map Rabs l).
Proof. apply Rsum_nonneg. intros x Hx. apply in_map_iff in Hx. destruct Hx as (y & <- & _). apply Rabs_pos. Qed.
Lemma Rsum_abs l : Rabs (Rsum l) <= Rsum (map Rabs l).
Proof. induction l as [|x l IH]; cbn; [rewrite Rabs_R0; lra|]. apply Rle_trans with (1 := Rabs_triang _ _). lra. Qed.
Lemma leaves_length t : (1 <= length (leaves t))%nat.
Proof. induction t; cbn; [lia|]. rewrite app_length. lia. Qed.
Lemma fsum_double t : Forall double (leaves t) -> double (fsum t).
Proof. destruct t; cbn; intros F; [now inversion F|apply RN_double]. Qed.
Lemma sum_error t : Forall double (leaves t) -> INR (length (leaves t)) <= 1073741824 ->
  Rabs (fsum t - Rsum (leaves t)) <= 1.01 * (INR (length (leaves t)) - 1) * u * Rsum (map Rabs (leaves t)).
Proof.
  pose proof u_pos as U0.
  induction t as [x|a IHa b IHb]; cbn [leaves fsum]; intros F L.
  - cbn. replace (x - (x + 0)) with 0 by ring. rewrite Rabs_R0. right. ring.
  - apply Forall_app in F. destruct F as [Fa Fb]. rewrite app_length, plus_INR in *. rewrite map_app, !Rsum_app.
    pose proof (leaves_length a) as La. pose proof (leaves_length b) as Lb. apply le_INR in La, Lb. cbn [INR] in La, Lb.
    specialize (IHa Fa ltac:(lra)). specialize (IHb Fb ltac:(lra)).
    pose proof (Rsum_size_nonneg (leaves a)) as Pa. pose proof (Rsum_size_nonneg (leaves b)) as Pb.
    pose proof (Rsum_abs (leaves a)) as Ta. pose proof (Rsum_abs (leaves b)) as Tb.
    pose proof (add_error (fsum a) (fsum b) (fsum_double _ Fa) (fsum_double _ Fb)) as E.
    set (n := INR (length (leaves a))) in *. set (k := INR (length (leaves b))) in *.
    set (A := Rsum (map Rabs (leaves a))) in *. set (B := Rsum (map Rabs (leaves b))) in *.
    set (ea := Rsum (leaves a)) in *. set (eb := Rsum (leaves b)) in *.
    assert (Ha : 1.01 * (n - 1) * u * A <= 1.01 * (n + k - 2) * u * A).
    { apply Rmult_le_compat_r; [exact Pa|]. apply Rmult_le_compat_r; lra. }
    assert (Hb : 1.01 * (k - 1) * u * B <= 1.01 * (n + k - 2) * u * B).
    { apply Rmult_le_compat_r; [exact Pb|]. apply Rmult_le_compat_r; lra. }
    assert (Sm : 1.01 * (n + k - 2) * u <= / 100) by (rewrite u_value; lra).
    assert (S0 : 0 <= 1.01 * (n + k - 2) * u) by (apply Rmult_le_pos; lra).
    assert (E1 : Rabs (fsum a + fsum b - (ea + eb)) <= 1.01 * (n + k - 2) * u * (A + B)).
    { replace (fsum a + fsum b - (ea + eb)) with ((fsum a - ea) + (fsum b - eb)) by ring.
      apply Rle_trans with (1 := Rabs_triang _ _). lra. }
    assert (E2 : Rabs (fsum a + fsum b) <= 1.01 * (A + B)).
    { replace (fsum a + fsum b) with ((fsum a + fsum b - (ea + eb)) + (ea + eb)) by ring.
      apply Rle_trans with (1 := Rabs_triang _ _). pose proof (Rabs_triang ea eb).
      assert (1.01 * (n + k - 2) * u * (A + B) <= / 100 * (A + B)) by (apply Rmult_le_compat_r; lra). lra. }
    replace (RN (fsum a + fsum b) - (ea + eb)) with ((RN (fsum a + fsum b) - (fsum a + fsum b)) + (fsum a + fsum b - (ea + eb))) by ring.
    apply Rle_trans with (1 := Rabs_triang _ _).
    assert (E3 : u * Rabs (fsum a + fsum b) <= u * (1.01 * (A + B))) by (apply Rmult_le_compat_l; lra).
    replace (1.01 * (n + k - 1) * u * (A + B)) with (1.01 * (n + k - 2) * u * (A + B) + u * (1.01 * (A + B))) by ring. lra.
Qed.

(** Columns with missing values. *)
Lemma sum_filled l : Rsum (filled l) = Rsum (present l) /\ Rsum (map Rabs (filled l)) = Rsum (map Rabs (present l)).
Proof.
  induction l as [|[x|] l [IH1 IH2]]; [split; reflexivity| |].
  - change (filled (Some x :: l)) with (x :: filled l). cbn [present map Rsum]. now rewrite IH1, IH2.
  - change (filled (None :: l)) with (0 :: filled l). cbn [present map Rsum]. rewrite IH1, IH2, Rabs_R0. split; ring.
Qed.
(** The same for the entries in another order. *)
Lemma Rsum_perm l l' : Permutation l l' -> Rsum l = Rsum l'.
Proof. induction 1; cbn; lra. Qed.
Lemma perm_error t l : Permutation (leaves t) l -> Forall double l -> INR (length l) <= 1073741824 ->
  Rabs (fsum t - Rsum l) <= 1.01 * (INR (length l) - 1) * u * Rsum (map Rabs l).
Proof.
  intros P F L. pose proof (sum_error t) as E. rewrite (Permutation_length P), (Rsum_perm _ _ P), (Rsum_perm _ _ (Permutation_map Rabs P)) in E.
  apply E; [|exact L]. now apply (Permutation_Forall (Permutation_sym P)).
Qed.
Lemma perm_double t l : Permutation (leaves t) l -> Forall double l -> double (fsum t).
Proof. intros P F. apply fsum_double. now apply (Permutation_Forall (Permutation_sym P)). Qed.
Lemma count_present l : count l = length (present l).
Proof. unfold count. induction l as [|[x|] l IH]; cbn; [reflexivity| |]; lia. Qed.
Lemma filled_doubles l : Forall double (present l) -> Forall double (filled l).
Proof.
  induction l as [|[x|] l IH]; intros F; cbn in *; [constructor| |].
  - inversion_clear F. constructor; auto.
  - constructor; [apply generic_format_0|auto].
Qed.
Lemma present_le l : (length (present l) <= length l)%nat.
Proof. induction l as [|[x|] l IH]; cbn; lia. Qed.

Lemma mean_error l m : Forall double (present l) -> present l <> [] -> INR (length l) <= 1073741824 -> a_mean l m ->
  Rabs (m - exact_mean (present l)) <= 2 * INR (length l) * u * mean_size (present l) + tiny.
Proof.
  intros F Ne L (t & Et & ->). pose proof u_pos as U0. pose proof tiny_pos as T0.
  pose proof (perm_error t _ Et) as SE.
  assert (Lf : length (filled l) = length l) by (unfold filled; apply map_length). rewrite Lf in SE.
  specialize (SE (filled_doubles l F) L). destruct (sum_filled l) as [Q1 Q2]. rewrite Q1, Q2 in SE.
  unfold fmean, exact_mean, mean_size. rewrite count_present.
  assert (N1 : 1 <= INR (length (present l))). { destruct (present l); [easy|]. cbn [length]. rewrite S_INR. pose proof (pos_INR (length l0)). lra. }
  pose proof (Rsum_size_nonneg (present l)) as P. pose proof (Rsum_abs (present l)) as TA.
  assert (N2 : 1 <= INR (length l)) by (pose proof (le_INR _ _ (present_le l)); lra).
  set (k := INR (length l)) in *. set (n := INR (length (present l))) in *. set (S := Rsum (map Rabs (present l))) in *. set (e := Rsum (present l)) in *.
  set (f := fsum t) in *.
  pose proof (RN_error (f / n)) as E.
  assert (I0 : 0 < / n <= 1). { split; [apply Rinv_0_lt_compat; lra|]. rewrite <- Rinv_1. apply Rinv_le; lra. }
  assert (E1 : Rabs (f / n - e / n) <= 1.01 * (k - 1) * u * (S / n)).
  { replace (f / n - e / n) with ((f - e) * / n) by (unfold Rdiv; ring). rewrite Rabs_mult, (Rabs_pos_eq (/ n)) by lra.
    apply Rle_trans with (1.01 * (k - 1) * u * S * / n); [apply Rmult_le_compat_r; lra|]. right. unfold Rdiv. ring. }
  assert (M0 : 0 <= S / n) by (apply Rmult_le_pos; lra).
  assert (E2 : Rabs (e / n) <= S / n). { unfold Rdiv. rewrite Rabs_mult, (Rabs_pos_eq (/ n)) by lra. apply Rmult_le_compat_r; lra. }
  set (M := S / n) in *.
  assert (Sm : 1.01 * (k - 1) * u <= / 100) by (rewrite u_value; lra).
  assert (E3 : Rabs (f / n) <= 1.01 * M).
  { replace (f / n) with ((f / n - e / n) + e / n) by ring. apply Rle_trans with (1 := Rabs_triang _ _).
    assert (1.01 * (k - 1) * u * M <= / 100 * M) by (apply Rmult_le_compat_r; lra). lra. }
  assert (E4 : u * Rabs (f / n) <= u * (1.01 * M)) by (apply Rmult_le_compat_l; lra).
  replace (RN (f / n) - e / n) with ((RN (f / n) - f / n) + (f / n - e / n)) by ring. apply Rle_trans with (1 := Rabs_triang _ _).
  assert (UM : 0 <= u * M) by (apply Rmult_le_pos; lra).
  assert (KM : u * M <= k * (u * M)) by nra.
  replace (2 * k * u * M) with (2 * (k * (u * M))) by ring. replace (1.01 * (k - 1) * u * M) with (1.01 * (k * (u * M)) - 1.01 * (u * M)) in E1 by ring. lra.
Qed.

(** Standard deviations. *)
Lemma sqrt_error a b ep h : 0 <= a -> 0 <= b -> 0 <= ep <= / 4 -> 0 <= h -> Rabs (a - b) <= ep * b + h * h ->
  Rabs (sqrt a - sqrt b) <= ep * sqrt b + h.
Proof.
  intros Ha Hb He Hh H. apply Rabs_le_inv in H. pose proof (sqrt_pos b) as Sb. pose proof (sqrt_sqrt b Hb) as Qb.
  pose proof (sqrt_pos a) as Sa. pose proof (sqrt_sqrt a Ha) as Qa. set (x := sqrt a) in *. set (y := sqrt b) in *.
  apply Rabs_le. split.
  - destruct (Rle_or_lt (y * (1 - ep)) h) as [C|C]; [lra|].
    apply Rnot_lt_le. intros Q. set (z := y * (1 - ep) - h). assert (Z : x < z) by (unfold z; lra).
    assert (ZZ : x * x < z * z) by nra.
    assert (Z1 : z * z <= (y * (1 - ep)) * (y * (1 - ep)) - h * h) by (unfold z; nra).
    assert (Z2 : (y * (1 - ep)) * (y * (1 - ep)) <= b * (1 - ep)).
    { replace ((y * (1 - ep)) * (y * (1 - ep))) with (b * ((1 - ep) * (1 - ep))) by (rewrite <- Qb; ring). apply Rmult_le_compat_l; nra. }
    lra.
  - apply Rnot_lt_le. intros Q. set (z := y * (1 + ep) + h). assert (Z : z < x) by (unfold z; lra).
    assert (z0 : 0 <= z) by (unfold z; assert (0 <= y * (1 + ep)) by (apply Rmult_le_pos; lra); lra).
    assert (ZZ : z * z < x * x) by nra.
    assert (Z1 : (y * (1 + ep)) * (y * (1 + ep)) + h * h <= z * z) by (unfold z; assert (0 <= y * (1 + ep) * h) by (apply Rmult_le_pos; [apply Rmult_le_pos|]; lra); nra).
    assert (Z2 : b * (1 + ep) <= (y * (1 + ep)) * (y * (1 + ep))).
    { replace ((y * (1 + ep)) * (y * (1 + ep))) with (b * ((1 + ep) * (1 + ep))) by (rewrite <- Qb; ring). apply Rmult_le_compat_l; nra. }
    lra.
Qed.
Definition deviations (m : R) (l : list R) : R := Rsum (map (fun x => (x - m) * (x - m)) l).
Lemma deviations_nonneg m l : 0 <= deviations m l.
Proof. apply Rsum_nonneg. intros x Hx. apply in_map_iff in Hx. destruct Hx as (y & <- & _). apply Rle_0_sqr. Qed.
Lemma deviations_shift l m : l <> [] -> deviations m l = deviations (exact_mean l) l + INR (length l) * ((m - exact_mean l) * (m - exact_mean l)).
Proof.
  intros Ne. assert (G : forall c, deviations m l = deviations c l + 2 * (c - m) * (Rsum l - INR (length l) * c) + INR (length l) * ((m - c) * (m - c))).
  { intros c. unfold deviations. clear Ne. induction l as [|x l IH]; cbn [map Rsum length]; [cbn; ring|]. rewrite IH, S_INR. ring. }
  rewrite (G (exact_mean l)). unfold exact_mean at 3.
  replace (Rsum l - INR (length l) * (Rsum l / INR (length l))) with 0; [ring|].
  field. apply not_0_INR. now destruct l.
Qed.
Lemma square_error x m : double x -> double m -> Rabs (RN (RN (x - m) * RN (x - m)) - (x - m) * (x - m)) <= 4 * u * ((x - m) * (x - m)) + tiny / 32.
Proof.
  intros Dx Dm. pose proof u_pos as U0. assert (U1 : u <= / 1000) by (rewrite u_value; lra).
  pose proof (sub_error x m Dx Dm) as E. set (a := x - m) in *. set (d := RN a) in *.
  pose proof (RN_error (d * d)) as E2. rewrite (Rabs_pos_eq (d * d)) in E2 by apply Rle_0_sqr.
  assert (A0 : 0 <= a * a) by apply Rle_0_sqr.
  assert (E3 : Rabs (d * d - a * a) <= 2.01 * u * (a * a)).
  { replace (d * d - a * a) with ((d - a) * (d + a)) by ring. rewrite Rabs_mult.
    assert (S : Rabs (d + a) <= 2.001 * Rabs a).
    { replace (d + a) with ((d - a) + 2 * a) by ring. apply Rle_trans with (1 := Rabs_triang _ _). rewrite (Rabs_mult 2 a), (Rabs_pos_eq 2) by lra.
      pose proof (Rabs_pos a). assert (u * Rabs a <= / 1000 * Rabs a) by (apply Rmult_le_compat_r; lra). lra. }
    apply Rle_trans with (u * Rabs a * (2.001 * Rabs a)).
    - apply Rmult_le_compat; try apply Rabs_pos; assumption.
    - replace (u * Rabs a * (2.001 * Rabs a)) with (2.001 * (u * (Rabs a * Rabs a))) by ring.
      rewrite <- Rabs_mult, (Rabs_pos_eq (a * a)) by exact A0. assert (0 <= u * (a * a)) by (apply Rmult_le_pos; lra). lra. }
  assert (UA : 0 <= u * (a * a)) by (apply Rmult_le_pos; lra).
  assert (E4 : d * d <= 1.5 * (a * a)). { apply Rabs_le_inv in E3. assert (u * (a * a) <= / 1000 * (a * a)) by (apply Rmult_le_compat_r; lra). lra. }
  assert (E5 : u * (d * d) <= u * (1.5 * (a * a))) by (apply Rmult_le_compat_l; lra).
  replace (RN (d * d) - a * a) with ((RN (d * d) - d * d) + (d * d - a * a)) by ring. apply Rle_trans with (1 := Rabs_triang _ _). lra.
Qed.
Lemma squares_sum m l : Forall double (present l) -> double m ->
  Rabs (Rsum (squares m l) - deviations m (present l)) <= 4 * u * deviations m (present l) + INR (length (present l)) * (tiny / 32).
Proof.
  intros F Dm. induction l as [|[x|] l IH].
  - cbn. unfold deviations. cbn. rewrite Rminus_0_r, Rabs_R0. lra.
  - inversion_clear F as [|? ? Dx F']. specialize (IH F'). unfold squares, deviations in *. cbn [map Rsum present length]. rewrite S_INR.
    pose proof (square_error x m Dx Dm) as E.
    set (q := RN (RN (x - m) * RN (x - m))) in *. set (b := (x - m) * (x - m)) in *.
    match goal with |- Rabs (q + ?A - (b + ?B)) <= _ => replace (q + A - (b + B)) with ((q - b) + (A - B)) by ring end.
    apply Rle_trans with (1 := Rabs_triang _ _). lra.
  - cbn [present] in *. specialize (IH F). unfold squares in *. cbn [map Rsum]. now rewrite Rplus_0_l.
Qed.
Lemma squares_ok m l : Forall double (squares m l) /\ map Rabs (squares m l) = squares m l /\ length (squares m l) = length l.
Proof.
  assert (Z : forall x, 0 <= RN (x * x)). { intros x. rewrite <- (RN_id 0) by apply generic_format_0. apply RN_mono, Rle_0_sqr. }
  unfold squares. split; [|split; [|apply map_length]].
  - apply Forall_forall. intros y Hy. apply in_map_iff in Hy. destruct Hy as ([x|] & <- & _); [apply RN_double|apply generic_format_0].
  - rewrite map_map. apply map_ext. intros [x|]; [now apply Rabs_pos_eq|apply Rabs_R0].
Qed.
Lemma fsum_nonneg t : Forall (fun x => 0 <= x) (leaves t) -> 0 <= fsum t.
Proof.
  induction t as [x|a IHa b IHb]; cbn; intros F; [now inversion F|]. apply Forall_app in F. destruct F as [Fa Fb].
  rewrite <- (RN_id 0) by apply generic_format_0. apply RN_mono. specialize (IHa Fa). specialize (IHb Fb). lra.
Qed.
Definition grain : R := / IZR (2 ^ 515).
Lemma grain_pos : 0 < grain. Proof. unfold grain. apply Rinv_0_lt_compat, IZR_lt. reflexivity. Qed.
Lemma grain_square : 4294967296 * tiny <= grain * grain.
Proof.
  unfold grain, tiny. rewrite <- Rinv_mult. rewrite <- mult_IZR.
  apply Rmult_le_reg_r with (IZR (2 ^ 1070)); [apply IZR_lt; reflexivity|]. rewrite Rmult_assoc, Rinv_l, Rmult_1_r by (apply not_0_IZR; discriminate).
  apply Rmult_le_reg_l with (IZR (2 ^ 515 * 2 ^ 515)); [apply IZR_lt; reflexivity|].
  rewrite <- Rmult_assoc, Rinv_r, Rmult_1_l by (apply not_0_IZR; discriminate). rewrite <- mult_IZR. apply IZR_le. intros H. discriminate H.
Qed.
Lemma grain_speck : 3 * grain + 3 * tiny <= speck.
Proof.
  assert (G : tiny <= grain) by (unfold tiny, grain; apply Rinv_le; [apply IZR_lt; reflexivity|apply IZR_le; intros H; discriminate H]).
  apply Rle_trans with (6 * grain); [lra|]. unfold grain, speck.
  apply Rmult_le_reg_r with (IZR (2 ^ 515)); [apply IZR_lt; reflexivity|]. rewrite Rmult_assoc, Rinv_l, Rmult_1_r by (apply not_0_IZR; discriminate).
  replace (2 ^ 515)%Z with (2 ^ 500 * 32768)%Z by reflexivity. rewrite mult_IZR, <- Rmult_assoc, Rinv_l by (apply not_0_IZR; discriminate). lra.
Qed.
Lemma std_error l s : Forall double (present l) -> (2 <= length (present l))%nat -> INR (length l) <= 1073741824 -> a_std l s ->
  Rabs (s - exact_std (present l)) <= 5 * INR (length l) * u * (exact_std (present l) + mean_size (present l)) + speck.
Proof.
  intros F Ne L (m & t & Hm & Et & ->). pose proof u_pos as U0. pose proof tiny_pos as T0. assert (U1 : u <= / 1000000) by (rewrite u_value; lra).
  assert (Np : present l <> []) by (intros Q; rewrite Q in Ne; cbn in Ne; lia).
  pose proof (mean_error l m F Np L Hm) as ME.
  assert (Dm : double m) by (destruct Hm as (t' & _ & ->); apply RN_double).
  destruct (squares_ok m l) as (D1 & D2 & D3).
  pose proof (perm_error t _ Et) as SE. rewrite D2, D3 in SE. specialize (SE D1 L).
  pose proof (squares_sum m l F Dm) as QE. pose proof (deviations_shift (present l) m Np) as DS.
  assert (F0 : 0 <= fsum t).
  { apply fsum_nonneg. apply (Permutation_Forall (Permutation_sym Et)). apply Forall_forall. intros x Hx. rewrite <- D2 in Hx. apply in_map_iff in Hx. destruct Hx as (y & <- & _). apply Rabs_pos. }
  assert (N2 : 2 <= INR (length (present l))) by (apply le_INR in Ne; cbn in Ne; lra).
  assert (KN : INR (length (present l)) <= INR (length l)) by apply le_INR, present_le.
  unfold fstd, exact_std. rewrite count_present. rewrite minus_INR by lia. change (INR 1) with 1.
  fold (deviations (exact_mean (present l)) (present l)).
  pose proof (deviations_nonneg (exact_mean (present l)) (present l)) as D0. pose proof (deviations_nonneg m (present l)) as V0.
  assert (A0 : 0 <= mean_size (present l)).
  { unfold mean_size. apply Rmult_le_pos; [apply Rsum_size_nonneg|]. left. apply Rinv_0_lt_compat. lra. }
  set (A := mean_size (present l)) in *. set (D := deviations (exact_mean (present l)) (present l)) in *. set (V := deviations m (present l)) in *.
  set (de := m - exact_mean (present l)) in *. set (n := INR (length (present l))) in *. set (k := INR (length l)) in *. set (f := fsum t) in *.
  set (q := Rsum (squares m l)) in *. set (ti := tiny / 32) in *. assert (TI : 0 < ti) by (unfold ti; lra).
  assert (UV : 0 <= u * V) by (apply Rmult_le_pos; lra).
  assert (Ku : k * u <= / 8000000) by (rewrite u_value; lra).
  assert (K0 : 0 <= k * u) by (apply Rmult_le_pos; lra).
  (* sum of squares *)
  assert (Q1 : q <= 1.001 * V + n * ti). { apply Rabs_le_inv in QE. assert (u * V <= / 1000000 * V) by (apply Rmult_le_compat_r; lra). lra. }
  assert (SE' : Rabs (f - q) <= 1.01 * (k * u) * (1.001 * V + n * ti)).
  { apply Rle_trans with (1 := SE). apply Rle_trans with (1.01 * (k - 1) * u * (1.001 * V + n * ti)).
    - apply Rmult_le_compat_l; [|exact Q1]. apply Rmult_le_pos; lra.
    - apply Rmult_le_compat_r; [|lra]. assert (0 <= n * ti) by (apply Rmult_le_pos; lra). lra. }
  assert (NT : 0 <= n * ti) by (apply Rmult_le_pos; lra).
  assert (FV : Rabs (f - V) <= (1.02 * k + 4) * u * V + 2 * (n * ti)).
  { replace (f - V) with ((f - q) + (q - V)) by ring. apply Rle_trans with (1 := Rabs_triang _ _).
    assert (1.01 * (k * u) * (n * ti) <= n * ti) by (assert (k * u * (n * ti) <= / 8000000 * (n * ti)) by (apply Rmult_le_compat_r; lra); lra).
    assert (0 <= k * u * V) by (apply Rmult_le_pos; lra). lra. }
  (* variance *)
  assert (I0 : 0 < / (n - 1) <= 1). { split; [apply Rinv_0_lt_compat; lra|]. rewrite <- Rinv_1. apply Rinv_le; lra. }
  set (W := V / (n - 1)). assert (W0 : 0 <= W) by (apply Rmult_le_pos; lra).
  assert (NN : n * / (n - 1) <= 2). { apply Rmult_le_reg_r with (n - 1); [lra|]. rewrite Rmult_assoc, Rinv_l by lra. lra. }
  assert (FW : Rabs (f / (n - 1) - W) <= (1.02 * k + 4) * u * W + 4 * ti).
  { unfold W. replace (f / (n - 1) - V / (n - 1)) with ((f - V) * / (n - 1)) by (unfold Rdiv; ring). rewrite Rabs_mult, (Rabs_pos_eq (/ (n - 1))) by lra.
    apply Rle_trans with (((1.02 * k + 4) * u * V + 2 * (n * ti)) * / (n - 1)); [apply Rmult_le_compat_r; lra|].
    replace (((1.02 * k + 4) * u * V + 2 * (n * ti)) * / (n - 1)) with ((1.02 * k + 4) * u * (V / (n - 1)) + 2 * ti * (n * / (n - 1))) by (unfold Rdiv; ring).
    assert (2 * ti * (n * / (n - 1)) <= 2 * ti * 2) by (apply Rmult_le_compat_l; lra). lra. }
  pose proof (RN_error (f / (n - 1))) as RE. fold ti in RE.
  assert (P1 : 0 <= f / (n - 1)) by (apply Rmult_le_pos; lra). rewrite (Rabs_pos_eq _ P1) in RE.
  set (var := RN (f / (n - 1))) in *.
  assert (P2 : 0 <= var). { unfold var. rewrite <- (RN_id 0) by apply generic_format_0. now apply RN_mono. }
  assert (UW : 0 <= u * W) by (apply Rmult_le_pos; lra). assert (KW : 2 * (u * W) <= k * (u * W)) by (apply Rmult_le_compat_r; lra).
  assert (VW : Rabs (var - W) <= 3.9 * k * u * W + 8 * ti).
  { replace (var - W) with ((var - f / (n - 1)) + (f / (n - 1) - W)) by ring. apply Rle_trans with (1 := Rabs_triang _ _).
    assert (f / (n - 1) <= 1.1 * W + 4 * ti).
    { apply Rabs_le_inv in FW. assert (k * u * W <= / 8000000 * W) by (apply Rmult_le_compat_r; lra). assert (u * W <= / 1000000 * W) by (apply Rmult_le_compat_r; lra). lra. }
    assert (u * (f / (n - 1)) <= u * (1.1 * W + 4 * ti)) by (apply Rmult_le_compat_l; lra).
    assert (u * ti <= / 1000000 * ti) by (apply Rmult_le_compat_r; lra). lra. }
  pose proof grain_pos as G0. pose proof grain_square as G1.
  assert (SQ : Rabs (sqrt var - sqrt W) <= 3.9 * k * u * sqrt W + grain).
  { apply sqrt_error; [exact P2|exact W0|split; lra|lra|unfold ti in VW; lra]. }
  (* the exact deviation *)
  set (s := sqrt (D / (n - 1))) in *.
  assert (s0 : 0 <= s) by apply sqrt_pos.
  assert (DW : W = D / (n - 1) + n / (n - 1) * (de * de)) by (unfold W; rewrite DS; unfold Rdiv; ring).
  assert (DD : 0 <= D / (n - 1)) by (apply Rmult_le_pos; lra).
  assert (dd : 0 <= de * de) by apply Rle_0_sqr.
  assert (Up : sqrt W <= s + 2 * Rabs de).
  { apply Rsqr_incr_0_var; [|pose proof (Rabs_pos de); lra]. rewrite Rsqr_sqrt by exact W0.
    replace (Rsqr (s + 2 * Rabs de)) with (s * s + 4 * (s * Rabs de) + 4 * (Rabs de * Rabs de)) by (unfold Rsqr; ring).
    unfold s at 1. unfold s at 1. rewrite sqrt_sqrt by exact DD. rewrite <- Rabs_mult, (Rabs_pos_eq (de * de)) by exact dd.
    assert (0 <= s * Rabs de) by (apply Rmult_le_pos; [lra|apply Rabs_pos]).
    assert (n / (n - 1) * (de * de) <= 2 * (de * de)) by (apply Rmult_le_compat_r; assumption). lra. }
  assert (Lo : s <= sqrt W).
  { apply sqrt_le_1_alt. rewrite DW. assert (0 <= n / (n - 1) * (de * de)); [|lra]. apply Rmult_le_pos; [|exact dd]. unfold Rdiv. apply Rmult_le_pos; lra. }
  pose proof (RN_error (sqrt var)) as RS. fold ti in RS. rewrite (Rabs_pos_eq (sqrt var)) in RS by apply sqrt_pos.
  set (sv := sqrt var) in *. set (sw := sqrt W) in *.
  assert (KS : k * u * sw <= / 8000000 * sw) by (apply Rmult_le_compat_r; lra).
  assert (SV : sv <= 1.1 * sw + grain) by (apply Rabs_le_inv in SQ; lra).
  assert (US : u * sv <= 1.1 * (u * sw) + grain / 1000).
  { apply Rle_trans with (u * (1.1 * sw + grain)); [apply Rmult_le_compat_l; lra|]. assert (u * grain <= / 1000000 * grain) by (apply Rmult_le_compat_r; lra). lra. }
  assert (KU : 2 * (u * sw) <= k * (u * sw)) by (apply Rmult_le_compat_r; [apply Rmult_le_pos; lra|lra]).
  assert (KP : 0 <= k * u * sw) by (apply Rmult_le_pos; lra).
  assert (T1 : Rabs (RN sv - sw) <= 4.5 * k * u * sw + 1.1 * grain + ti).
  { replace (RN sv - sw) with ((RN sv - sv) + (sv - sw)) by ring. apply Rle_trans with (1 := Rabs_triang _ _). lra. }
  pose proof (Rabs_pos de) as d0.
  assert (T2 : k * u * sw <= k * u * s + / 4000000 * Rabs de).
  { apply Rle_trans with (k * u * (s + 2 * Rabs de)); [apply Rmult_le_compat_l; lra|]. assert (k * u * Rabs de <= / 8000000 * Rabs de) by (apply Rmult_le_compat_r; lra). lra. }
  replace (RN sv - s) with ((RN sv - sw) + (sw - s)) by ring. apply Rle_trans with (1 := Rabs_triang _ _).
  rewrite (Rabs_pos_eq (sw - s)) by lra. pose proof grain_speck as GS.
  assert (KA : 0 <= k * u * A) by (apply Rmult_le_pos; lra). assert (Ks : 0 <= k * u * s) by (apply Rmult_le_pos; lra). unfold ti in T1. lra.
Qed.

Lemma mean_between l m a b : Forall double (present l) -> present l <> [] -> INR (length l) <= 1073741824 -> a_mean l m ->
  0 <= a -> (forall x, In x (present l) -> a <= x <= b) ->
  a - 2 * INR (length l) * u * b - tiny <= m <= b + 2 * INR (length l) * u * b + tiny.
Proof.
  intros F Ne L Hm Ha H. pose proof (mean_error l m F Ne L Hm) as E. pose proof u_pos as U0.
  assert (N0 : 0 < INR (length (present l))) by (apply lt_0_INR; destruct (present l); [easy|cbn; lia]).
  assert (S : forall p, (forall x, In x p -> a <= x <= b) -> INR (length p) * a <= Rsum p <= INR (length p) * b /\ Rsum (map Rabs p) = Rsum p).
  { induction p as [|x p IH]; intros Hp; [cbn; lra|]. cbn [map Rsum length]. rewrite S_INR. destruct IH as [I1 I2]; [intros; apply Hp; now right|].
    assert (a <= x <= b) by (apply Hp; now left). rewrite I2, Rabs_pos_eq by lra. split; lra. }
  destruct (S _ H) as [S1 S2].
  assert (M : a <= exact_mean (present l) <= b).
  { unfold exact_mean. split; (apply Rmult_le_reg_r with (INR (length (present l))); [exact N0|]); unfold Rdiv; rewrite Rmult_assoc, Rinv_l by lra; lra. }
  assert (Q : mean_size (present l) = exact_mean (present l)) by (unfold mean_size, exact_mean; now rewrite S2). rewrite Q in E.
  assert (2 * INR (length l) * u * exact_mean (present l) <= 2 * INR (length l) * u * b).
  { apply Rmult_le_compat_l; [|apply M]. apply Rmult_le_pos; [|lra]. apply Rmult_le_pos; [lra|apply pos_INR]. }
  apply Rabs_le_inv in E. lra.
Qed.
Lemma equal_std l s x : Forall double (present l) -> (2 <= length (present l))%nat -> INR (length l) <= 1073741824 -> a_std l s ->
  (forall y, In y (present l) -> y = x) -> 0 <= s <= 5 * INR (length l) * u * Rabs x + speck.
Proof.
  intros F Ne L Hs H. pose proof (std_error l s F Ne L Hs) as E.
  assert (N0 : 2 <= INR (length (present l))) by (apply le_INR in Ne; cbn in Ne; lra).
  assert (S : forall p, (forall y, In y p -> y = x) -> Rsum p = INR (length p) * x /\ Rsum (map Rabs p) = INR (length p) * Rabs x /\
    Rsum (map (fun y => (y - x) * (y - x)) p) = 0).
  { induction p as [|y p IH]; intros Hp; [cbn; lra|]. cbn [map Rsum length]. rewrite S_INR. destruct IH as (I1 & I2 & I3); [intros; apply Hp; now right|].
    assert (Y : y = x) by (apply Hp; now left). rewrite I1, I2, I3, Y. repeat split; ring. }
  destruct (S _ H) as (S1 & S2 & S3).
  assert (M : exact_mean (present l) = x) by (unfold exact_mean; rewrite S1; field; lra).
  assert (Q : mean_size (present l) = Rabs x) by (unfold mean_size; rewrite S2; field; lra).
  assert (Z : exact_std (present l) = 0). { unfold exact_std. rewrite M, S3. unfold Rdiv. rewrite Rmult_0_l. apply sqrt_0. }
  rewrite Z, Q in E. split.
  - destruct Hs as (m & t & _ & _ & ->). unfold fstd. rewrite <- (RN_id 0) by apply generic_format_0. apply RN_mono, sqrt_pos.
  - rewrite Rminus_0_r in E. pose proof (Rle_abs s). lra.
Qed.

(** Equal values with a spread. *)
Lemma fsum_leaf t x : Forall double (leaves t) -> Forall (fun x => 0 <= x) (leaves t) -> In x (leaves t) -> x <= fsum t.
Proof.
  induction t as [y|a IHa b IHb]; cbn; intros D F I; [destruct I as [-> |[]]; lra|].
  apply Forall_app in F, D. destruct F as [Fa Fb], D as [Da Db]. pose proof (fsum_nonneg a Fa). pose proof (fsum_nonneg b Fb).
  apply in_app_or in I. destruct I as [I|I].
  - apply Rle_trans with (fsum a); [auto|]. rewrite <- (RN_id (fsum a)) at 1 by now apply fsum_double. apply RN_mono. lra.
  - apply Rle_trans with (fsum b); [auto|]. rewrite <- (RN_id (fsum b)) at 1 by now apply fsum_double. apply RN_mono. lra.
Qed.
Lemma one_leaf t x : leaves t = [x] -> fsum t = x.
Proof.
  destruct t as [y|a b]; cbn; intros E; [now injection E|]. pose proof (leaves_length a). pose proof (leaves_length b).
  apply (f_equal (@length R)) in E. rewrite app_length in E. cbn in E. lia.
Qed.
Lemma two_leaves t x y : leaves t = [x; y] -> fsum t = RN (x + y).
Proof.
  destruct t as [z|a b]; cbn; intros E; [discriminate|]. pose proof (leaves_length a). pose proof (leaves_length b).
  destruct (leaves a) as [|a1 [|a2 la]] eqn:Ea; [cbn in *; lia| |].
  - cbn in E. injection E as -> E. rewrite (one_leaf a x Ea), (one_leaf b y E). reflexivity.
  - apply (f_equal (@length R)) in E. cbn in E. rewrite app_length in E. lia.
Qed.
Lemma three_leaves t x : leaves t = [x; x; x] -> fsum t = RN (RN (x + x) + x).
Proof.
  destruct t as [z|a b]; cbn; intros E; [discriminate|]. pose proof (leaves_length a). pose proof (leaves_length b).
  destruct (leaves a) as [|a1 [|a2 [|a3 la]]] eqn:Ea; [cbn in *; lia| | |].
  - cbn in E. injection E as -> E. rewrite (one_leaf a x Ea), (two_leaves b x x E). f_equal. ring.
  - cbn in E. injection E as -> -> E. rewrite (two_leaves a x x Ea), (one_leaf b x E). reflexivity.
  - apply (f_equal (@length R)) in E. cbn in E. rewrite app_length in E. lia.
Qed.
Local Ltac numbers := cbn [bpow radix_val radix2 Z.pow_pos Pos.iter Z.mul Pos.mul]; unfold Rdiv; lra.
Lemma equal_refuted : exists x, double x /\
  (forall m, a_mean [Some x; Some x; Some x] m -> x < m) /\ (forall s, a_std [Some x; Some x; Some x] s -> 0 < s).
Proof.
  set (x := 7205759403792794 * bpow radix2 (-56)). exists x.
  assert (Db : forall e, (-1074 <= e)%Z -> double (bpow radix2 e)) by (intros e He; apply generic_format_bpow; unfold fexp, FLT_exp; lia).
  assert (X2 : RN (x + x) = 7205759403792794 * bpow radix2 (-55)) by (apply RN_concrete; [lia|split; unfold x; numbers|apply Rabs_def1; unfold x; numbers]).
  assert (X3 : RN (RN (x + x) + x) = 5404319552844596 * bpow radix2 (-54)).
  { rewrite X2. unfold RN, round, F2R, scaled_mantissa.
    assert (M : mag radix2 (7205759403792794 * bpow radix2 (-55) + x) = (-1)%Z :> Z).
    { apply mag_unique. rewrite Rabs_pos_eq by (unfold x; numbers). split; [change (bpow radix2 (-1 - 1)) with (bpow radix2 (-2))|]; unfold x; numbers. }
    replace (cexp radix2 fexp (7205759403792794 * bpow radix2 (-55) + x)) with (-54)%Z by (unfold cexp, fexp, FLT_exp; rewrite M; reflexivity).
    cbn [Fnum Fexp]. f_equal. f_equal.
    change (- (-54))%Z with 54%Z. replace ((7205759403792794 * bpow radix2 (-55) + x) * bpow radix2 54) with (IZR 5404319552844595 + / 2) by (unfold x; numbers).
    unfold Znearest. replace (Zfloor (IZR 5404319552844595 + / 2)) with 5404319552844595%Z by (symmetry; apply Zfloor_imp; rewrite plus_IZR; lra).
    replace (Zceil (IZR 5404319552844595 + / 2)) with 5404319552844596%Z by (symmetry; apply Zceil_imp; rewrite minus_IZR; lra).
    rewrite Rcompare_Eq by lra. reflexivity. }
  assert (Mn : forall m, a_mean [Some x; Some x; Some x] m -> m = 7205759403792795 * bpow radix2 (-56)).
  { intros m (t & Et & ->). unfold fmean. rewrite (three_leaves t x (Permutation_repeat x 3 Et)), X3. change (INR (count _)) with (1 + 1 + 1).
    apply RN_concrete; [lia|split; numbers|apply Rabs_def1; numbers]. }
  split; [|split].
  - apply generic_format_FLT. exists (Float radix2 7205759403792794 (-56)); cbn; [reflexivity|lia|lia].
  - intros m Hm. rewrite (Mn m Hm). unfold x. numbers.
  - intros s (m & t & Hm & Et & ->). apply Mn in Hm.
    assert (D : RN (x - m) = - bpow radix2 (-56)).
    { rewrite Hm. replace (x - 7205759403792795 * bpow radix2 (-56)) with (- bpow radix2 (-56)) by (unfold x; ring). apply RN_id, generic_format_opp, Db. lia. }
    assert (Q : RN (RN (x - m) * RN (x - m)) = bpow radix2 (-112)).
    { rewrite D. replace (- bpow radix2 (-56) * - bpow radix2 (-56)) with (bpow radix2 (-112)) by (rewrite Rmult_opp_opp, <- bpow_plus; reflexivity). apply RN_id, Db. lia. }
    assert (S1 : bpow radix2 (-112) <= fsum t).
    { apply fsum_leaf; rewrite Et; unfold squares; cbn [map]; rewrite Q.
      - repeat apply Forall_cons; try apply Forall_nil; apply Db; lia.
      - repeat apply Forall_cons; try apply Forall_nil; apply bpow_ge_0.
      - now left. }
    unfold fstd. change (INR (count _ - 1)) with (1 + 1).
    assert (S2 : bpow radix2 (-113) <= RN (fsum t / (1 + 1))).
    { rewrite <- (RN_id (bpow radix2 (-113))) by (apply Db; lia). apply RN_mono. replace (bpow radix2 (-113)) with (bpow radix2 (-112) / (1 + 1)) by numbers. lra. }
    assert (S3 : bpow radix2 (-57) <= sqrt (RN (fsum t / (1 + 1)))).
    { rewrite <- (sqrt_Rsqr (bpow radix2 (-57))) by apply bpow_ge_0. apply sqrt_le_1_alt. apply Rle_trans with (2 := S2).
      unfold Rsqr. rewrite <- bpow_plus. apply bpow_le. lia. }
    apply Rlt_le_trans with (bpow radix2 (-57)); [apply bpow_gt_0|]. rewrite <- (RN_id (bpow radix2 (-57))) by (apply Db; lia). now apply RN_mono.
Qed.
