(* Proofs about the phase-shift transform in double precision. *)
From Coq Require Import Lra Lia.
From Verif Require Import FloatModel FloatSpec FloatProofs FloatStatModel FloatStatSpec FloatStatProofs FloatNormProofs FloatTracesProofs FloatNormModel FloatXcorrProofs FloatPhaseModel FloatPhaseSpec.

Lemma norm_nonneg x y : 0 <= norm x y. Proof. apply sqrt_pos. Qed.
Lemma norm_triangle a b c d : norm (a + c) (b + d) <= norm a b + norm c d.
Proof.
  unfold norm. pose proof (sqrt_pos (a * a + b * b)) as P1. pose proof (sqrt_pos (c * c + d * d)) as P2.
  assert (N1 : 0 <= a * a + b * b) by (pose proof (Rle_0_sqr a); pose proof (Rle_0_sqr b); unfold Rsqr in *; lra).
  assert (N2 : 0 <= c * c + d * d) by (pose proof (Rle_0_sqr c); pose proof (Rle_0_sqr d); unfold Rsqr in *; lra).
  pose proof (sqrt_sqrt _ N1) as Q1. pose proof (sqrt_sqrt _ N2) as Q2. pose proof (sqrt_cauchy a b c d) as K. unfold Rsqr in K.
  rewrite <- (sqrt_square (sqrt (a * a + b * b) + sqrt (c * c + d * d))) by lra. apply sqrt_le_1_alt.
  set (s := sqrt (a * a + b * b)) in *. set (t := sqrt (c * c + d * d)) in *. lra.
Qed.
Lemma norm_scale k a b : norm (k * a) (k * b) = Rabs k * norm a b.
Proof.
  unfold norm. replace (k * a * (k * a) + k * b * (k * b)) with (k * k * (a * a + b * b)) by ring. rewrite sqrt_mult_alt by apply Rle_0_sqr.
  f_equal. change (sqrt (Rsqr k) = Rabs k). apply sqrt_Rsqr_abs.
Qed.
Lemma norm_le_sum a b : norm a b <= Rabs a + Rabs b.
Proof.
  pose proof (norm_triangle a 0 0 b) as T. rewrite Rplus_0_r, Rplus_0_l in T. unfold norm in T at 2 3. rewrite !Rmult_0_l, Rplus_0_r, Rplus_0_l in T.
  change (sqrt (a * a)) with (sqrt (Rsqr a)) in T. change (sqrt (b * b)) with (sqrt (Rsqr b)) in T. now rewrite !sqrt_Rsqr_abs in T.
Qed.
Lemma norm_diff a b c d : Rabs (norm a b - norm c d) <= Rabs (a - c) + Rabs (b - d).
Proof.
  assert (H : forall x y z w, norm x y - norm z w <= Rabs (x - z) + Rabs (y - w)).
  { intros x y z w. pose proof (norm_triangle z w (x - z) (y - w)) as T. replace (z + (x - z)) with x in T by ring. replace (w + (y - w)) with y in T by ring.
    pose proof (norm_le_sum (x - z) (y - w)). lra. }
  apply Rabs_le. pose proof (H a b c d). pose proof (H c d a b). rewrite (Rabs_minus_sym c a), (Rabs_minus_sym d b) in *. lra.
Qed.
Lemma part_small x y : x * x + y * y = 1 -> Rabs x <= 1 /\ Rabs y <= 1.
Proof.
  intros H. pose proof (Rle_0_sqr x) as X. pose proof (Rle_0_sqr y) as Y. unfold Rsqr in *.
  split; rewrite <- Rabs_R1; apply Rsqr_le_abs_0; unfold Rsqr; lra.
Qed.
Lemma extent_nonneg xs : 0 <= extent xs.
Proof. induction xs as [|x [|x' xs] IH]; cbn [extent] in *; try lra. pose proof (Rabs_pos (x' - x)). lra. Qed.

(** The exact power is at most the length of the array. *)
Lemma power_bound xs : forall re im, phases re im -> exact_power xs re im <= extent xs.
Proof.
  unfold exact_power. induction xs as [|x xs IH]; intros re im P.
  - cbn. unfold norm. rewrite Rmult_0_l, Rplus_0_r, sqrt_0. lra.
  - destruct xs as [|x' xs]; [cbn; unfold norm; destruct re, im; rewrite Rmult_0_l, Rplus_0_r, sqrt_0; lra|].
    assert (Z : norm 0 0 <= extent (x :: x' :: xs)).
    { unfold norm. rewrite Rmult_0_l, Rplus_0_r, sqrt_0. apply extent_nonneg. }
    destruct P as [|c s re im H1 P]; [exact Z|]. destruct P as [|c' s' re im H2 P]; [exact Z|].
    specialize (IH (c' :: re) (s' :: im) (Forall2_cons _ _ H2 P)).
    change (extent (x :: x' :: xs)) with (Rabs (x' - x) + extent (x' :: xs)).
    change (norm ((x' - x) * ((c + c') / 2) + trapezoid (x' :: xs) (c' :: re)) ((x' - x) * ((s + s') / 2) + trapezoid (x' :: xs) (s' :: im)) <= Rabs (x' - x) + extent (x' :: xs)).
    eapply Rle_trans; [apply norm_triangle|]. apply Rplus_le_compat; [|exact IH]. rewrite norm_scale.
    assert (N : norm ((c + c') / 2) ((s + s') / 2) <= 1).
    { replace ((c + c') / 2) with (/ 2 * (c + c')) by (unfold Rdiv; ring). replace ((s + s') / 2) with (/ 2 * (s + s')) by (unfold Rdiv; ring). rewrite norm_scale, Rabs_right by lra.
      pose proof (norm_triangle c s c' s') as T. unfold norm in T at 2 3. rewrite H1, H2, sqrt_1 in T. lra. }
    rewrite <- (Rmult_1_r (Rabs (x' - x))) at 2. apply Rmult_le_compat_l; [apply Rabs_pos|exact N].
Qed.

(** One panel. *)
Lemma panel_error e x x' c c' d d' : 0 <= e <= / 1000 -> double x -> double x' -> Rabs c <= 1 -> Rabs c' <= 1 ->
  Rabs (d - c) <= e -> Rabs (d' - c') <= e ->
  Rabs (RN (RN (/ 2 * RN (x' - x)) * RN (d + d')) - (x' - x) * ((c + c') / 2)) <= Rabs (x' - x) * (e + 5 * u) + 3 * tiny.
Proof.
  intros He Dx Dx' Hc Hc' Hd Hd'. pose proof u_pos as U0. pose proof tiny_pos as T0. pose proof tiny_small as T1. assert (U1 : u <= / 1000000000000000) by (rewrite u_value; lra).
  pose proof (sub_error x' x Dx' Dx) as E1. set (w := x' - x) in *. set (h := RN (/ 2 * RN w)). set (s := RN (d + d')).
  pose proof (Rabs_pos w) as Wp. assert (uw : 0 <= u * Rabs w) by (apply Rmult_le_pos; lra).
  assert (uw1 : u * (u * Rabs w) <= / 1000 * (u * Rabs w)) by (apply Rmult_le_compat_r; lra).
  assert (W' : Rabs (RN w) <= Rabs w + u * Rabs w).
  { replace (RN w) with (w + (RN w - w)) by ring. apply Rle_trans with (1 := Rabs_triang _ _). lra. }
  assert (Hh : Rabs (h - w / 2) <= 11 / 10 * (u * Rabs w) + tiny / 32).
  { pose proof (RN_error (/ 2 * RN w)) as Eh. fold h in Eh. rewrite Rabs_mult, (Rabs_right (/ 2)) in Eh by lra.
    replace (h - w / 2) with ((h - / 2 * RN w) + / 2 * (RN w - w)) by (unfold Rdiv; ring). apply Rle_trans with (1 := Rabs_triang _ _).
    rewrite (Rabs_mult (/ 2) (RN w - w)), (Rabs_right (/ 2)) by lra.
    assert (u * (/ 2 * Rabs (RN w)) <= u * (/ 2 * (Rabs w + u * Rabs w))) by (apply Rmult_le_compat_l; lra). lra. }
  assert (Hs0 : Rabs (d + d' - (c + c')) <= 2 * e).
  { replace (d + d' - (c + c')) with ((d - c) + (d' - c')) by ring. apply Rle_trans with (1 := Rabs_triang _ _). lra. }
  assert (Cc : Rabs (c + c') <= 2) by (apply Rle_trans with (1 := Rabs_triang _ _); lra).
  assert (Dd : Rabs (d + d') <= 2002 / 1000).
  { replace (d + d') with ((c + c') + (d + d' - (c + c'))) by ring. apply Rle_trans with (1 := Rabs_triang _ _). lra. }
  assert (Hs : Rabs (s - (c + c')) <= 2 * e + 21 / 10 * u).
  { pose proof (RN_error (d + d')) as Es. fold s in Es. replace (s - (c + c')) with ((s - (d + d')) + (d + d' - (c + c'))) by ring. apply Rle_trans with (1 := Rabs_triang _ _).
    assert (u * Rabs (d + d') <= u * (2002 / 1000)) by (apply Rmult_le_compat_l; lra).
    assert (tiny <= / 100 * u) by (rewrite u_value; lra). lra. }
  assert (S2 : Rabs s <= 203 / 100).
  { replace s with ((c + c') + (s - (c + c'))) by ring. apply Rle_trans with (1 := Rabs_triang _ _). lra. }
  assert (Hp : Rabs (h * s - w * ((c + c') / 2)) <= Rabs w * (e + 34 / 10 * u) + 1 / 10 * tiny).
  { replace (h * s - w * ((c + c') / 2)) with ((h - w / 2) * s + w / 2 * (s - (c + c'))) by field.
    apply Rle_trans with (1 := Rabs_triang _ _). rewrite !Rabs_mult. unfold Rdiv at 2. rewrite (Rabs_mult w (/ 2)), (Rabs_right (/ 2)) by lra.
    assert (P1 : Rabs (h - w / 2) * Rabs s <= (11 / 10 * (u * Rabs w) + tiny / 32) * (203 / 100)) by (apply Rmult_le_compat; auto using Rabs_pos; lra).
    assert (P2 : Rabs w * / 2 * Rabs (s - (c + c')) <= Rabs w * / 2 * (2 * e + 21 / 10 * u)) by (apply Rmult_le_compat_l; lra). lra. }
  pose proof (RN_error (h * s)) as Er.
  assert (We : 0 <= Rabs w * (e + 34 / 10 * u) <= Rabs w * (/ 100)).
  { split; [apply Rmult_le_pos; lra|apply Rmult_le_compat_l; lra]. }
  assert (Hq : Rabs (h * s) <= 102 / 100 * Rabs w + tiny).
  { replace (h * s) with (w * ((c + c') / 2) + (h * s - w * ((c + c') / 2))) by ring. apply Rle_trans with (1 := Rabs_triang _ _).
    rewrite Rabs_mult. unfold Rdiv at 1. rewrite (Rabs_mult (c + c')), (Rabs_right (/ 2)) by lra.
    assert (Rabs w * (Rabs (c + c') * / 2) <= Rabs w * 1) by (apply Rmult_le_compat_l; lra). lra. }
  assert (Q1 : u * Rabs (h * s) <= u * (102 / 100 * Rabs w + tiny)) by (apply Rmult_le_compat_l; lra).
  assert (Q2 : u * tiny <= / 1000 * tiny) by (apply Rmult_le_compat_r; lra).
  replace (RN (h * s) - w * ((c + c') / 2)) with ((RN (h * s) - h * s) + (h * s - w * ((c + c') / 2))) by ring.
  apply Rle_trans with (1 := Rabs_triang _ _). lra.
Qed.

Lemma panels_length xs : forall cs, length xs = length cs -> length (panels xs cs) = (length xs - 1)%nat.
Proof.
  induction xs as [|x [|x' xs] IH]; intros [|c [|c' cs]] H; cbn in H; try lia; try reflexivity.
  cbn [panels length]. change (S (length (panels (x' :: xs) (c' :: cs))) = (S (S (length xs)) - 1)%nat). rewrite IH by (cbn; lia). cbn [length]. lia.
Qed.
Lemma panels_double xs : forall cs, Forall double (panels xs cs).
Proof.
  induction xs as [|x [|x' xs] IH]; intros [|c [|c' cs]]; cbn [panels]; auto. constructor; [apply RN_double|]. apply (IH (c' :: cs)).
Qed.
Lemma panels_error e xs : forall c d, 0 <= e <= / 1000 -> Forall double xs -> length xs = length c -> Forall (fun x => Rabs x <= 1) c -> computed e c d ->
  Rabs (Rsum (panels xs d) - trapezoid xs c) <= extent xs * (e + 5 * u) + 3 * INR (length xs) * tiny /\
  Rsum (map Rabs (panels xs d)) <= extent xs * (1 + e + 5 * u) + 3 * INR (length xs) * tiny.
Proof.
  pose proof tiny_pos as T0. pose proof u_pos as U0.
  assert (Z : forall e xs, 0 <= e -> 0 <= extent xs * (e + 5 * u) + 3 * INR (length xs) * tiny /\ 0 <= extent xs * (1 + e + 5 * u) + 3 * INR (length xs) * tiny).
  { intros e0 ys He. pose proof (extent_nonneg ys). pose proof (pos_INR (length ys)).
    assert (0 <= 3 * INR (length ys) * tiny) by (repeat apply Rmult_le_pos; lra). split; apply Rplus_le_le_0_compat; auto; apply Rmult_le_pos; lra. }
  induction xs as [|x xs IH]; intros c d He D L Hc H.
  - specialize (Z e [] ltac:(lra)). cbn [panels Rsum map trapezoid] in *. rewrite Rminus_0_r, Rabs_R0. tauto.
  - destruct xs as [|x' xs].
    + specialize (Z e [x] ltac:(lra)). cbn [panels Rsum map trapezoid] in *. destruct c, d; cbn [Rsum map]; rewrite Rminus_0_r, Rabs_R0; tauto.
    + destruct H as [|c0 d0 c d [Dd0 H0] H]; [cbn in L; lia|]. destruct H as [|c1 d1 c d [Dd1 H1] H]; [cbn in L; lia|].
      apply Forall_cons_iff in D. destruct D as [Dx D]. pose proof (Forall_inv D) as Dx'. apply Forall_cons_iff in Hc. destruct Hc as [Hc0 Hc]. pose proof (Forall_inv Hc) as Hc1.
      destruct (IH (c1 :: c) (d1 :: d) He D ltac:(cbn in *; lia) Hc ltac:(constructor; auto)) as [I1 I2].
      pose proof (panel_error e x x' c0 c1 d0 d1 He Dx Dx' Hc0 Hc1 H0 H1) as P.
      change (panels (x :: x' :: xs) (d0 :: d1 :: d)) with (RN (RN (/ 2 * RN (x' - x)) * RN (d0 + d1)) :: panels (x' :: xs) (d1 :: d)).
      change (trapezoid (x :: x' :: xs) (c0 :: c1 :: c)) with ((x' - x) * ((c0 + c1) / 2) + trapezoid (x' :: xs) (c1 :: c)).
      change (extent (x :: x' :: xs)) with (Rabs (x' - x) + extent (x' :: xs)). change (length (x :: x' :: xs)) with (S (length (x' :: xs))).
      rewrite S_INR. cbn [Rsum map]. set (v := RN (RN (/ 2 * RN (x' - x)) * RN (d0 + d1))) in *. split.
      * match goal with |- Rabs (?a + ?b - (?c + ?d)) <= _ => replace (a + b - (c + d)) with ((a - c) + (b - d)) by ring end.
        apply Rle_trans with (1 := Rabs_triang _ _). lra.
      * assert (Q : Rabs v <= Rabs (x' - x) * (1 + e + 5 * u) + 3 * tiny).
        { replace v with ((x' - x) * ((c0 + c1) / 2) + (v - (x' - x) * ((c0 + c1) / 2))) by ring. apply Rle_trans with (1 := Rabs_triang _ _).
          assert (Cc : Rabs ((c0 + c1) / 2) <= 1) by (apply Rabs_le_inv in Hc0; apply Rabs_le_inv in Hc1; apply Rabs_le; lra).
          rewrite (Rabs_mult (x' - x)). assert (Rabs (x' - x) * Rabs ((c0 + c1) / 2) <= Rabs (x' - x) * 1) by (apply Rmult_le_compat_l; [apply Rabs_pos|exact Cc]). lra. }
        lra.
Qed.
Lemma part_error e xs c d t : 0 <= e <= / 1000 -> Forall double xs -> length xs = length c -> Forall (fun x => Rabs x <= 1) c -> computed e c d ->
  INR (length xs) <= 1073741824 -> Permutation (leaves t) (panels xs d) ->
  Rabs (fsum t - trapezoid xs c) <= extent xs * (e + (5 + 11 / 10 * INR (length xs)) * u) + 4 * INR (length xs) * tiny.
Proof.
  intros He D L Hc H Hn Lt. pose proof tiny_pos as T0. pose proof u_pos as U0. assert (U1 : u <= / 1000000000000000) by (rewrite u_value; lra).
  destruct (panels_error e xs c d He D L Hc H) as [P1 P2]. pose proof (panels_double xs d) as Pd.
  assert (Ld : length xs = length d) by (rewrite L; clear -H; induction H; cbn; congruence).
  assert (Ll : (length (leaves t) <= length xs)%nat) by (rewrite (Permutation_length Lt), panels_length by exact Ld; lia). apply le_INR in Ll.
  assert (L1 : 1 <= INR (length (leaves t))).
  { change 1 with (INR 1). apply le_INR. clear. induction t as [y|t1 IH1 t2 IH2]; cbn [leaves length]; [lia|]. rewrite app_length. lia. }
  pose proof (perm_error t _ Lt Pd ltac:(rewrite <- (Permutation_length Lt); lra)) as E. rewrite <- (Permutation_length Lt) in E. set (m := INR (length (leaves t))) in *. set (n := INR (length xs)) in *.
  pose proof (extent_nonneg xs) as X0. set (W := extent xs) in *.
  assert (Nt : 0 <= n * tiny) by (apply Rmult_le_pos; lra).
  assert (Q1 : 1.01 * (m - 1) * u * Rsum (map Rabs (panels xs d)) <= 1.01 * n * u * (W * (1 + e + 5 * u) + 3 * n * tiny)).
  { assert (0 <= W * (1 + e + 5 * u)) by (apply Rmult_le_pos; lra).
    apply Rle_trans with (1.01 * (m - 1) * u * (W * (1 + e + 5 * u) + 3 * n * tiny)).
    - apply Rmult_le_compat_l; [|exact P2]. apply Rmult_le_pos; [apply Rmult_le_pos; lra|lra].
    - apply Rmult_le_compat_r; [lra|]. apply Rmult_le_compat_r; lra. }
  assert (Nu : n * u <= / 100000) by (apply Rle_trans with (1073741824 * u); [apply Rmult_le_compat_r; lra|lra]).
  assert (Q2 : n * u * (n * tiny) <= / 100000 * (n * tiny)) by (apply Rmult_le_compat_r; lra).
  assert (Wn : 0 <= n * u * W) by (repeat apply Rmult_le_pos; lra).
  assert (Q3 : n * u * W * (1 + e + 5 * u) <= n * u * W * (1002 / 1000)) by (apply Rmult_le_compat_l; lra).
  replace (fsum t - trapezoid xs c) with ((fsum t - Rsum (panels xs d)) + (Rsum (panels xs d) - trapezoid xs c)) by ring.
  apply Rle_trans with (1 := Rabs_triang _ _). lra.
Qed.
Lemma power_error hypot_ e xs re im re' im' p : good_hypot hypot_ -> 0 <= e <= / 1000 -> Forall double xs -> INR (length xs) <= 1073741824 ->
  length xs = length re -> phases re im -> computed e re re' -> computed e im im' -> integral_of hypot_ xs re' im' p ->
  Rabs (p - exact_power xs re im) <= allowed e xs.
Proof.
  intros Gh He D Hn L P C1 C2 (t & t' & Lt & Lt' & ->). pose proof tiny_pos as T0. pose proof u_pos as U0. assert (U1 : u <= / 1000000000000000) by (rewrite u_value; lra).
  assert (Li : length re = length im) by (clear -P; induction P; cbn; congruence).
  assert (S1 : Forall (fun x => Rabs x <= 1) re) by (clear -P; induction P as [|x y l m H P IH]; constructor; auto; now apply (part_small x y)).
  assert (S2 : Forall (fun x => Rabs x <= 1) im) by (clear -P; induction P as [|x y l m H P IH]; constructor; auto; now apply (part_small x y)).
  pose proof (part_error e xs re re' t He D L S1 C1 Hn Lt) as E1. pose proof (part_error e xs im im' t' He D ltac:(congruence) S2 C2 Hn Lt') as E2.
  assert (N1 : 1 <= INR (length xs)).
  { destruct xs as [|x xs]; [|cbn [length]; rewrite S_INR; pose proof (pos_INR (length xs)); lra].
    exfalso. cbn in Lt. apply Permutation_length in Lt. pose proof (leaves_length t). cbn in Lt. lia. }
  pose proof (Gh (fsum t) (fsum t') (perm_double t _ Lt (panels_double _ _)) (perm_double t' _ Lt' (panels_double _ _))) as G. pose proof (norm_diff (fsum t) (fsum t') (trapezoid xs re) (trapezoid xs im)) as Nd. fold (exact_power xs re im) in Nd.
  pose proof (power_bound xs re im P) as B. pose proof (extent_nonneg xs) as W0. unfold allowed. set (W := extent xs) in *. set (n := INR (length xs)) in *. set (q := exact_power xs re im) in *.
  set (r := norm (fsum t) (fsum t')) in *. set (E := W * (e + (5 + 11 / 10 * n) * u) + 4 * n * tiny) in *.
  assert (Nu : n * u <= / 100000) by (apply Rle_trans with (1073741824 * u); [apply Rmult_le_compat_r; lra|lra]).
  assert (Nt : 0 <= n * tiny) by (apply Rmult_le_pos; lra). assert (Tn : 1 * tiny <= n * tiny) by (apply Rmult_le_compat_r; lra).
  assert (Eb : E <= W / 100 + 4 * n * tiny).
  { unfold E. apply Rplus_le_compat_r. unfold Rdiv. apply Rmult_le_compat_l; [exact W0|]. lra. }
  assert (Rb : r <= 11 / 10 * W + 8 * n * tiny) by (apply Rabs_le_inv in Nd; lra).
  assert (Q : 2 * u * r <= 2 * u * (11 / 10 * W + 8 * n * tiny)) by (apply Rmult_le_compat_l; lra).
  assert (Q2 : u * (n * tiny) <= / 1000 * (n * tiny)) by (apply Rmult_le_compat_r; lra).
  assert (We : 0 <= W * e) by (apply Rmult_le_pos; lra). assert (Wu : 0 <= W * u) by (apply Rmult_le_pos; lra). assert (Wn : 0 <= W * (n * u)) by (apply Rmult_le_pos; [lra|apply Rmult_le_pos; lra]).
  replace (hypot_ (fsum t) (fsum t') - q) with ((hypot_ (fsum t) (fsum t') - r) + (r - q)) by ring. apply Rle_trans with (1 := Rabs_triang _ _).
  unfold E in *. lra.
Qed.

(** ** The phases *)
Lemma tiny_tiny : tiny <= / IZR (2 ^ 460) * / IZR (2 ^ 460).
Proof. unfold tiny. rewrite <- Rinv_mult, <- mult_IZR. apply Rinv_le; [apply IZR_lt; reflexivity|]. apply IZR_le. intros H. discriminate H. Qed.
Lemma tiny_u M : / IZR (2 ^ 400) <= M -> tiny <= / 100 * (u * M).
Proof.
  intros H. pose proof tiny_tiny as T. assert (A : / IZR (2 ^ 460) <= / 100 * u) by (rewrite u_value; apply Rle_trans with (/ 1000000000000000000000000); [apply Rinv_le; [lra|apply IZR_le; intros Q; discriminate Q]|lra]).
  assert (B : / IZR (2 ^ 460) <= M) by (apply Rle_trans with (2 := H); apply Rinv_le; [apply IZR_lt; reflexivity|apply IZR_le; intros Q; discriminate Q]).
  assert (Z : 0 < / IZR (2 ^ 460)) by (apply Rinv_0_lt_compat, IZR_lt; reflexivity).
  eapply Rle_trans; [exact T|]. rewrite <- Rmult_assoc. apply Rmult_le_compat; lra.
Qed.
Lemma inv_u M : 0 < M <= IZR (2 ^ 400) -> tiny <= / 100 * (u * / M).
Proof. intros [A B]. apply tiny_u. now apply Rinv_le. Qed.
Lemma mul_err k t x' x y : 0 <= k <= 10 -> 0 <= t -> Rabs (x' - x) <= k * (u * Rabs x) + t ->
  Rabs (RN (x' * y) - x * y) <= (k + 11 / 10) * (u * Rabs (x * y)) + 2 * (t * Rabs y) + tiny.
Proof.
  intros Hk Ht H. pose proof u_pos as U0. pose proof tiny_pos as T0. assert (U1 : u <= / 1000000000000000) by (rewrite u_value; lra).
  pose proof (RN_error (x' * y)) as E. assert (D : Rabs (x' * y - x * y) <= k * (u * Rabs (x * y)) + t * Rabs y).
  { rewrite <- Rmult_minus_distr_r, !Rabs_mult. pose proof (Rabs_pos y). apply Rle_trans with ((k * (u * Rabs x) + t) * Rabs y); [apply Rmult_le_compat_r; auto|lra]. }
  pose proof (Rabs_pos (x * y)) as P. assert (Q : 0 <= u * Rabs (x * y)) by (apply Rmult_le_pos; lra).
  assert (Ty : 0 <= t * Rabs y) by (apply Rmult_le_pos; auto using Rabs_pos).
  assert (B : Rabs (x' * y) <= Rabs (x * y) + k * (u * Rabs (x * y)) + t * Rabs y).
  { replace (x' * y) with (x * y + (x' * y - x * y)) at 1 by ring. apply Rle_trans with (1 := Rabs_triang _ _). lra. }
  assert (B' : u * Rabs (x' * y) <= u * (Rabs (x * y) + k * (u * Rabs (x * y)) + t * Rabs y)) by (apply Rmult_le_compat_l; lra).
  assert (K : u * (k * (u * Rabs (x * y))) <= / 1000 * (u * Rabs (x * y))).
  { rewrite <- Rmult_assoc. apply Rmult_le_compat_r; [exact Q|]. apply Rle_trans with (u * 10); [apply Rmult_le_compat_l; lra|lra]. }
  assert (K2 : u * (t * Rabs y) <= 1 * (t * Rabs y)) by (apply Rmult_le_compat_r; lra).
  replace (RN (x' * y) - x * y) with ((RN (x' * y) - x' * y) + (x' * y - x * y)) by ring. apply Rle_trans with (1 := Rabs_triang _ _). lra.
Qed.
Lemma angle_error v f x : 0 < v -> Rabs f <= 1000000000 -> Rabs x <= 1000000000 ->
  Rabs (angle v f x - phase v f x) <= (6 * Rabs (phase v f x) + 1) * u.
Proof.
  intros Hv Hf Hx. pose proof u_pos as U0. pose proof tiny_pos as T0. assert (U1 : u <= / 1000000000000000) by (rewrite u_value; lra).
  pose proof PI_RGT_0 as P0. pose proof PI_4 as P4. set (w := 2 * PI / v).
  assert (P1 : Rabs (RN (2 * PI) - 2 * PI) <= 2 * (u * Rabs (2 * PI)) + 0).
  { pose proof (RN_error (2 * PI)) as E. pose proof PI2_1 as P2. rewrite (Rabs_right (2 * PI)) in * by lra.
    assert (tiny <= u) by (pose proof tiny_small; rewrite u_value; lra). assert (u * 1 <= u * (2 * PI)) by (apply Rmult_le_compat_l; lra). lra. }
  pose proof (mul_err 2 0 (RN (2 * PI)) (2 * PI) (/ v) ltac:(lra) ltac:(lra) P1) as E1. fold (RN (2 * PI) / v) (2 * PI / v) in E1. fold w in E1.
  assert (E1' : Rabs (RN (RN (2 * PI) / v) - w) <= 31 / 10 * (u * Rabs w) + tiny) by lra.
  pose proof (mul_err (31 / 10) tiny _ w x ltac:(lra) ltac:(lra) E1') as E2.
  assert (E2' : Rabs (RN (RN (RN (2 * PI) / v) * x) - w * x) <= 42 / 10 * (u * Rabs (w * x)) + (2 * (tiny * Rabs x) + tiny)) by lra.
  assert (Tx : 0 <= tiny * Rabs x <= tiny * 1000000000) by (split; [apply Rmult_le_pos; auto using Rabs_pos; lra|apply Rmult_le_compat_l; lra]).
  pose proof (mul_err (42 / 10) (2 * (tiny * Rabs x) + tiny) (RN (RN (RN (2 * PI) / v) * x)) (w * x) f ltac:(lra) ltac:(lra) E2') as E3. fold (angle v f x) in E3.
  replace (w * x * f) with (phase v f x) in E3 by (unfold w, phase; field; lra).
  assert (Q : (2 * (tiny * Rabs x) + tiny) * Rabs f <= (2 * (tiny * 1000000000) + tiny) * 1000000000) by (apply Rmult_le_compat; auto using Rabs_pos; lra).
  assert (Ts : 10000000000000000000 * tiny <= / 10 * u).
  { assert (I1 : / IZR (2 ^ 400) <= / 10000000000000000000) by (apply Rinv_le; [lra|apply IZR_le; intros K; discriminate K]).
    pose proof (tiny_u (/ IZR (2 ^ 400)) (Rle_refl _)) as K. assert (u * / IZR (2 ^ 400) <= u * / 10000000000000000000) by (apply Rmult_le_compat_l; lra). lra. }
  assert (0 <= u * Rabs (phase v f x)) by (apply Rmult_le_pos; auto using Rabs_pos; lra). lra.
Qed.
Lemma cos_lip x y : Rabs (cos x - cos y) <= Rabs (x - y).
Proof.
  assert (H : forall a b, a < b -> Rabs (cos a - cos b) <= Rabs (a - b)).
  { intros a b L. destruct (MVT_cor2 cos (fun t => - sin t) a b L (fun c _ => derivable_pt_lim_cos c)) as (c & E & _).
    rewrite (Rabs_minus_sym (cos a)), (Rabs_minus_sym a), E, Rabs_mult, Rabs_Ropp. rewrite <- (Rmult_1_l (Rabs (b - a))) at 2. apply Rmult_le_compat_r; [apply Rabs_pos|].
    apply Rabs_le. apply SIN_bound. }
  destruct (Rtotal_order x y) as [L|[-> |L]]; [now apply H|rewrite !Rminus_eq_0; lra|]. rewrite (Rabs_minus_sym (cos x)), (Rabs_minus_sym x). now apply H.
Qed.
Lemma sin_lip x y : Rabs (sin x - sin y) <= Rabs (x - y).
Proof. rewrite !sin_cos. replace (- cos (PI / 2 + x) - - cos (PI / 2 + y)) with (- (cos (PI / 2 + x) - cos (PI / 2 + y))) by ring. rewrite Rabs_Ropp. eapply Rle_trans; [apply cos_lip|]. right. f_equal. ring. Qed.
Lemma norm_part a b : Rabs a <= norm a b /\ Rabs b <= norm a b.
Proof.
  unfold norm. pose proof (Rle_0_sqr a). pose proof (Rle_0_sqr b). rewrite <- (sqrt_Rsqr_abs a), <- (sqrt_Rsqr_abs b). unfold Rsqr in *. split; apply sqrt_le_1_alt; lra.
Qed.
Lemma norm_cauchy c s a b : c * c + s * s = 1 -> Rabs (c * a - s * b) <= norm a b.
Proof.
  intros H. rewrite <- sqrt_Rsqr_abs. unfold norm. apply sqrt_le_1_alt. unfold Rsqr. pose proof (Rle_0_sqr (c * b + s * a)) as P. unfold Rsqr in P.
  replace (a * a + b * b) with ((c * c + s * s) * (a * a + b * b)) by (rewrite H; ring). lra.
Qed.
(** One part of the product and of the quotient. *)
Lemma inner_error dl c s c' s' a b m : 0 <= dl <= / 10000 -> c * c + s * s = 1 -> Rabs (c' - c) <= dl -> Rabs (s' - s) <= dl ->
  / IZR (2 ^ 400) <= norm a b <= IZR (2 ^ 400) -> Rabs (m - norm a b) <= 2 * u * norm a b + tiny ->
  Rabs (RN (RN (RN (c' * a) - RN (s' * b)) * RN (1 / m)) - (c * a - s * b) / norm a b) <= 203 / 100 * dl + 76 / 10 * u.
Proof.
  intros Hd H1 Hc Hs HM Hm. pose proof u_pos as U0. pose proof tiny_pos as T0. assert (U1 : u <= / 1000000000000000) by (rewrite u_value; lra).
  pose proof (part_small c s H1) as [C1 S1]. pose proof (norm_part a b) as [A1 B1]. pose proof (norm_cauchy c s a b H1) as N1.
  set (M := norm a b) in *. assert (M0 : 0 < M) by (apply Rlt_le_trans with (2 := proj1 HM); apply Rinv_0_lt_compat, IZR_lt; reflexivity).
  pose proof (tiny_u M (proj1 HM)) as Tm. pose proof (inv_u M (conj M0 (proj2 HM))) as Ti.
  assert (uM : 0 < u * M) by (apply Rmult_lt_0_compat; lra). assert (dM : 0 <= dl * M <= / 10000 * M) by (split; [apply Rmult_le_pos|apply Rmult_le_compat_r]; lra).
  assert (uM1 : u * M <= / 1000000000000000 * M) by (apply Rmult_le_compat_r; lra).
  assert (G : forall z z' y, Rabs z <= 1 -> Rabs (z' - z) <= dl -> Rabs y <= M -> Rabs (RN (z' * y) - z * y) <= dl * M + 103 / 100 * (u * M)).
  { intros z z' y Hz Hz' Hy. pose proof (RN_error (z' * y)) as E.
    assert (D : Rabs (z' * y - z * y) <= dl * M) by (rewrite <- Rmult_minus_distr_r, Rabs_mult; apply Rmult_le_compat; auto using Rabs_pos).
    assert (B : Rabs (z' * y) <= M + dl * M).
    { replace (z' * y) with (z * y + (z' * y - z * y)) by ring. apply Rle_trans with (1 := Rabs_triang _ _). rewrite Rabs_mult.
      assert (Rabs z * Rabs y <= 1 * M) by (apply Rmult_le_compat; auto using Rabs_pos). lra. }
    assert (B' : u * Rabs (z' * y) <= u * (101 / 100 * M)) by (apply Rmult_le_compat_l; lra).
    replace (RN (z' * y) - z * y) with ((RN (z' * y) - z' * y) + (z' * y - z * y)) by ring. apply Rle_trans with (1 := Rabs_triang _ _). lra. }
  pose proof (G c c' a C1 Hc A1) as Ga. pose proof (G s s' b S1 Hs B1) as Gb. set (pa := RN (c' * a)) in *. set (pb := RN (s' * b)) in *. set (P := c * a - s * b) in *.
  assert (D : Rabs (pa - pb - P) <= 2 * (dl * M) + 206 / 100 * (u * M)).
  { unfold P. replace (pa - pb - (c * a - s * b)) with ((pa - c * a) - (pb - s * b)) by ring. apply Rle_trans with (1 := Rabs_triang _ _). rewrite Rabs_Ropp. lra. }
  pose proof (RN_error (pa - pb)) as Ep. set (P' := RN (pa - pb)) in *.
  assert (Bp : Rabs (pa - pb) <= 101 / 100 * M).
  { replace (pa - pb) with (P + (pa - pb - P)) by ring. apply Rle_trans with (1 := Rabs_triang _ _). lra. }
  assert (Bp' : u * Rabs (pa - pb) <= u * (101 / 100 * M)) by (apply Rmult_le_compat_l; lra).
  assert (EP : Rabs (P' - P) <= 2 * (dl * M) + 32 / 10 * (u * M)).
  { replace (P' - P) with ((P' - (pa - pb)) + (pa - pb - P)) by ring. apply Rle_trans with (1 := Rabs_triang _ _). lra. }
  (* the reciprocal *)
  set (i := / M) in *. assert (Mi : M * i = 1) by (apply Rinv_r; lra). assert (I0 : 0 < i) by now apply Rinv_0_lt_compat.
  assert (ui : 0 < u * i) by (apply Rmult_lt_0_compat; lra). assert (ui1 : u * i <= / 1000000000000000 * i) by (apply Rmult_le_compat_r; lra).
  assert (m0 : 999 / 1000 * M <= m) by (apply Rabs_le_inv in Hm; lra).
  assert (mi : 0 < / m <= 1002 / 1000 * i).
  { split; [apply Rinv_0_lt_compat; lra|]. apply Rle_trans with (/ (999 / 1000 * M)); [apply Rinv_le; lra|]. rewrite Rinv_mult. fold i. apply Rmult_le_compat_r; lra. }
  assert (Dm : Rabs (1 / m - i) <= 202 / 100 * (u * i)).
  { replace (1 / m - i) with ((M - m) * (/ m * i)) by (unfold i; field; lra). rewrite Rabs_mult, (Rabs_minus_sym M m), (Rabs_right (/ m * i)) by (apply Rle_ge, Rmult_le_pos; lra).
    apply Rle_trans with ((201 / 100 * (u * M)) * ((1002 / 1000 * i) * i)).
    - apply Rmult_le_compat; [apply Rabs_pos|apply Rmult_le_pos; lra|lra|apply Rmult_le_compat_r; lra].
    - replace (201 / 100 * (u * M) * (1002 / 1000 * i * i)) with (201 / 100 * (1002 / 1000) * (u * i) * (M * i)) by ring. rewrite Mi. lra. }
  pose proof (RN_error (1 / m)) as Er. set (r := RN (1 / m)) in *.
  assert (Br : u * Rabs (1 / m) <= u * (1002 / 1000 * i)).
  { apply Rmult_le_compat_l; [lra|]. unfold Rdiv. rewrite Rmult_1_l, Rabs_right; lra. }
  assert (ER : Rabs (r - i) <= 31 / 10 * (u * i)).
  { replace (r - i) with ((r - 1 / m) + (1 / m - i)) by ring. apply Rle_trans with (1 := Rabs_triang _ _). lra. }
  assert (R1 : Rabs r <= 1001 / 1000 * i).
  { replace r with (i + (r - i)) by ring. apply Rle_trans with (1 := Rabs_triang _ _). rewrite (Rabs_right i) by lra. lra. }
  change (P / M) with (P * i).
  assert (X : Rabs (P' * r - P * i) <= 201 / 100 * dl + 64 / 10 * u).
  { replace (P' * r - P * i) with ((P' - P) * r + P * (r - i)) by ring. apply Rle_trans with (1 := Rabs_triang _ _). rewrite !Rabs_mult.
    assert (X1 : Rabs (P' - P) * Rabs r <= (2 * (dl * M) + 32 / 10 * (u * M)) * (1001 / 1000 * i)) by (apply Rmult_le_compat; auto using Rabs_pos).
    assert (X2 : Rabs P * Rabs (r - i) <= M * (31 / 10 * (u * i))) by (apply Rmult_le_compat; auto using Rabs_pos).
    replace ((2 * (dl * M) + 32 / 10 * (u * M)) * (1001 / 1000 * i)) with ((2 * dl + 32 / 10 * u) * (1001 / 1000) * (M * i)) in X1 by ring.
    replace (M * (31 / 10 * (u * i))) with (31 / 10 * u * (M * i)) in X2 by ring. rewrite Mi in X1, X2. lra. }
  assert (Y : Rabs (P' * r) <= 1001 / 1000).
  { replace (P' * r) with (P * i + (P' * r - P * i)) by ring. apply Rle_trans with (1 := Rabs_triang _ _). rewrite (Rabs_mult P), (Rabs_right i) by lra.
    assert (Rabs P * i <= M * i) by (apply Rmult_le_compat_r; lra). lra. }
  pose proof (RN_error (P' * r)) as Ez. assert (Y' : u * Rabs (P' * r) <= u * (1001 / 1000)) by (apply Rmult_le_compat_l; lra).
  assert (tiny <= / 100 * u) by (pose proof tiny_small; rewrite u_value; lra).
  replace (RN (P' * r) - P * i) with ((RN (P' * r) - P' * r) + (P' * r - P * i)) by ring. apply Rle_trans with (1 := Rabs_triang _ _). lra.
Qed.
Lemma inner_errors cos_ sin_ hypot_ T v f x F : good_cos cos_ -> good_sin sin_ -> good_hypot hypot_ -> 0 <= T <= 1000000000 ->
  double (fst F) -> double (snd F) -> / IZR (2 ^ 400) <= norm (fst F) (snd F) <= IZR (2 ^ 400) ->
  0 < v -> Rabs f <= 1000000000 -> Rabs x <= 1000000000 -> Rabs (phase v f x) <= T ->
  Rabs (inner_re cos_ sin_ hypot_ (angle v f x) F - unit_re (phase v f x) F) <= phase_error T /\
  Rabs (inner_im cos_ sin_ hypot_ (angle v f x) F - unit_im (phase v f x) F) <= phase_error T.
Proof.
  intros Gc Gs Gh HT Da Db HM Hv Hf Hx Ht. pose proof u_pos as U0. assert (U1 : u <= / 1000000000000000) by (rewrite u_value; lra).
  pose proof (angle_error v f x Hv Hf Hx) as Ea. set (t := phase v f x) in *. set (t' := angle v f x) in *. destruct F as [a b]. cbn [fst snd] in *.
  assert (Dt : double t') by apply RN_double. pose proof (Gc t' Dt) as Ec. pose proof (Gs t' Dt) as Es. pose proof (cos_lip t' t) as Lc. pose proof (sin_lip t' t) as Ls.
  set (dl := (6 * T + 3) * u). assert (Tu : 0 <= T * u <= 1000000000 * u) by (split; [apply Rmult_le_pos|apply Rmult_le_compat_r]; lra).
  assert (Rabs t * u <= T * u) by (apply Rmult_le_compat_r; lra).
  assert (Hd : 0 <= dl <= / 10000) by (unfold dl; lra).
  assert (Hc : Rabs (cos_ t' - cos t) <= dl).
  { replace (cos_ t' - cos t) with ((cos_ t' - cos t') + (cos t' - cos t)) by ring. apply Rle_trans with (1 := Rabs_triang _ _). unfold dl. lra. }
  assert (Hs : Rabs (sin_ t' - sin t) <= dl).
  { replace (sin_ t' - sin t) with ((sin_ t' - sin t') + (sin t' - sin t)) by ring. apply Rle_trans with (1 := Rabs_triang _ _). unfold dl. lra. }
  assert (H1 : cos t * cos t + sin t * sin t = 1) by (pose proof (sin2_cos2 t) as Q; unfold Rsqr in Q; lra).
  pose proof (Gh a b Da Db) as Hm. unfold inner_re, inner_im, unit_re, unit_im, phase_error. cbn [fst snd]. split.
  - eapply Rle_trans; [apply (inner_error dl (cos t) (sin t)); auto|]. unfold dl. lra.
  - assert (Nn : norm b (- a) = norm a b) by (unfold norm; f_equal; ring). rewrite <- Nn in HM.
    pose proof (inner_error dl (cos t) (sin t) (cos_ t') (sin_ t') b (- a) (hypot_ a b) Hd H1 Hc Hs HM ltac:(now rewrite Nn)) as I. rewrite Nn in I.
    rewrite !Ropp_mult_distr_r_reverse, RN_opp in I. unfold Rminus in I at 2 3. rewrite !Ropp_involutive in I. eapply Rle_trans; [exact I|]. unfold dl. lra.
Qed.
Lemma unit_phases xs v f : forall Fs, Forall (fun F => 0 < norm (fst F) (snd F)) Fs ->
  phases (map (fun q => unit_re (phase v f (fst q)) (snd q)) (combine xs Fs)) (map (fun q => unit_im (phase v f (fst q)) (snd q)) (combine xs Fs)).
Proof.
  unfold phases. induction xs as [|x xs IH]; intros [|[a b] Fs] H; cbn [combine map]; try constructor; [|apply IH; now inversion H].
  apply Forall_inv in H. cbn [fst snd] in *. unfold unit_re, unit_im. cbn [fst snd]. set (t := phase v f x). set (M := norm a b) in *.
  assert (Q : M * M = a * a + b * b). { unfold M, norm. pose proof (Rle_0_sqr a). pose proof (Rle_0_sqr b). unfold Rsqr in *. apply sqrt_sqrt. lra. }
  pose proof (sin2_cos2 t) as S. unfold Rsqr in S. apply Rmult_eq_reg_r with (M * M); [|apply Rgt_not_eq, Rmult_lt_0_compat; auto]. rewrite Rmult_1_l. 
  transitivity ((sin t * sin t + cos t * cos t) * (a * a + b * b)); [field; lra|]. rewrite S, Q. ring.
Qed.
Lemma phase_power_error cos_ sin_ hypot_ T xs Fs f v p : good_cos cos_ -> good_sin sin_ -> good_hypot hypot_ -> usual xs Fs f v ->
  0 <= T <= 1000000000 -> Forall (fun x => Rabs (phase v f x) <= T) xs -> power_of cos_ sin_ hypot_ xs Fs f v p ->
  Rabs (p - phase_power xs Fs f v) <= allowed (phase_error T) xs.
Proof.
  intros Gc Gs Gh (Hx & Hn & Lf & HF & Hf & Hv) HT Ht H. pose proof u_pos as U0. assert (U1 : u <= / 1000000000000000) by (rewrite u_value; lra).
  assert (Tu : 0 <= T * u <= 1000000000 * u) by (split; [apply Rmult_le_pos|apply Rmult_le_compat_r]; lra).
  assert (A : forall q, In q (combine xs Fs) -> Rabs (inner_re cos_ sin_ hypot_ (angle v f (fst q)) (snd q) - unit_re (phase v f (fst q)) (snd q)) <= phase_error T /\
    Rabs (inner_im cos_ sin_ hypot_ (angle v f (fst q)) (snd q) - unit_im (phase v f (fst q)) (snd q)) <= phase_error T).
  { intros [x F] I. pose proof (in_combine_l _ _ _ _ I) as Ix. pose proof (in_combine_r _ _ _ _ I) as IF. cbn [fst snd].
    rewrite Forall_forall in Hx, HF, Ht. destruct (Hx x Ix) as [_ Bx]. destruct (HF F IF) as (Da & Db & HM). apply inner_errors; auto. }
  assert (Cm : forall (g g' : R * (R * R) -> R) e l, (forall q, double (g' q)) -> (forall q, In q l -> Rabs (g' q - g q) <= e) -> computed e (map g l) (map g' l)).
  { intros g g' e l Dg. unfold computed. induction l as [|q l IH]; intros Hl; cbn [map]; constructor; [split; [apply Dg|apply Hl; now left]|apply IH; intros; apply Hl; now right]. }
  unfold phase_power. eapply power_error; [exact Gh| | |exact Hn| | | | |exact H].
  - unfold phase_error. lra.
  - eapply Forall_impl; [|exact Hx]. cbn. tauto.
  - rewrite map_length, combine_length, Lf. lia.
  - apply unit_phases. eapply Forall_impl; [|exact HF]. cbn. intros F (_ & _ & B & _). apply Rlt_le_trans with (2 := B). apply Rinv_0_lt_compat, IZR_lt. reflexivity.
  - apply Cm; [intros; apply RN_double|]. intros q Iq. now apply A.
  - apply Cm; [intros; apply RN_double|]. intros q Iq. now apply A.
Qed.

Lemma peak_found E (ps qs : list R) i : (forall k, (k < length ps)%nat -> Rabs (nth k ps 0 - nth k qs 0) <= E) -> (i < length ps)%nat ->
  (forall k, (k < length ps)%nat -> k <> i -> nth k qs 0 + 2 * E < nth i qs 0) -> argmax ps = i.
Proof.
  intros H Hi B. assert (Hp : ps <> []) by (intros ->; cbn in Hi; lia). destruct (argmax_nth ps Hp) as [A M]. set (k := argmax ps) in *.
  destruct (Nat.eq_dec k i) as [Q|Q]; [exact Q|exfalso]. pose proof (H k A) as Ek. pose proof (H i Hi) as Ei. pose proof (B k A Q) as Bk. pose proof (M i Hi) as Mi.
  apply Rabs_le_inv in Ek. apply Rabs_le_inv in Ei. lra.
Qed.
Lemma some_tree (l : list R) : l <> [] -> exists t, leaves t = l.
Proof.
  induction l as [|x [|y l] IH]; [easy|intros _; exists (Leaf x); reflexivity|]. intros _. destruct IH as [t Ht]; [easy|]. exists (Node (Leaf x) t). cbn [leaves app]. now rewrite Ht.
Qed.
