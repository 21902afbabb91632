(* Proofs about the resampling of dispersion curves in double precision. *)
From Coq Require Import Lra Lia.
From Verif Require Import FloatModel FloatSpec FloatProofs FloatStatProofs FloatNormProofs FloatInterpModel FloatInterpSpec.
Local Instance valid_fexp : Valid_exp fexp. Proof. apply FLT_exp_valid. reflexivity. Qed.

(** A number halfway between two doubles goes to the even one. *)
Lemma RN_tie n e : (-1074 <= e)%Z -> (2 ^ 52 <= n < 2 ^ 53)%Z -> RN ((IZR n + / 2) * bpow radix2 e) = IZR (if Z.even n then n else n + 1) * bpow radix2 e.
Proof.
  intros He [H1 H2]. assert (B := bpow_gt_0 radix2 e). assert (N1 : IZR (2 ^ 52) <= IZR n) by (apply IZR_le; exact H1).
  assert (N2 : IZR n + 1 <= IZR (2 ^ 53)) by (rewrite <- plus_IZR; apply IZR_le; lia).
  assert (M : mag radix2 ((IZR n + / 2) * bpow radix2 e) = (53 + e)%Z :> Z).
  { apply mag_unique. assert (0 <= IZR n) by (apply IZR_le; lia). rewrite Rabs_pos_eq by (apply Rmult_le_pos; lra). split.
    - replace (53 + e - 1)%Z with (52 + e)%Z by lia. rewrite bpow_plus. apply Rmult_le_compat_r; [lra|]. change (bpow radix2 52) with (IZR (2 ^ 52)). lra.
    - rewrite bpow_plus. apply Rmult_lt_compat_r; [lra|]. change (bpow radix2 53) with (IZR (2 ^ 53)). lra. }
  unfold RN, round, scaled_mantissa. replace (cexp radix2 fexp ((IZR n + / 2) * bpow radix2 e)) with e. 2:{ unfold cexp, fexp, FLT_exp. rewrite M. lia. }
  unfold F2R. cbn [Fnum Fexp]. f_equal. f_equal. rewrite Rmult_assoc, <- bpow_plus. replace (e + - e)%Z with 0%Z by lia. change (bpow radix2 0) with 1. rewrite Rmult_1_r.
  assert (F : Zfloor (IZR n + / 2) = n) by (apply Zfloor_imp; rewrite plus_IZR; lra).
  assert (C : Zceil (IZR n + / 2) = (n + 1)%Z) by (apply Zceil_imp; rewrite minus_IZR, plus_IZR; lra).
  unfold Znearest. rewrite F, C, Rcompare_Eq by lra. now destruct (Z.even n).
Qed.

(** One interval. *)
Lemma segment_error a b v : double (fst a) -> double (snd a) -> double (fst b) -> double (snd b) -> double v -> fst a < v < fst b ->
  Rabs (RN (RN (RN (RN (snd b - snd a) / RN (fst b - fst a)) * RN (v - fst a)) + snd a) - line a b v) <= allowed a b.
Proof.
  destruct a as [xa ya], b as [xb yb]. cbn [fst snd]. intros Dxa Dya Dxb Dyb Dv Hv. unfold line, allowed. cbn [fst snd].
  pose proof u_pos as U0. pose proof tiny_pos as T0. assert (U1 : u <= / 1000000000000000) by (rewrite u_value; lra).
  pose proof (sub_error yb ya Dyb Dya) as Eh. pose proof (sub_error xb xa Dxb Dxa) as Ew. pose proof (sub_error v xa Dv Dxa) as Ed.
  set (h := yb - ya) in *. set (w := xb - xa) in *. set (d := v - xa) in *. assert (Hd : 0 < d < w) by (unfold d, w; lra).
  set (h' := RN h) in *. set (w' := RN w) in *. set (d' := RN d) in *. rewrite (Rabs_right w) in Ew by lra. rewrite (Rabs_right d) in Ed by lra.
  assert (uw : 0 <= u * w <= / 1000000000000000 * w) by (split; [apply Rmult_le_pos|apply Rmult_le_compat_r]; lra).
  assert (ud : 0 <= u * d <= / 1000000000000000 * d) by (split; [apply Rmult_le_pos|apply Rmult_le_compat_r]; lra).
  pose proof (Rabs_pos h) as Hp. assert (uh : 0 <= u * Rabs h <= / 1000000000000000 * Rabs h) by (split; [apply Rmult_le_pos|apply Rmult_le_compat_r]; lra).
  assert (Hw' : 999 / 1000 * w <= w') by (apply Rabs_le_inv in Ew; lra). assert (Hd' : 0 <= d' <= 1001 / 1000 * d) by (apply Rabs_le_inv in Ed; lra).
  set (i := / w). assert (I0 : 0 < i) by (apply Rinv_0_lt_compat; lra). assert (Wi : w * i = 1) by (apply Rinv_r; lra).
  assert (i' : 0 < / w' <= 1002 / 1000 * i).
  { split; [apply Rinv_0_lt_compat; lra|]. apply Rle_trans with (/ (999 / 1000 * w)); [apply Rinv_le; lra|]. rewrite Rinv_mult. fold i. apply Rmult_le_compat_r; lra. }
  (* the slope, relative to |h| / w *)
  assert (Q1 : Rabs (h' / w' - h * i) <= 202 / 100 * (u * Rabs h) * i).
  { replace (h' / w' - h * i) with ((h' - h) * / w' + h * ((w - w') * (/ w' * i))) by (unfold i; field; lra).
    apply Rle_trans with (1 := Rabs_triang _ _). rewrite !Rabs_mult, (Rabs_right (/ w')), (Rabs_right i), (Rabs_minus_sym w w') by lra.
    assert (A : Rabs (h' - h) * / w' <= u * Rabs h * (1002 / 1000 * i)) by (apply Rmult_le_compat; auto using Rabs_pos; lra).
    assert (B : Rabs h * (Rabs (w' - w) * (/ w' * i)) <= Rabs h * (u * w * (1002 / 1000 * i * i))).
    { apply Rmult_le_compat_l; [exact Hp|]. apply Rmult_le_compat; [apply Rabs_pos|apply Rmult_le_pos; lra|exact Ew|apply Rmult_le_compat_r; lra]. }
    replace (Rabs h * (u * w * (1002 / 1000 * i * i))) with (1002 / 1000 * (u * Rabs h * i) * (w * i)) in B by ring. rewrite Wi in B.
    assert (0 <= u * Rabs h * i) by (apply Rmult_le_pos; lra). lra. }
  set (g := Rabs h * i). assert (g0 : 0 <= g) by (apply Rmult_le_pos; lra). assert (Ah : Rabs (h * i) = g) by (unfold g; rewrite Rabs_mult, (Rabs_right i); lra).
  assert (ug : 0 <= u * g <= / 1000000000000000 * g) by (split; [apply Rmult_le_pos|apply Rmult_le_compat_r]; lra).
  assert (Q1' : Rabs (h' / w' - h * i) <= 202 / 100 * (u * g)) by (unfold g; lra). clear Q1.
  pose proof (RN_error (h' / w')) as Es. set (s' := RN (h' / w')) in *.
  assert (Bq : Rabs (h' / w') <= 1001 / 1000 * g).
  { replace (h' / w') with (h * i + (h' / w' - h * i)) by ring. apply Rle_trans with (1 := Rabs_triang _ _). lra. }
  assert (Bq' : u * Rabs (h' / w') <= u * (1001 / 1000 * g)) by (apply Rmult_le_compat_l; lra).
  assert (Es' : Rabs (s' - h * i) <= 303 / 100 * (u * g) + tiny / 32).
  { replace (s' - h * i) with ((s' - h' / w') + (h' / w' - h * i)) by ring. apply Rle_trans with (1 := Rabs_triang _ _). lra. }
  (* the product, relative to |h| *)
  assert (gd : 0 <= g * d <= Rabs h).
  { split; [apply Rmult_le_pos; lra|]. unfold g. replace (Rabs h) with (Rabs h * (w * i)) at 2 by (rewrite Wi; ring). replace (Rabs h * (w * i)) with (Rabs h * i * w) by ring. apply Rmult_le_compat_l; [exact g0|lra]. }
  assert (ugd : 0 <= u * (g * d) <= u * Rabs h) by (split; [apply Rmult_le_pos|apply Rmult_le_compat_l]; lra).
  assert (td : 0 <= tiny * d) by (apply Rmult_le_pos; lra).
  assert (P1 : Rabs (s' * d' - h * i * d) <= 41 / 10 * (u * (g * d)) + tiny / 31 * d).
  { replace (s' * d' - h * i * d) with ((s' - h * i) * d' + h * i * (d' - d)) by ring. apply Rle_trans with (1 := Rabs_triang _ _).
    rewrite (Rabs_mult (s' - h * i)), (Rabs_mult (h * i)), Ah, (Rabs_right d') by lra.
    assert (A : Rabs (s' - h * i) * d' <= (303 / 100 * (u * g) + tiny / 32) * (1001 / 1000 * d)) by (apply Rmult_le_compat; auto using Rabs_pos; lra).
    assert (B : g * Rabs (d' - d) <= g * (u * d)) by (apply Rmult_le_compat_l; lra). lra. }
  pose proof (RN_error (s' * d')) as Ep. set (p' := RN (s' * d')) in *.
  assert (Hq : Rabs (h * i * d) = g * d) by (rewrite Rabs_mult, Ah, (Rabs_right d); lra).
  assert (Bp : Rabs (s' * d') <= 1001 / 1000 * (g * d) + tiny / 31 * d).
  { replace (s' * d') with (h * i * d + (s' * d' - h * i * d)) by ring. apply Rle_trans with (1 := Rabs_triang _ _). rewrite Hq.
    assert (u * (g * d) <= / 1000000000000000 * (g * d)) by (apply Rmult_le_compat_r; lra). lra. }
  assert (Bp' : u * Rabs (s' * d') <= u * (1001 / 1000 * (g * d) + tiny / 31 * d)) by (apply Rmult_le_compat_l; lra).
  assert (utd : u * (tiny * d) <= / 1000 * (tiny * d)) by (apply Rmult_le_compat_r; lra).
  assert (Ep' : Rabs (p' - h * i * d) <= 52 / 10 * (u * Rabs h) + tiny / 30 * d + tiny / 32).
  { replace (p' - h * i * d) with ((p' - s' * d') + (s' * d' - h * i * d)) by ring. apply Rle_trans with (1 := Rabs_triang _ _). lra. }
  (* the sum *)
  change (h * (d / w)) with (h * (d * i)). set (M := Rmax (Rabs ya) (Rabs yb)).
  assert (dw : tiny * d <= tiny * w) by (apply Rmult_le_compat_l; lra).
  assert (BM : Rabs (ya + h * i * d) <= M).
  { pose proof (Rmax_l (Rabs ya) (Rabs yb)) as Ma. pose proof (Rmax_r (Rabs ya) (Rabs yb)) as Mb. fold M in Ma, Mb.
    set (k := d * i). assert (Hk : 0 <= k <= 1) by (unfold k; split; [apply Rmult_le_pos; lra|rewrite <- Wi; apply Rmult_le_compat_r; lra]).
    replace (ya + h * i * d) with ((1 - k) * ya + k * yb) by (unfold k, h; ring). apply Rle_trans with (1 := Rabs_triang _ _). rewrite !Rabs_mult, (Rabs_right k), (Rabs_right (1 - k)) by lra.
    assert ((1 - k) * Rabs ya <= (1 - k) * M) by (apply Rmult_le_compat_l; lra). assert (k * Rabs yb <= k * M) by (apply Rmult_le_compat_l; lra). lra. }
  pose proof (RN_error (p' + ya)) as Er.
  assert (Bs : Rabs (p' + ya) <= M + 52 / 10 * (u * Rabs h) + tiny / 30 * d + tiny / 32).
  { replace (p' + ya) with ((ya + h * i * d) + (p' - h * i * d)) by ring. apply Rle_trans with (1 := Rabs_triang _ _). lra. }
  assert (Bs' : u * Rabs (p' + ya) <= u * (M + 52 / 10 * (u * Rabs h) + tiny / 30 * d + tiny / 32)) by (apply Rmult_le_compat_l; lra).
  assert (uuh : u * (u * Rabs h) <= / 1000 * (u * Rabs h)) by (apply Rmult_le_compat_r; lra).
  assert (ut : u * tiny <= / 1000 * tiny) by (apply Rmult_le_compat_r; lra).
  assert (uM : 0 <= u * M) by (apply Rmult_le_pos; [lra|apply Rle_trans with (1 := Rabs_pos _) (2 := BM)]).
  replace (RN (p' + ya) - (ya + h * (d * i))) with ((RN (p' + ya) - (p' + ya)) + (p' - h * i * d)) by ring.
  apply Rle_trans with (1 := Rabs_triang _ _). lra.
Qed.
Lemma increasing_tail a l : increasing (a :: l) -> increasing l.
Proof. destruct l; cbn; tauto. Qed.
Lemma increasing_le l : forall a, increasing (a :: l) -> forall b, In b l -> fst a < fst b.
Proof.
  induction l as [|c l IH]; intros a H b I; [destruct I|]. destruct H as [H1 H2]. destruct I as [<-|I]; [exact H1|]. apply Rlt_trans with (1 := H1). now apply (IH c).
Qed.
Lemma increasing_app l1 : forall l2, increasing (l1 ++ l2) -> increasing l2.
Proof. induction l1 as [|a l1 IH]; intros l2 H; [exact H|]. cbn [app] in H. apply IH. now apply increasing_tail with a. Qed.
(** The search stops at the last point not after [v]. *)
Lemma interp_skip l1 : forall a x l v, increasing (a :: l1 ++ x :: l) -> fst x <= v -> interp_from a (l1 ++ x :: l) v = interp_from x l v.
Proof.
  induction l1 as [|b l1 IH]; intros a x l v H Hv; cbn [app interp_from].
  - destruct (Rle_dec (fst x) v); [reflexivity|contradiction].
  - assert (fst b < fst x). { apply (increasing_le (l1 ++ x :: l)); [now apply increasing_tail with a|]. apply in_or_app. right. now left. }
    destruct (Rle_dec (fst b) v) as [_|N]; [|exfalso; lra]. apply IH; [now apply increasing_tail with a|exact Hv].
Qed.
Lemma interp_start a l v : increasing (a :: l) -> v = fst a -> interp_from a l v = snd a.
Proof.
  intros H ->. destruct l as [|b l]; [reflexivity|]. cbn [interp_from]. destruct H as [H _]. destruct (Rle_dec (fst b) (fst a)) as [N|_]; [exfalso; lra|].
  now destruct (Req_EM_T (fst a) (fst a)).
Qed.
Lemma last_max l : forall a, increasing (a :: l) -> forall b, In b (a :: l) -> fst b <= fst (last l a).
Proof.
  induction l as [|c l IH]; intros a H b I; [destruct I as [<-|[]]; cbn; lra|].
  assert (E : last (c :: l) a = last l c). { clear. revert c. induction l as [|d l IH]; intros c; [reflexivity|]. cbn [last] in *. destruct l; [reflexivity|]. apply (IH c). }
  rewrite E. destruct I as [<-|I].
  - destruct H as [H1 H2]. pose proof (IH c H2 c ltac:(now left)). lra.
  - apply IH; [now apply increasing_tail with a|exact I].
Qed.
Lemma resample_in a t v x : increasing (a :: t) -> In x (a :: t) -> fst a <= v -> v <= fst x -> resample (a :: t) v = Some (interp_from a t v).
Proof.
  intros H I Ha Hx. cbn [resample]. destruct (Rlt_dec v (fst a)); [exfalso; lra|]. pose proof (last_max t a H x I).
  destruct (Rlt_dec (fst (last t a)) v); [exfalso; lra|reflexivity].
Qed.
Lemma at_node l x : increasing l -> In x l -> resample l (fst x) = Some (snd x).
Proof.
  intros H I. destruct l as [|a t]; [destruct I|]. assert (A : fst a <= fst x). { destruct I as [<-|I]; [lra|]. pose proof (increasing_le t a H x I). lra. }
  rewrite (resample_in a t (fst x) x H I A ltac:(lra)). f_equal. destruct I as [<-|I]; [now apply interp_start|].
  apply in_split in I. destruct I as (l1 & l2 & ->). rewrite interp_skip; [|exact H|lra]. apply interp_start; [|reflexivity]. apply (increasing_app (a :: l1)). exact H.
Qed.
Lemma inside l a b v : increasing l -> neighbours l a b -> fst a < v < fst b ->
  resample l v = Some (RN (RN (RN (RN (snd b - snd a) / RN (fst b - fst a)) * RN (v - fst a)) + snd a)).
Proof.
  intros H (l1 & l2 & E) Hv. destruct l as [|c t]; [destruct l1; discriminate|].
  assert (Ib : In b (c :: t)) by (rewrite E; apply in_or_app; right; right; now left).
  assert (Last : interp_from a (b :: l2) v = RN (RN (RN (RN (snd b - snd a) / RN (fst b - fst a)) * RN (v - fst a)) + snd a)).
  { cbn [interp_from]. destruct (Rle_dec (fst b) v); [exfalso; lra|]. destruct (Req_EM_T (fst a) v); [exfalso; lra|reflexivity]. }
  destruct l1 as [|c' l1]; cbn [app] in E; injection E as E1 E2; subst c t.
  - rewrite (resample_in a (b :: l2) v b H Ib) by lra. now rewrite Last.
  - assert (A : fst c' < fst a) by (apply (increasing_le _ c' H); apply in_or_app; right; now left).
    rewrite (resample_in c' _ v b H Ib) by lra. rewrite interp_skip; [now rewrite Last|exact H|lra].
Qed.
