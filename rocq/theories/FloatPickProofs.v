(* Proofs about the automatic picks in double precision. *)
From Coq Require Import Lra Lia String.
From Verif Require Import FloatModel FloatSpec FloatProofs FloatStatModel FloatStatSpec FloatStatProofs FloatNormProofs FloatTracesModel FloatTracesSpec FloatTracesProofs FloatPickModel FloatPickSpec.

Lemma first_above_some c m l : forall i j, first_above c m i l = Some j <->
  exists k, j = (i + k)%nat /\ (k < List.length l)%nat /\ c < Rabs (RN (nth k l 0 - m)) /\ forall h, (h < k)%nat -> ~ c < Rabs (RN (nth h l 0 - m)).
Proof.
  induction l as [|x l IH]; intros i j; cbn [first_above List.length].
  - split; [discriminate|]. intros (k & _ & L & _). lia.
  - destruct (Rlt_dec c (Rabs (RN (x - m)))) as [H|H].
    + split.
      * intros E. injection E as <-. exists 0%nat. cbn [nth]. repeat split; [lia|lia|exact H|]. intros h Hh. lia.
      * intros (k & -> & L & A & B). destruct k as [|k]; [f_equal; lia|]. exfalso. now apply (B 0%nat ltac:(lia)).
    + rewrite IH. split.
      * intros (k & -> & L & A & B). exists (S k). cbn [nth]. repeat split; [lia|lia|exact A|]. intros [|h] Hh; [exact H|]. cbn [nth]. apply B. lia.
      * intros (k & -> & L & A & B). destruct k as [|k]; [now cbn [nth] in A|]. exists k. cbn [nth] in A. repeat split; [lia|lia|exact A|].
        intros h Hh. apply (B (S h)). lia.
Qed.
Lemma first_above_none c m l : forall i, first_above c m i l = None -> forall h, (h < List.length l)%nat -> ~ c < Rabs (RN (nth h l 0 - m)).
Proof.
  induction l as [|x l IH]; intros i E h Hh; cbn in Hh; [lia|]. cbn [first_above] in E. destruct (Rlt_dec c (Rabs (RN (x - m)))) as [H|H]; [discriminate|].
  destruct h as [|h]; [exact H|]. cbn [nth]. apply (IH _ E). lia.
Qed.
Lemma total_near (e : R) (xs ys : list R) p : Forall2 (fun x y => Rabs (y - x / p) <= e) xs ys -> Rabs (Rsum ys - total xs / p) <= INR (List.length xs) * e.
Proof.
  induction 1 as [|x y xs ys H _ IH]; cbn [Rsum total List.length].
  - unfold Rdiv. rewrite Rmult_0_l, Rminus_0_r, Rabs_R0. cbn. lra.
  - rewrite S_INR. replace (y + Rsum ys - (x + total xs) / p) with ((y - x / p) + (Rsum ys - total xs / p)) by (unfold Rdiv; ring).
    apply Rle_trans with (1 := Rabs_triang _ _). lra.
Qed.
Lemma Forall2_firstn {A B} (P : A -> B -> Prop) n xs ys : Forall2 P xs ys -> Forall2 P (firstn n xs) (firstn n ys).
Proof. intros H. revert n. induction H as [|x y xs ys H _ IH]; intros [|n]; cbn; constructor; auto. Qed.
Lemma sum_small l : Forall (fun x => Rabs x <= 1) l -> Rsum (map Rabs l) <= INR (List.length l) /\ Rabs (Rsum l) <= INR (List.length l).
Proof.
  induction 1 as [|x l H _ [IH1 IH2]]; cbn [map Rsum List.length]; [rewrite Rabs_R0; cbn; lra|]. rewrite S_INR. split; [lra|].
  apply Rle_trans with (1 := Rabs_triang _ _). lra.
Qed.
(** The computed mean, for samples of size at most one known with an error of [e]. *)
Lemma start_mean_near xs ys p m : xs <> [] -> Forall2 (fun x y => double y /\ Rabs y <= 1 /\ Rabs (y - x / p) <= 11 / 10 * u) xs ys -> start_mean_of ys m ->
  Rabs (m - start_mean xs / p) <= 113 / 10 * u /\ Rabs m <= 101 / 100.
Proof.
  intros Hx H (t & Et & ->). pose proof u_pos as U0. pose proof tiny_pos as T0. assert (U1 : u <= / 1000000000000000) by (rewrite u_value; lra). assert (T1 : tiny <= / 100 * u) by (pose proof tiny_small; rewrite u_value; lra).
  apply (Forall2_firstn _ 10) in H. unfold start_mean. set (zs := firstn 10 xs) in *. set (ws := firstn 10 ys) in *.
  assert (L : List.length zs = List.length ws) by (clear -H; induction H; cbn; congruence).
  assert (Lz : (1 <= List.length zs <= 10)%nat) by (unfold zs; rewrite firstn_length; destruct xs; [easy|cbn [List.length]; lia]).
  assert (Dw : Forall double ws) by (clear -H; induction H as [|x y l l' [A _] _ IH]; constructor; auto).
  assert (Sw : Forall (fun x => Rabs x <= 1) ws) by (clear -H; induction H as [|x y l l' (_ & A & _) _ IH]; constructor; auto).
  assert (Tn : Rabs (Rsum ws - total zs / p) <= INR (List.length zs) * (11 / 10 * u)).
  { apply total_near. clear -H. induction H as [|x y l l' (_ & _ & A) _ IH]; constructor; auto. }
  destruct (sum_small ws Sw) as [S1 S2]. rewrite <- L in *. set (n := INR (List.length zs)) in *.
  assert (Hn : 1 <= n <= 10) by (unfold n; split; [change 1 with (INR 1)|change 10 with (IZR (Z.of_nat 10)); rewrite <- INR_IZR_INZ]; apply le_INR; lia).
  pose proof (perm_error t _ Et Dw) as E. rewrite <- L in E. specialize (E ltac:(fold n; lra)). fold n in E.
  assert (E' : Rabs (fsum t - Rsum ws) <= n * (91 / 10 * u)).
  { eapply Rle_trans; [exact E|]. apply Rle_trans with (1.01 * (n - 1) * u * n).
    - apply Rmult_le_compat_l; [|exact S1]. apply Rmult_le_pos; [apply Rmult_le_pos; lra|lra].
    - assert (1.01 * (n - 1) * u * n <= 1.01 * 9 * u * n); [|assert (0 <= n * u) by (apply Rmult_le_pos; lra); lra]. apply Rmult_le_compat_r; [lra|]. apply Rmult_le_compat_r; lra. }
  set (i := / n). assert (I : 0 < i <= 1) by (unfold i; split; [apply Rinv_0_lt_compat; lra|rewrite <- Rinv_1; apply Rinv_le; lra]). assert (Ni : n * i = 1) by (apply Rinv_r; lra).
  assert (G : forall a b, Rabs a <= n * b -> Rabs (a * i) <= b).
  { intros a b Hab. rewrite Rabs_mult, (Rabs_right i) by lra. apply Rle_trans with (n * b * i); [apply Rmult_le_compat_r; lra|]. replace (n * b * i) with (b * (n * i)) by ring. rewrite Ni. lra. }
  pose proof (G _ _ E') as E1. pose proof (G _ _ Tn) as E2. pose proof (G (Rsum ws) 1 ltac:(lra)) as E3.
  assert (B : Rabs (fsum t * i) <= 1 + 91 / 10 * u).
  { replace (fsum t * i) with (Rsum ws * i + (fsum t - Rsum ws) * i) by ring. apply Rle_trans with (1 := Rabs_triang _ _). lra. }
  change (fsum t / n) with (fsum t * i). pose proof (RN_error (fsum t * i)) as Er.
  assert (B' : u * Rabs (fsum t * i) <= u * (101 / 100)) by (apply Rmult_le_compat_l; lra). split.
  - replace (total zs / n / p) with (total zs / p * i) by (unfold i, Rdiv; ring).
    replace (RN (fsum t * i) - total zs / p * i) with ((RN (fsum t * i) - fsum t * i) + ((fsum t - Rsum ws) * i + (Rsum ws - total zs / p) * i)) by ring.
    apply Rle_trans with (1 := Rabs_triang _ _). pose proof (Rabs_triang ((fsum t - Rsum ws) * i) ((Rsum ws - total zs / p) * i)). lra.
  - replace (RN (fsum t * i)) with ((RN (fsum t * i) - fsum t * i) + fsum t * i) by ring. apply Rle_trans with (1 := Rabs_triang _ _). lra.
Qed.
Lemma row_near amp p : amp <> [] -> Forall double amp -> peak amp p -> 0 < p ->
  Forall2 (fun x y => double y /\ Rabs y <= 1 /\ Rabs (y - x / p) <= 11 / 10 * u) amp (divided amp (largest amp)).
Proof.
  intros Ne D [I M] Hp. assert (E : largest amp = p).
  { unfold largest. apply np_max_unique; [exact I|]. intros y Hy. apply in_map_iff in Hy. destruct Hy as (x & <- & Hx). now apply M. }
  assert (Dp : double p). { apply in_map_iff in I. destruct I as (x & <- & Ix). apply double_abs. rewrite Forall_forall in D. now apply D. }
  rewrite E. unfold divided. assert (T1 : tiny <= / 100 * u) by (pose proof tiny_small; rewrite u_value; lra). pose proof u_pos as U0.
  assert (A : forall x, In x amp -> double (RN (x / p)) /\ Rabs (RN (x / p)) <= 1 /\ Rabs (RN (x / p) - x / p) <= 11 / 10 * u).
  { intros x Hx. split; [apply RN_double|]. assert (B : Rabs (x / p) <= 1).
    { unfold Rdiv. rewrite Rabs_mult, (Rabs_right (/ p)) by (apply Rle_ge, Rlt_le, Rinv_0_lt_compat, Hp). apply Rmult_le_reg_r with p; [exact Hp|]. rewrite Rmult_assoc, Rinv_l by lra. rewrite Rmult_1_r, Rmult_1_l. now apply M. }
    split.
    - apply Rabs_le. apply Rabs_le_inv in B. split; [replace (- (1)) with (RN (- (1))) by (rewrite RN_opp, RN_1; reflexivity)|rewrite <- RN_1]; apply RN_mono; lra.
    - pose proof (RN_error (x / p)) as Er. assert (u * Rabs (x / p) <= u * 1) by (apply Rmult_le_compat_l; lra). lra. }
  clear -A. induction amp as [|x amp IH]; cbn [map]; constructor; [apply A; now left|apply IH; intros; apply A; now right].
Qed.
Lemma deviation_near amp p m j : amp <> [] -> Forall double amp -> peak amp p -> 0 < p -> start_mean_of (divided amp (largest amp)) m -> (j < List.length amp)%nat ->
  Rabs (Rabs (RN (nth j (divided amp (largest amp)) 0 - m)) - deviation amp p j) <= 15 * u.
Proof.
  intros Ne D P Hp Hm Hj. pose proof u_pos as U0. assert (T1 : tiny <= / 100 * u) by (pose proof tiny_small; rewrite u_value; lra). assert (U1 : u <= / 1000000000000000) by (rewrite u_value; lra).
  pose proof (row_near amp p Ne D P Hp) as Rn. destruct (start_mean_near amp _ p m Ne Rn Hm) as [M1 M2].
  assert (Y : Rabs (nth j (divided amp (largest amp)) 0) <= 1 /\ Rabs (nth j (divided amp (largest amp)) 0 - nth j amp 0 / p) <= 11 / 10 * u).
  { clear -Rn Hj. revert j Hj. induction Rn as [|x y l l' (_ & A & B) _ IH]; intros [|j] Hj; cbn [nth List.length] in *; try lia; auto. apply IH. lia. }
  destruct Y as [Y1 Y2]. set (y := nth j (divided amp (largest amp)) 0) in *. set (x := nth j amp 0) in *. unfold deviation. fold x.
  replace (Rabs (x - start_mean amp) / p) with (Rabs (x / p - start_mean amp / p)).
  2:{ replace (x / p - start_mean amp / p) with ((x - start_mean amp) * / p) by (unfold Rdiv; ring). rewrite Rabs_mult, (Rabs_right (/ p)) by (apply Rle_ge, Rlt_le, Rinv_0_lt_compat, Hp). reflexivity. }
  apply Rle_trans with (1 := Rabs_triang_inv2 _ _). pose proof (RN_error (y - m)) as Er.
  assert (B : Rabs (y - m) <= 201 / 100) by (apply Rle_trans with (1 := Rabs_triang _ _); rewrite Rabs_Ropp; lra).
  assert (B' : u * Rabs (y - m) <= u * (201 / 100)) by (apply Rmult_le_compat_l; lra).
  replace (RN (y - m) - (x / p - start_mean amp / p)) with ((RN (y - m) - (y - m)) + ((y - x / p) - (m - start_mean amp / p))) by ring.
  apply Rle_trans with (1 := Rabs_triang _ _). pose proof (Rabs_triang (y - x / p) (- (m - start_mean amp / p))) as Tr. rewrite Rabs_Ropp in Tr. unfold Rminus in *. lra.
Qed.
Section Pick.
Variables (detrend : list R -> list R) (c : R) (amplitude : list R) (p : R).
Hypotheses (Ne : detrend amplitude <> []) (D : Forall double (detrend amplitude)) (P : peak (detrend amplitude) p) (Hp : 0 < p).
Let amp := detrend amplitude.
Lemma divided_length l d : List.length (divided l d) = List.length l. Proof. apply map_length. Qed.
Lemma pick_some j : pick_of detrend c amplitude (Some j) ->
  (j < List.length amp)%nat /\ c - 15 * u < deviation amp p j /\ forall i, (i < j)%nat -> deviation amp p i <= c + 15 * u.
Proof.
  intros (m & Hm & E). cbn [row_of] in *. change (row_of detrend "each" amplitude) with (divided amp (largest amp)) in *. symmetry in E.
  apply (proj1 (first_above_some _ _ _ _ _)) in E. destruct E as (k & Ej & L & A & B). cbn in Ej. subst k. rewrite divided_length in L. split; [exact L|].
  split.
  - pose proof (deviation_near amp p m j Ne D P Hp Hm L) as Q. apply Rabs_le_inv in Q. lra.
  - intros i Hi. pose proof (deviation_near amp p m i Ne D P Hp Hm ltac:(lia)) as Q. apply Rabs_le_inv in Q. specialize (B i Hi). lra.
Qed.
Lemma pick_none : pick_of detrend c amplitude None -> forall i, (i < List.length amp)%nat -> deviation amp p i <= c + 15 * u.
Proof.
  intros (m & Hm & E) i Hi. change (row_of detrend "each" amplitude) with (divided amp (largest amp)) in *. symmetry in E.
  pose proof (first_above_none _ _ _ _ E i ltac:(rewrite divided_length; exact Hi)) as B. pose proof (deviation_near amp p m i Ne D P Hp Hm Hi) as Q. apply Rabs_le_inv in Q. lra.
Qed.
End Pick.
Lemma zeros_sum t : Forall (fun x => x = 0) (leaves t) -> fsum t = 0.
Proof.
  induction t as [x|a IHa b IHb]; cbn [leaves fsum]; intros H; [now apply Forall_inv in H|]. apply Forall_app in H. destruct H as [Ha Hb].
  rewrite IHa, IHb by assumption. rewrite Rplus_0_r. apply RN_0.
Qed.
