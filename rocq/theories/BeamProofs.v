(* Complex arithmetic, phase-shift and beamforming power. *)
From Verif Require Import BeamModel BeamSpec PyFacts NumFacts.
From Coq Require Import Lra Lia.
Local Open Scope R_scope.
Local Open Scope list_scope.

(** * Complex numbers *)
Lemma C_eq (u v : C) : fst u = fst v -> snd u = snd v -> u = v.
Proof. destruct u, v; simpl; congruence. Qed.
Ltac cring := intros; apply C_eq; cbn; ring.
Lemma C_ring_th : ring_theory C0 C1 Cadd Cmul Csub Copp (@eq C).
Proof. constructor; cring. Qed.
Add Ring Cring : C_ring_th.
Lemma Cconj_add u v : Cconj (Cadd u v) = Cadd (Cconj u) (Cconj v). Proof. cring. Qed.
Lemma Cconj_mul u v : Cconj (Cmul u v) = Cmul (Cconj u) (Cconj v). Proof. cring. Qed.
Lemma Cconj_conj u : Cconj (Cconj u) = u. Proof. cring. Qed.
Lemma Cconj_real x : Cconj (RtoC x) = RtoC x. Proof. cring. Qed.
Lemma Cconj_0 : Cconj C0 = C0. Proof. cring. Qed.
Lemma RtoC_add x y : RtoC (x + y) = Cadd (RtoC x) (RtoC y). Proof. cring. Qed.
Lemma RtoC_mul x y : RtoC (x * y) = Cmul (RtoC x) (RtoC y). Proof. cring. Qed.
Lemma RtoC_1 : RtoC 1 = C1. Proof. reflexivity. Qed.
Lemma sq_nonneg x : 0 <= x * x. Proof. apply Rle_0_sqr. Qed.
Lemma Cmod_sq u : Cmod u * Cmod u = fst u * fst u + snd u * snd u.
Proof. unfold Cmod. apply sqrt_sqrt. pose proof (sq_nonneg (fst u)). pose proof (sq_nonneg (snd u)). lra. Qed.
Lemma Cmod_nonneg u : 0 <= Cmod u. Proof. apply sqrt_pos. Qed.
Lemma Cmod_eq u r : 0 <= r -> fst u * fst u + snd u * snd u = r * r -> Cmod u = r.
Proof. intros H E. unfold Cmod. rewrite E. now apply sqrt_square. Qed.
Lemma Cmod_mul u v : Cmod (Cmul u v) = Cmod u * Cmod v.
Proof.
  apply Cmod_eq; [apply Rmult_le_pos; apply Cmod_nonneg|].
  replace (Cmod u * Cmod v * (Cmod u * Cmod v)) with ((Cmod u * Cmod u) * (Cmod v * Cmod v)) by ring.
  rewrite !Cmod_sq. cbn. ring.
Qed.
Lemma Cmod_real x : 0 <= x -> Cmod (RtoC x) = x.
Proof. intros. apply Cmod_eq; auto. cbn. ring. Qed.
Lemma Cmod_0 : Cmod C0 = 0. Proof. apply (Cmod_real 0). lra. Qed.
Lemma Cmod_conj u : Cmod (Cconj u) = Cmod u.
Proof. unfold Cmod. f_equal. cbn. ring. Qed.
Lemma Cmod_cexp t : Cmod (cexp t) = 1.
Proof.
  apply Cmod_eq; [lra|]. cbn. pose proof (sin2_cos2 t) as H. unfold Rsqr in H. lra.
Qed.
Lemma Cmod_triangle u v : Cmod (Cadd u v) <= Cmod u + Cmod v.
Proof.
  pose proof (triangle 0 0 (fst u + fst v) (snd u + snd v) (fst u) (snd u)) as H.
  unfold dist_euc in H. unfold Cmod. cbn.
  replace (sqrt ((fst u + fst v) * (fst u + fst v) + (snd u + snd v) * (snd u + snd v)))
    with (sqrt (Rsqr (0 - (fst u + fst v)) + Rsqr (0 - (snd u + snd v)))) by (f_equal; unfold Rsqr; ring).
  replace (sqrt (fst u * fst u + snd u * snd u)) with (sqrt (Rsqr (0 - fst u) + Rsqr (0 - snd u)))
    by (f_equal; unfold Rsqr; ring).
  replace (sqrt (fst v * fst v + snd v * snd v))
    with (sqrt (Rsqr (fst u - (fst u + fst v)) + Rsqr (snd u - (snd u + snd v)))) by (f_equal; unfold Rsqr; ring).
  exact H.
Qed.
Lemma cexp_add s t : cexp (s + t) = Cmul (cexp s) (cexp t).
Proof. apply C_eq; cbn; [apply cos_plus|rewrite sin_plus; ring]. Qed.
Lemma cexp_0 : cexp 0 = C1. Proof. apply C_eq; cbn; [apply cos_0|apply sin_0]. Qed.
Lemma cexp_conj t : Cconj (cexp t) = cexp (- t).
Proof. apply C_eq; cbn; [now rewrite cos_neg|now rewrite sin_neg]. Qed.
Lemma Cmul_conj u : Cmul u (Cconj u) = RtoC (Cmod u * Cmod u).
Proof. rewrite Cmod_sq. cring. Qed.

(** * Sums *)
Lemma sumC_ext n f g : (forall i, (i < n)%nat -> f i = g i) -> sumC n f = sumC n g.
Proof. intros H. unfold sumC. f_equal. apply map_ext_in. intros i Hi. apply in_seq in Hi. apply H. lia. Qed.
Lemma Csum_nil : Csum [] = C0. Proof. reflexivity. Qed.
Lemma Csum_cons a l : Csum (a :: l) = Cadd a (Csum l). Proof. reflexivity. Qed.
Lemma Rsum_cons a l : Rsum (a :: l) = a + Rsum l. Proof. reflexivity. Qed.
Lemma Rsum_nil : Rsum [] = 0. Proof. reflexivity. Qed.
Ltac sums := rewrite ?Csum_cons, ?Rsum_cons, ?Csum_nil, ?Rsum_nil.
Lemma Csum_app l m : Csum (l ++ m) = Cadd (Csum l) (Csum m).
Proof. induction l as [|a l IH]; cbn [app]; sums; [ring|]. rewrite IH. ring. Qed.
Lemma Csum_map_add {A} (f g : A -> C) l : Csum (map (fun x => Cadd (f x) (g x)) l) = Cadd (Csum (map f l)) (Csum (map g l)).
Proof. induction l as [|a l IH]; cbn [map]; sums; [ring|]. rewrite IH. ring. Qed.
Lemma Csum_map_mul {A} c (f : A -> C) l : Csum (map (fun x => Cmul c (f x)) l) = Cmul c (Csum (map f l)).
Proof. induction l as [|a l IH]; cbn [map]; sums; [ring|]. rewrite IH. ring. Qed.
Lemma Csum_map_conj {A} (f : A -> C) l : Csum (map (fun x => Cconj (f x)) l) = Cconj (Csum (map f l)).
Proof.
  induction l as [|a l IH]; cbn [map]; sums; [now rewrite Cconj_0|].
  now rewrite IH, Cconj_add.
Qed.
Lemma Csum_0 {A} (l : list A) : Csum (map (fun _ => C0) l) = C0.
Proof. induction l as [|a l IH]; cbn [map]; sums; auto. rewrite IH. ring. Qed.
Lemma Csum_exchange {A B} (f : A -> B -> C) l m :
  Csum (map (fun x => Csum (map (f x) m)) l) = Csum (map (fun y => Csum (map (fun x => f x y) l)) m).
Proof.
  induction l as [|a l IH]; cbn [map]; sums.
  - symmetry. apply Csum_0.
  - rewrite IH. symmetry. apply (Csum_map_add (f a) (fun y => Csum (map (fun x => f x y) l))).
Qed.
Lemma sumC_add n f g : sumC n (fun i => Cadd (f i) (g i)) = Cadd (sumC n f) (sumC n g).
Proof. apply Csum_map_add. Qed.
Lemma sumC_mul n c f : sumC n (fun i => Cmul c (f i)) = Cmul c (sumC n f).
Proof. apply Csum_map_mul. Qed.
Lemma sumC_mul_r n c f : sumC n (fun i => Cmul (f i) c) = Cmul (sumC n f) c.
Proof.
  rewrite (sumC_ext n _ (fun i => Cmul c (f i))) by (intros; ring). rewrite sumC_mul. ring.
Qed.
Lemma sumC_conj n f : sumC n (fun i => Cconj (f i)) = Cconj (sumC n f).
Proof. apply Csum_map_conj. Qed.
Lemma sumC_exchange n m f : sumC n (fun a => sumC m (fun b => f a b)) = sumC m (fun b => sumC n (fun a => f a b)).
Proof. apply Csum_exchange. Qed.
Lemma sumR_ext n f g : (forall i, (i < n)%nat -> f i = g i) -> sumR n f = sumR n g.
Proof. intros H. unfold sumR. f_equal. apply map_ext_in. intros i Hi. apply in_seq in Hi. apply H. lia. Qed.
Lemma sumR_le n f g : (forall i, (i < n)%nat -> f i <= g i) -> sumR n f <= sumR n g.
Proof.
  intros H. unfold sumR. assert (K : forall i, In i (seq 0 n) -> f i <= g i) by (intros i Hi; apply in_seq in Hi; apply H; lia).
  induction (seq 0 n) as [|a l IH]; cbn [map]; sums; [lra|].
  pose proof (K a (or_introl eq_refl)). assert (Rsum (map f l) <= Rsum (map g l)) by (apply IH; intros; apply K; now right). lra.
Qed.
Lemma sumR_nonneg n f : (forall i, (i < n)%nat -> 0 <= f i) -> 0 <= sumR n f.
Proof.
  intros H. replace 0 with (sumR n (fun _ => 0)) at 1; [now apply sumR_le|].
  unfold sumR. induction (seq 0 n) as [|a l IH]; cbn [map]; sums; auto. rewrite IH. ring.
Qed.
Lemma sumR_mul n c f : sumR n (fun i => c * f i) = c * sumR n f.
Proof. unfold sumR. induction (seq 0 n) as [|a l IH]; cbn [map]; sums; [ring|]. rewrite IH. ring. Qed.
Lemma sumR_real n f : sumC n (fun i => RtoC (f i)) = RtoC (sumR n f).
Proof. unfold sumC, sumR. induction (seq 0 n) as [|a l IH]; cbn [map]; sums; [reflexivity|]. now rewrite IH, RtoC_add. Qed.
Lemma Cmod_sumC n f : Cmod (sumC n f) <= sumR n (fun i => Cmod (f i)).
Proof.
  unfold sumC, sumR. induction (seq 0 n) as [|a l IH]; cbn [map]; sums.
  - rewrite Cmod_0. lra.
  - eapply Rle_trans; [apply Cmod_triangle|]. lra.
Qed.
Lemma Rsum_map_index (l : list R) : Rsum l = sumR (List.length l) (fun i => nth i l 0).
Proof.
  unfold sumR. f_equal. apply (nth_ext_len 0); [now rewrite map_length, seq_length|].
  intros i Hi. rewrite nth_map_seq by auto. reflexivity.
Qed.
Lemma list_as_map {A} (d : A) l : l = map (fun k => nth k l d) (seq 0 (List.length l)).
Proof.
  apply (nth_ext_len d); [now rewrite map_length, seq_length|].
  intros i Hi. rewrite nth_map_seq by auto. reflexivity.
Qed.
Lemma Csum_index l : Csum l = sumC (List.length l) (fun i => nth i l C0).
Proof. unfold sumC. now rewrite <- list_as_map. Qed.
Lemma Csum_map2 {A B} (f : A -> B -> C) (da : A) (db : B) l m : List.length l = List.length m ->
  Csum (map2 f l m) = sumC (List.length l) (fun i => f (nth i l da) (nth i m db)).
Proof.
  intros H. rewrite Csum_index, length_map2, <- H, Nat.min_id. apply sumC_ext. intros i Hi.
  apply nth_map2; lia.
Qed.

(** * Phase shift *)
Lemma unit_of_some u : Cmod u <> 0 -> exists w, unit_of u = Some w /\ Cmod w = 1 /\ u = Cmul w (RtoC (Cmod u)).
Proof.
  intros H. unfold unit_of. destruct (Req_EM_T (Cmod u) 0); [contradiction|]. eexists. split; [reflexivity|].
  pose proof (Cmod_nonneg u). assert (P : 0 < Cmod u) by lra. pose proof (Rinv_0_lt_compat _ P).
  split.
  - rewrite Cmod_mul, Cmod_real by lra. field. lra.
  - transitivity (Cmul u (RtoC (/ Cmod u * Cmod u))); [rewrite Rinv_l by lra; rewrite RtoC_1; ring|].
    rewrite RtoC_mul. ring.
Qed.
Lemma unit_of_none u : Cmod u = 0 -> unit_of u = None.
Proof. intros H. unfold unit_of. destruct (Req_EM_T (Cmod u) 0); [reflexivity|contradiction]. Qed.
Lemma unit_of_scale u c : 0 < c -> unit_of (Cmul (RtoC c) u) = unit_of u.
Proof.
  intros Hc. unfold unit_of. rewrite Cmod_mul, Cmod_real by lra.
  destruct (Req_EM_T (Cmod u) 0) as [E|E], (Req_EM_T (c * Cmod u) 0) as [F|F]; auto.
  - exfalso. apply F. rewrite E. ring.
  - exfalso. apply E. destruct (Rmult_integral _ _ F); [lra|auto].
  - f_equal. apply C_eq; cbn; field; auto with real; lra.
Qed.
Lemma inner_some v f x u : Cmod u <> 0 -> exists w, inner v f x u = Some w /\ Cmod w = 1.
Proof.
  intros H. destruct (unit_of_some u H) as (w & E & M & _). unfold inner. rewrite E. cbn [option_map].
  eexists. split; [reflexivity|]. now rewrite Cmod_mul, Cmod_cexp, M, Rmult_1_l.
Qed.
(** Sum of the distances between neighbours. *)
Fixpoint steps (l : list R) : R :=
  match l with
  | x :: ((y :: _) as t) => (y - x) + steps t
  | _ => 0
  end.
Lemma steps_aperture l : l <> [] -> steps l = aperture l.
Proof.
  unfold aperture. induction l as [|x l IH]; [congruence|]. intros _.
  destruct l as [|y l]; [cbn; ring|].
  change (steps (x :: y :: l)) with ((y - x) + steps (y :: l)). rewrite IH by discriminate. cbn [List.length nth Nat.sub].
  replace (S (List.length l) - 0)%nat with (S (List.length l)) by lia.
  replace (List.length l - 0)%nat with (List.length l) by lia. destruct (List.length l) eqn:E; cbn [nth]; lra.
Qed.
Lemma ascending_tail x l : ascending (x :: l) -> ascending l.
Proof. intros H i Hi. apply (H (S i)). cbn. lia. Qed.
Lemma ascending_head x y l : ascending (x :: y :: l) -> x <= y.
Proof. intros H. apply (H 0%nat). cbn. lia. Qed.
(** the trapezoid of unit numbers *)
Lemma trapezoid_bound xs : forall l, ascending xs -> List.length l = List.length xs ->
  (forall o, In o l -> exists w, o = Some w /\ Cmod w = 1) ->
  exists t, trapezoid xs l = Some t /\ Cmod t <= steps xs.
Proof.
  induction xs as [|x xs IH]; intros l Ha Hl Hu.
  - exists C0. destruct l; split; cbn; auto; rewrite Cmod_0; lra.
  - destruct xs as [|y xs].
    + exists C0. destruct l as [|a [|b l]]; split; cbn; auto; rewrite Cmod_0; lra.
    + destruct l as [|a [|b l]]; try (cbn in Hl; lia).
      destruct (Hu a) as (u & -> & Mu); [now left|]. destruct (Hu b) as (v & Eb & Mv); [right; now left|].
      destruct (IH (b :: l)) as (t & Et & Bt).
      * eapply ascending_tail; eauto.
      * cbn in Hl |- *. lia.
      * intros o Ho. apply Hu. now right.
      * change (trapezoid (x :: y :: xs) (Some u :: b :: l)) with
          (match panel (y - x) (Some u) b, trapezoid (y :: xs) (b :: l) with
           | Some u, Some v => Some (Cadd u v) | _, _ => None end).
        rewrite Et, Eb. cbn [panel]. eexists. split; [reflexivity|].
        pose proof (ascending_head _ _ _ Ha).
        eapply Rle_trans; [apply Cmod_triangle|]. rewrite Cmod_mul, Cmod_real by lra.
        pose proof (Cmod_triangle u v). change (steps (x :: y :: xs)) with ((y - x) + steps (y :: xs)).
        assert (/ 2 * (y - x) * Cmod (Cadd u v) <= / 2 * (y - x) * 2) by (apply Rmult_le_compat_l; lra). lra.
Qed.
Lemma trapezoid_constant xs w : forall l, List.length l = List.length xs -> (forall o, In o l -> o = Some w) ->
  trapezoid xs l = Some (Cmul (RtoC (steps xs)) w).
Proof.
  induction xs as [|x xs IH]; intros l Hl Hu.
  - destruct l; cbn; f_equal; cring.
  - destruct xs as [|y xs].
    + destruct l as [|a [|b l]]; cbn; f_equal; cring.
    + destruct l as [|a [|b l]]; try (cbn in Hl; lia).
      change (trapezoid (x :: y :: xs) (a :: b :: l)) with
          (match panel (y - x) a b, trapezoid (y :: xs) (b :: l) with
           | Some u, Some v => Some (Cadd u v) | _, _ => None end).
      rewrite (Hu a) by now left. rewrite (IH (b :: l)); [|cbn in *; lia|intros; apply Hu; now right].
      rewrite (Hu b) by (right; now left). cbn [panel]. f_equal.
      change (steps (x :: y :: xs)) with ((y - x) + steps (y :: xs)). rewrite RtoC_add.
      transitivity (Cadd (Cmul (RtoC (/ 2 * (y - x) * 2)) w) (Cmul (RtoC (steps (y :: xs))) w)).
      * rewrite (RtoC_mul _ 2). replace (RtoC 2) with (Cadd C1 C1) by (apply C_eq; cbn; ring). ring.
      * replace (/ 2 * (y - x) * 2) with (y - x) by field. ring.
Qed.
Lemma trapezoid_ext xs : forall l m, l = m -> trapezoid xs l = trapezoid xs m.
Proof. congruence. Qed.
Lemma map2_In {A B D} (f : A -> B -> D) l : forall m o, In o (map2 f l m) -> exists a b, In a l /\ In b m /\ o = f a b.
Proof.
  induction l as [|a l IH]; intros [|b m] o H; cbn in H; try contradiction.
  destruct H as [<-|H]; [exists a, b; cbn; auto|]. destruct (IH m o H) as (a' & b' & ? & ? & ->). exists a', b'. cbn; auto.
Qed.
Lemma phase_shift_cell_bounds xs sp v f : v <> 0 -> ascending xs -> xs <> [] -> List.length sp = List.length xs ->
  (forall u, In u sp -> Cmod u <> 0) ->
  exists p, phase_shift_cell xs sp v f = Some p /\ 0 <= p <= aperture xs.
Proof.
  intros Hv Ha Hn Hl Hu. unfold phase_shift_cell. destruct (Req_EM_T v 0); [contradiction|].
  destruct (trapezoid_bound xs (map2 (inner v f) xs sp) Ha) as (t & -> & B).
  - rewrite length_map2, Hl. lia.
  - intros o Ho. apply map2_In in Ho. destruct Ho as (x & u & _ & Iu & ->). apply inner_some. auto.
  - cbn [option_map]. eexists. split; [reflexivity|]. rewrite <- steps_aperture by auto.
    split; [apply Cmod_nonneg|exact B].
Qed.
Lemma phase_shift_cell_aligned xs sp v f phi : v <> 0 -> ascending xs -> xs <> [] -> List.length sp = List.length xs ->
  (forall i, (i < List.length xs)%nat -> exists A, 0 < A /\
     nth i sp C0 = Cmul (RtoC A) (cexp (phi - 2 * PI * f * nth i xs 0 / v))) ->
  phase_shift_cell xs sp v f = Some (aperture xs).
Proof.
  intros Hv Ha Hn Hl Hp. unfold phase_shift_cell. destruct (Req_EM_T v 0); [contradiction|].
  rewrite (trapezoid_constant xs (cexp phi)).
  - cbn [option_map]. f_equal. rewrite Cmod_mul, Cmod_cexp, Rmult_1_r.
    assert (0 <= steps xs).
    { clear - Ha. induction xs as [|x xs IH]; cbn; [lra|]. destruct xs as [|y xs]; [lra|].
      pose proof (ascending_head _ _ _ Ha). specialize (IH (ascending_tail _ _ Ha)). lra. }
    rewrite Cmod_real by auto. now apply steps_aperture.
  - rewrite length_map2, Hl. lia.
  - intros o Ho. apply (In_nth _ _ None) in Ho. destruct Ho as (i & Hi & <-). rewrite length_map2 in Hi.
    rewrite (nth_map2 _ _ _ _ 0 C0) by lia. destruct (Hp i ltac:(lia)) as (A & PA & ->).
    unfold inner. rewrite unit_of_scale by auto. unfold unit_of. rewrite Cmod_cexp.
    destruct (Req_EM_T 1 0); [lra|]. cbn [option_map]. f_equal. rewrite Rinv_1, RtoC_1.
    set (x := nth i xs 0).
    replace (Cmul (cexp (2 * PI / v * x * f)) (Cmul (cexp (phi - 2 * PI * f * x / v)) C1))
      with (Cmul (cexp (2 * PI / v * x * f)) (cexp (phi - 2 * PI * f * x / v))) by ring.
    rewrite <- cexp_add. f_equal. field. auto.
Qed.
Lemma phase_shift_cell_nan xs sp v f : v <> 0 -> List.length sp = List.length xs -> (2 <= List.length xs)%nat ->
  (exists u, In u sp /\ Cmod u = 0) -> phase_shift_cell xs sp v f = None.
Proof.
  intros Hv Hl H2 (u & Iu & Mu). unfold phase_shift_cell. destruct (Req_EM_T v 0); [contradiction|].
  assert (E : In None (map2 (inner v f) xs sp)).
  { apply (In_nth _ _ C0) in Iu. destruct Iu as (i & Hi & E).
    replace None with (nth i (map2 (inner v f) xs sp) None); [apply nth_In; rewrite length_map2; lia|].
    rewrite (nth_map2 _ _ _ _ 0 C0) by lia. unfold inner. now rewrite E, unit_of_none. }
  assert (L : List.length (map2 (inner v f) xs sp) = List.length xs) by (rewrite length_map2; lia).
  revert E L. generalize (map2 (inner v f) xs sp). intros l E L.
  assert (T : trapezoid xs l = None); [|now rewrite T].
  clear Hl Iu. revert l E L H2. induction xs as [|x xs IH]; intros l E L H2; [cbn in H2; lia|].
  destruct xs as [|y xs]; [cbn in H2; lia|]. destruct l as [|a [|b l]]; try (cbn in L; lia).
  change (trapezoid (x :: y :: xs) (a :: b :: l)) with
          (match panel (y - x) a b, trapezoid (y :: xs) (b :: l) with
           | Some u, Some v => Some (Cadd u v) | _, _ => None end).
  destruct a as [a|]; [|reflexivity]. destruct b as [b|]; [|reflexivity].
  destruct E as [E|[E|E]]; try discriminate.
  destruct xs as [|x3 xs]; [destruct l; [contradiction|cbn in L; lia]|].
  rewrite IH; [now destruct (panel (y - x) (Some a) (Some b))|right; exact E|cbn in *; lia|cbn; lia].
Qed.
(** the discrete Fourier transform is linear *)
Lemma toR_mul x y : toR (x * y)%Qc = toR x * toR y.
Proof. unfold toR. rewrite <- Q2R_mult. apply Qeq_eqR. apply this_mult. Qed.
Lemma dft_scale c row k : dft (map (Qcmult c) row) k = Cmul (RtoC (toR c)) (dft row k).
Proof.
  unfold dft. rewrite map_length, <- Csum_map_mul. f_equal. apply map_ext_in. intros n Hn. apply in_seq in Hn.
  rewrite (nth_map_lt _ _ _ _ 0%Qc) by lia. rewrite toR_mul, RtoC_mul. ring.
Qed.
Lemma phase_shift_cell_scaled xs sp sp' v f : List.length sp = List.length sp' ->
  (forall i, (i < List.length sp)%nat -> exists c, 0 < c /\ nth i sp' C0 = Cmul (RtoC c) (nth i sp C0)) ->
  phase_shift_cell xs sp' v f = phase_shift_cell xs sp v f.
Proof.
  intros Hl H. unfold phase_shift_cell. destruct (Req_EM_T v 0); auto. do 2 f_equal.
  clear - Hl H. revert sp sp' Hl H. induction xs as [|x xs IH]; intros [|u sp] [|u' sp'] Hl H; cbn [map2]; auto; try discriminate.
  f_equal.
  - destruct (H 0%nat ltac:(cbn; lia)) as (c & Pc & E). cbn in E. subst u'. unfold inner. now rewrite unit_of_scale.
  - apply IH; [now injection Hl|]. intros i Hi. apply (H (S i)). cbn. lia.
Qed.
