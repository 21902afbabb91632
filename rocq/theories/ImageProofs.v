(* Proofs about dispersion images. *)
From Verif Require Import PyFacts NumFacts TransformSpec TransformProofs TransformNormProofs TransformProps ImageModel ImageSpec.
Local Open Scope string_scope.
Local Open Scope nat_scope.
Local Open Scope list_scope.
Local Open Scope py_scope.

Lemma reals_id p : reals (fun x : flt => x) p = p.
Proof. unfold reals. rewrite <- (map_id p) at 2. apply map_ext. intros. apply map_id. Qed.
Lemma levels_linear top : levels_to (Fin top) 20 = map (fun i => Fin (QcN i * (top / QcN 20))%Qc) (seq 0 21).
Proof.
  unfold levels_to, range. change (20 + 1) with 21. apply map_ext_in. intros i I. apply in_seq in I.
  assert (N20 : QcN 20 <> 0%Qc) by (apply Qcpos_neq0, QcN_pos; lia).
  destruct (Nat.eqb_spec i 20) as [->|N].
  - f_equal. now field.
  - rewrite (fdiv_Fin _ _ N20). reflexivity.
Qed.
Lemma steps_up c n a : (0 < c)%Qc -> existsb (fun d => flt_le d f0) (steps (map (fun i => Fin (QcN i * c)%Qc) (seq a n))) = false.
Proof.
  intros C. revert a. induction n as [|n IH]; intros a; [reflexivity|]. cbn [seq map steps]. destruct n as [|n]; [reflexivity|].
  specialize (IH (S a)). cbn [seq map existsb] in *. rewrite IH, orb_false_r.
  replace (fsub (Fin (QcN (S a) * c)) (Fin (QcN a * c))) with (Fin c); [|unfold fsub; cbn; f_equal; rewrite QcN_S; ring].
  unfold flt_le, f0. cbn [flt_lt flt_eq]. apply orb_false_iff. split.
  - destruct (Qcltb c 0) eqn:Q; [|reflexivity]. apply Qcltb_lt in Q. exfalso. exact (Qclt_not_le _ _ C (Qclt_le_weak _ _ Q)).
  - destruct (Qceqb c 0) eqn:Q; [|reflexivity]. apply Qceqb_eq in Q. subst c. exfalso. exact (Qclt_not_le _ _ C (Qcle_refl _)).
Qed.
Lemma greatest_unique l g g' : greatest l g -> greatest l g' -> g = g'.
Proof. intros [I B] [I' B']. apply Qcle_antisym; auto. Qed.
Lemma rect_ext nr nc (p q : list (list Qc)) : rect nr nc p -> rect nr nc q ->
  (forall i j, i < nr -> j < nc -> entry p i j = entry q i j) -> p = q.
Proof.
  intros [Lp Hp] [Lq Hq] H. apply (nth_ext _ _ [] []); [congruence|]. intros i Hi.
  assert (Ri : List.length (nth i p []) = nc) by (apply Hp, nth_In; lia). assert (Rj : List.length (nth i q []) = nc) by (apply Hq, nth_In; lia).
  apply (nth_ext _ _ 0%Qc 0%Qc); [congruence|]. intros j Hj. apply H; lia.
Qed.
Lemma normalised_unique s nr nc m p q : valid_name s -> normalised s nr nc m p -> normalised s nr nc m q -> p = q.
Proof.
  intros V [Rp P] [Rq Q]. apply (rect_ext nr nc); auto. intros i j Hi Hj.
  destruct P as [[E ->]|[[E (g & G & P)]|[E P]]]; destruct Q as [[E' ->]|[[E' (g' & G' & Q)]|[E' Q]]]; try (subst s; discriminate E').
  - reflexivity.
  - rewrite P, Q by auto. now rewrite (greatest_unique _ _ _ G G').
  - destruct (P j Hj) as (g & G & Pj), (Q j Hj) as (g' & G' & Qj). rewrite Pj, Qj by auto. now rewrite (greatest_unique _ _ _ G G').
Qed.
Lemma entry_in nr nc m i j : rect nr nc m -> i < nr -> j < nc -> In (entry m i j) (List.concat m) /\ In (entry m i j) (column m j).
Proof.
  intros [L H] Hi Hj. assert (I : In (nth i m []) m) by (apply nth_In; lia). split.
  - apply in_concat. exists (nth i m []). split; [exact I|]. apply nth_In. rewrite H by exact I. exact Hj.
  - unfold column, entry. apply in_map_iff. exists (nth i m []). auto.
Qed.
Lemma in_entry nr nc m r x : rect nr nc m -> In r m -> In x r -> exists i j, i < nr /\ j < nc /\ x = entry m i j.
Proof.
  intros [L H] Ir Ix. destruct (In_nth _ _ [] Ir) as (i & Hi & Ei). destruct (In_nth _ _ 0%Qc Ix) as (j & Hj & Ej).
  exists i, j. rewrite (H r Ir) in Hj. split; [lia|]. split; [exact Hj|]. unfold entry. now rewrite Ei, Ej.
Qed.
(** Normalised entries keep their sign. *)
Lemma normalised_sign s nr nc m p i j : rect nr nc m -> nonneg m -> normalised s nr nc m p -> i < nr -> j < nc ->
  (0 <= entry p i j)%Qc /\ ((0 < entry m i j)%Qc -> (0 < entry p i j)%Qc).
Proof.
  intros R N [Rp P] Hi Hj. destruct (entry_in nr nc m i j R Hi Hj) as [I1 I2].
  assert (N0 : (0 <= entry m i j)%Qc). { apply in_concat in I1. destruct I1 as (r & Ir & Ix). eapply N; eauto. }
  assert (G : forall g, (entry m i j <= g)%Qc -> (0 <= entry m i j / g)%Qc /\ ((0 < entry m i j)%Qc -> (0 < entry m i j / g)%Qc)).
  { intros g Hg. assert (G0 : (0 <= g)%Qc) by (eapply Qcle_trans; eauto). destruct (Qc_eq_dec g 0) as [->|G1].
    - assert (Z : (entry m i j / 0 = 0)%Qc) by (unfold Qcdiv; replace (/ 0)%Qc with 0%Qc by (apply Qceqb_eq; vm_compute; reflexivity); ring).
      rewrite Z. split; [apply Qcle_refl|]. intros H. exfalso. apply (Qclt_not_le _ _ H). exact Hg.
    - assert (G2 : (0 < g)%Qc) by (apply Qcle_lt_or_eq in G0; destruct G0 as [|Q]; [assumption|symmetry in Q; contradiction]). split.
      + now apply Qcdiv_nonneg.
      + intros H. now apply Qcdiv_pos. }
  destruct P as [[E ->]|[[E (g & [_ B] & Q)]|[E Q]]].
  - auto.
  - rewrite Q by auto. apply G. auto.
  - destruct (Q j Hj) as (g & [_ B] & Qj). rewrite Qj by auto. apply G. auto.
Qed.
Lemma after_restored nr nc m hist w : rect nr nc m -> m <> [] -> 0 < nc -> nonneg m ->
  (forall s, In s hist -> valid_name s) -> loud hist nc m -> after m hist w ->
  restored fabs fmul m w.
Proof.
  intros R Hm Hc N V L (w0 & T & P & ->).
  assert (F0 : restored fabs fmul m w0) by (apply (restored_fresh fabs fmul (fun x => x) real_laws m w0 T); rewrite P; now apply fabs_m).
  destruct hist as [|s hist]; [exact F0|].
  apply (normalize_all_spec fabs fmul (fun x => x) real_laws nr nc m R Hm Hc N (s :: hist) w0 F0 V L). discriminate.
Qed.
Lemma loud_app l l' nc m : loud (l ++ l') nc m -> loud l nc m /\ loud l' nc m.
Proof. intros [A B]. repeat split; intros I; (apply A || apply B); apply in_or_app; auto. Qed.
Lemma image_ok nr nc m fs vs hist norm w : drawable_image nr nc m fs vs -> wfrq w = fs -> wvel w = vs -> after m hist w ->
  (forall s, In s hist -> valid_name s) -> valid_name norm -> loud (hist ++ [norm]) nc m ->
  exists w' p lv, normalize_real w norm = (w', Ok tt) /\ normalised norm nr nc m p /\ power w' = fin p /\ wfrq w' = fs /\ wvel w' = vs /\
    after m (hist ++ [norm]) w' /\
    (do top <- fmax (List.concat (power w')); contourf (wfrq w') (wvel w') (power w') (levels_to top 20)) = Ok (Filled fs vs (fin p) lv) /\
    spans lv p /\ nonneg p.
Proof.
  intros (R & Hnr & Hnc & N & Lf & Lv & (r & x & Ir & Ix & Px)) Ef Ev A V Vn L. apply loud_app in L. destruct L as [L1 L2].
  assert (Hm : m <> []) by (intros ->; destruct R as [R _]; cbn in R; lia). assert (Hc : 0 < nc) by lia.
  pose proof (after_restored nr nc m hist w R Hm Hc N V L1 A) as Re.
  destruct (normalize_step fabs fmul (fun x => x) real_laws nr nc m R Hm Hc N w norm Re Vn L2) as (w' & E & P & Re' & F' & V' & _).
  assert (Nm : normalised norm nr nc m (norm_fn nc m norm)) by (apply norm_fn_normalised; auto). set (p := norm_fn nc m norm) in *.
  rewrite reals_id in P. pose proof Nm as [Rp _].
  destruct (in_entry nr nc m r x R Ir Ix) as (i & j & Hi & Hj & ->).
  assert (Pp : (0 < entry p i j)%Qc) by (apply (normalised_sign norm nr nc m p i j R N Nm Hi Hj); exact Px).
  assert (Np : nonneg p). { intros r' x' Ir' Ix'. destruct (in_entry nr nc p r' x' Rp Ir' Ix') as (i' & j' & Hi' & Hj' & ->). now apply (normalised_sign norm nr nc m p i' j' R N Nm). }
  assert (Cp : List.concat p <> []). { intros Q. destruct (entry_in nr nc p i j Rp Hi Hj) as [I _]. rewrite Q in I. destruct I. }
  pose proof (top_greatest _ Cp) as G. set (top := top (List.concat p)) in *.
  assert (T : (0 < top)%Qc). { eapply Qclt_le_trans; [exact Pp|]. apply G. now apply (entry_in nr nc). }
  exists w', p, (levels_to (Fin top) 20). split; [exact E|]. split; [exact Nm|]. split; [exact P|].
  split; [congruence|]. split; [congruence|]. split.
  { destruct A as (w0 & T0 & P0 & ->). exists w0. split; [exact T0|]. split; [exact P0|]. unfold normalize_all. rewrite fold_left_app. cbn [fold_left].
    unfold normalize_real in E. unfold normalize_all in E. now rewrite E. }
  rewrite P, concat_fin, (fmax_top _ Cp). cbn [bind]. fold top. split.
  - unfold contourf. destruct Rp as [Lp Rp]. destruct p as [|r0 [|r1 p']]; [cbn in Lp; lia|cbn in Lp; lia|]. cbn [fin map].
    rewrite map_length, (Rp r0) by now left. rewrite F', V', Ef, Ev, Lf, Lv. cbn [List.length] in *. rewrite map_length, <- Lp, !Nat.eqb_refl.
    destruct (Nat.leb_spec 2 nc); [|lia]. cbn [andb]. rewrite levels_linear.
    rewrite steps_up; [now rewrite andb_false_r|]. apply Qcdiv_pos; [exact T|]. apply QcN_pos. lia.
  - split; [|exact Np]. exists top. split; [exact G|]. split; [exact T|]. rewrite levels_linear. split; [now rewrite map_length, seq_length|].
    intros k Hk. rewrite (nth_map_seq (fun i => Fin (QcN i * (top / QcN 20))%Qc) 0 21 k NaN) by lia. f_equal. cbn [Nat.add]. unfold Qcdiv. ring.
Qed.
Lemma linspace_line a b n fs : 2 <= n -> linspace a b (Z.of_nat n) = Ok fs -> List.length fs = n /\ nth 0 fs 0%Qc = a /\ nth (n - 1) fs 0%Qc = b.
Proof. intros Hn E. destruct (linspace_spec a b n Hn) as (l & E' & L & A & B & _). rewrite E in E'. injection E' as <-. auto. Qed.
