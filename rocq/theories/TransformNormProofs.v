(* Proofs about normalisation, peak picking and stacking of wavefield transforms. *)
From Verif Require Import TransformModel TransformSpec PyFacts NumFacts SeriesProofs ArrayMatrixProofs TransformProofs.
From Coq Require Import Permutation.
Local Open Scope nat_scope.
Local Open Scope list_scope.

(** ** Maxima *)
Definition top (l : list Qc) : Qc := match l with [] => 0%Qc | a :: t => lmax a t end.
Lemma top_greatest l : l <> [] -> greatest l (top l).
Proof.
  destruct l as [|a l]; [congruence|]. intros _. cbn [top]. destruct (lmax_spec l a) as (A & B & C).
  split.
  - destruct C as [C|C]; [rewrite C; now left|now right].
  - intros y [<-|H]; auto.
Qed.
Lemma fmax_top l : l <> [] -> fmax (map Fin l) = Ok (Fin (top l)).
Proof. destruct l as [|a l]; [congruence|]. intros _. cbn [map fmax top]. now rewrite fmax_fin. Qed.
Lemma greatest_pos l g x : greatest l g -> In x l -> (0 < x)%Qc -> (0 < g)%Qc.
Proof. intros [_ H] I P. eapply Qclt_le_trans; eauto. Qed.
Lemma concat_fin m : List.concat (fin m) = map Fin (List.concat m).
Proof. unfold fin. now rewrite concat_map. Qed.
Lemma nth_map_Fin r j : j < List.length r -> nth j (map Fin r) NaN = Fin (nth j r 0%Qc).
Proof. intros. now rewrite (nth_map_lt _ _ _ _ 0%Qc). Qed.
Lemma column_fin nc m j : (forall r, In r m -> List.length r = nc) -> j < nc ->
  map (fun r => nth j r NaN) (fin m) = map Fin (column m j).
Proof.
  intros H Hj. unfold fin, column. rewrite !map_map. apply map_ext_in. intros r Hr.
  apply nth_map_Fin. now rewrite H.
Qed.
Lemma length_column m j : List.length (column m j) = List.length m.
Proof. apply map_length. Qed.
Lemma column_nonempty m j : m <> [] -> column m j <> [].
Proof. destruct m; [congruence|discriminate]. Qed.
Lemma column_max_fin nr nc m : rect nr nc m -> m <> [] ->
  column_max (fin m) = Ok (map Fin (map (fun j => top (column m j)) (seq 0 nc))).
Proof.
  intros [_ Hc] Hm. unfold column_max. destruct m as [|r m]; [congruence|].
  change (fin (r :: m)) with (map Fin r :: fin m). cbv iota.
  rewrite map_length, (Hc r) by now left. unfold range.
  change (map Fin r :: fin m) with (fin (r :: m)). rewrite map_map.
  apply mapM_total. intros j Hj. apply in_seq in Hj.
  rewrite (column_fin nc) by (auto; lia). apply fmax_top. now apply column_nonempty.
Qed.

(** ** Arithmetic on finite entries *)
Lemma fdiv_Fin a b : b <> 0%Qc -> fdiv (Fin a) (Fin b) = Fin (a / b)%Qc.
Proof. intros H. cbn [fdiv]. destruct (Qceqb_spec b 0); [contradiction|reflexivity]. Qed.
Lemma map2_fdiv r : forall l, (forall x, In x l -> x <> 0%Qc) ->
  map2 fdiv (map Fin r) (map Fin l) = map Fin (map2 Qcdiv r l).
Proof.
  induction r as [|a r IH]; intros [|b l] H; cbn [map map2]; auto.
  rewrite fdiv_Fin by (apply H; now left). f_equal. apply IH. intros; apply H; now right.
Qed.
Lemma map2_fmul r : forall l, map2 fmul (map Fin r) (map Fin l) = map Fin (map2 Qcmult r l).
Proof. induction r as [|a r IH]; intros [|b l]; cbn [map map2]; auto. now rewrite IH. Qed.
Lemma map2_mul_div r : forall l, List.length r = List.length l -> (forall x, In x l -> x <> 0%Qc) ->
  map2 Qcmult (map2 Qcdiv r l) l = r.
Proof.
  induction r as [|a r IH]; intros [|b l] L H; cbn [map2]; auto; try discriminate.
  rewrite IH; [|now injection L|intros; apply H; now right].
  f_equal. field. apply H. now left.
Qed.
Lemma fabs_fin_row r : (forall x, In x r -> (0 <= x)%Qc) -> map fabs (map Fin r) = map Fin r.
Proof.
  intros H. rewrite map_fabs_fin. f_equal. rewrite <- (map_id r) at 2. apply map_ext_in.
  intros x Hx. now apply Qcabs_pos, H.
Qed.

Section Norm.
  Context {K : Type} (kabs : K -> flt) (kmul : K -> flt -> K) (kreal : flt -> K).
  Hypothesis laws : entry_laws kabs kmul kreal.
  Local Notation norm := (normalize kabs kmul kreal).
  Local Notation norm_all := (normalize_all kabs kmul kreal).
  Variables (nr nc : nat) (m : list (list Qc)).
  Hypothesis (Hr : rect nr nc m) (Hne : m <> []) (Hnc : 0 < nc) (Hnn : nonneg m).

  (** the power multiplied back *)
  Definition restored (w : transform K) : Prop :=
    magnitudes kabs (scale kmul (power w) (to_abs w)) = fin m.

  Definition norm_fn (by_ : string) : list (list Qc) :=
    if String.eqb by_ "none" then m
    else if String.eqb by_ "absolute-maximum" then map (map (fun y => y / top (List.concat m))%Qc) m
    else map (fun r => map2 Qcdiv r (map (fun j => top (column m j)) (seq 0 nc))) m.

  Lemma mag_reals f : magnitudes kabs (reals kreal f) = map (map fabs) f.
  Proof.
    unfold magnitudes, reals. rewrite map_map. apply map_ext. intros r. rewrite map_map.
    apply map_ext. intros. apply (abs_real _ _ _ laws).
  Qed.
  Lemma scale_reals_scalar f x :
    scale kmul (reals kreal f) (Scalar x) = reals kreal (map (map (fun y => fmul y x)) f).
  Proof.
    unfold scale, reals. rewrite !map_map. apply map_ext. intros r. rewrite !map_map.
    apply map_ext. intros. apply (mul_real _ _ _ laws).
  Qed.
  Lemma map2_kreal r : forall l, map2 kmul (map kreal r) l = map kreal (map2 fmul r l).
  Proof.
    induction r as [|a r IH]; intros [|b l]; cbn [map map2]; auto.
    now rewrite IH, (mul_real _ _ _ laws).
  Qed.
  Lemma scale_reals_columns f l :
    scale kmul (reals kreal f) (PerColumn l) = reals kreal (map (fun r => map2 fmul r l) f).
  Proof.
    unfold scale, reals. rewrite !map_map. apply map_ext. intros r. apply map2_kreal.
  Qed.
  Lemma fabs_m : map (map fabs) (fin m) = fin m.
  Proof.
    unfold fin. rewrite map_map. apply map_ext_in. intros r Hin. apply fabs_fin_row. intros x Hx. eapply Hnn; eauto.
  Qed.
  Lemma concat_nonempty : List.concat m <> [].
  Proof.
    destruct m as [|r m']; [congruence|]. destruct Hr as [_ Hc]. specialize (Hc r (or_introl eq_refl)).
    destruct r; [simpl in Hc; lia|discriminate].
  Qed.

  Lemma normalize_step w by_ : restored w -> valid_name by_ -> loud [by_] nc m ->
    exists w', norm w by_ = (w', Ok tt) /\ power w' = reals kreal (fin (norm_fn by_)) /\
      restored w' /\ wfrq w' = wfrq w /\ wvel w' = wvel w /\ wn w' = wn w.
  Proof.
    intros Hw Hv [L1 L2]. unfold norm, norm_fn. unfold restored in Hw. rewrite Hw.
    destruct Hv as [-> | [-> | ->]]; cbn [String.eqb Ascii.eqb Bool.eqb].
    - eexists. split; [reflexivity|]. cbn [set_power power to_abs]. split; [reflexivity|].
      split; [|auto]. unfold restored. cbn [set_power power to_abs]. rewrite scale_reals_scalar, mag_reals. transitivity (map (map fabs) (fin m)); [|apply fabs_m].
      f_equal. unfold fin. rewrite !map_map. apply map_ext. intros r. rewrite !map_map. apply map_ext.
      intros x. cbn. f_equal. ring.
    - rewrite concat_fin, fmax_top by apply concat_nonempty.
      pose proof (top_greatest _ concat_nonempty) as G.
      destruct L1 as (r & x & Hin & Hx & P); [now left|].
      assert (In x (List.concat m)) by (apply in_concat; eauto).
      assert (T : (0 < top (List.concat m))%Qc) by (eapply greatest_pos; eauto).
      set (g := top (List.concat m)) in *. assert (N : g <> 0%Qc) by now apply Qcpos_neq0.
      assert (E : map (map (fun y => fdiv y (Fin g))) (fin m) = fin (map (map (fun y => (y / g)%Qc)) m)).
      { unfold fin. rewrite !map_map. apply map_ext. intros r'. rewrite !map_map. apply map_ext.
        intros y. now apply fdiv_Fin. }
      rewrite E. eexists. split; [reflexivity|]. cbn [set_power power to_abs]. split; [reflexivity|].
      split; [|auto]. unfold restored. cbn [set_power power to_abs]. rewrite scale_reals_scalar, mag_reals. transitivity (map (map fabs) (fin m)); [|apply fabs_m].
      f_equal. unfold fin. rewrite !map_map. apply map_ext. intros r'. rewrite !map_map. apply map_ext.
      intros y. cbn [fmul]. f_equal. now field.
    - rewrite (column_max_fin nr nc) by auto. set (l := map (fun j => top (column m j)) (seq 0 nc)).
      assert (N : forall x, In x l -> x <> 0%Qc).
      { intros x Hx. apply in_map_iff in Hx. destruct Hx as (j & <- & Hj). apply in_seq in Hj.
        destruct (L2 (or_introl eq_refl) j ltac:(lia)) as (x & Ix & P). apply Qcpos_neq0.
        eapply greatest_pos; [apply top_greatest, column_nonempty|..]; eauto. }
      assert (LL : List.length l = nc) by (unfold l; now rewrite map_length, seq_length).
      assert (E : map (fun r => map2 fdiv r (map Fin l)) (fin m) = fin (map (fun r => map2 Qcdiv r l) m)).
      { unfold fin. rewrite !map_map. apply map_ext. intros r. now apply map2_fdiv. }
      rewrite E. eexists. split; [reflexivity|]. cbn [set_power power to_abs]. split; [reflexivity|].
      split; [|auto]. unfold restored. cbn [set_power power to_abs]. rewrite scale_reals_columns, mag_reals. transitivity (map (map fabs) (fin m)); [|apply fabs_m].
      f_equal. unfold fin. rewrite !map_map. apply map_ext_in. intros r Hin. rewrite map2_fmul.
      rewrite map2_mul_div; auto. rewrite LL. now apply Hr.
  Qed.

  Lemma norm_fn_normalised by_ : valid_name by_ -> normalised by_ nr nc m (norm_fn by_).
  Proof.
    destruct Hr as [Hl Hc]. intros Hv. unfold normalised, norm_fn.
    destruct Hv as [-> | [-> | ->]]; cbn [String.eqb Ascii.eqb Bool.eqb].
    - split; [exact Hr|]. now left.
    - split.
      + split; [now rewrite map_length|]. intros r Hin. apply in_map_iff in Hin. destruct Hin as (r' & <- & Hin).
        rewrite map_length. auto.
      + right; left. split; [reflexivity|]. exists (top (List.concat m)). split; [apply top_greatest, concat_nonempty|].
        intros i j Hi Hj. unfold entry. rewrite (nth_map_lt _ _ _ _ []) by lia.
        rewrite (nth_map_lt _ _ _ _ 0%Qc) by (rewrite Hc; [auto|apply nth_In; lia]). reflexivity.
    - split.
      + split; [now rewrite map_length|]. intros r Hin. apply in_map_iff in Hin. destruct Hin as (r' & <- & Hin).
        rewrite length_map2, map_length, seq_length, (Hc r') by auto. lia.
      + right; right. split; [reflexivity|]. intros j Hj. exists (top (column m j)).
        split; [now apply top_greatest, column_nonempty|]. intros i Hi. unfold entry.
        rewrite (nth_map_lt _ _ _ _ []) by lia.
        assert (List.length (nth i m []) = nc) by (apply Hc, nth_In; lia).
        rewrite (nth_map2 _ _ _ _ 0%Qc 0%Qc) by (rewrite ?map_length, ?seq_length; lia).
        rewrite nth_map_seq by auto. reflexivity.
  Qed.

  Lemma normalize_all_spec l : forall w, restored w -> (forall s, In s l -> valid_name s) -> loud l nc m -> l <> [] ->
    power (norm_all w l) = reals kreal (fin (norm_fn (last l ""%string))) /\
    restored (norm_all w l) /\ wfrq (norm_all w l) = wfrq w /\ wvel (norm_all w l) = wvel w /\
    wn (norm_all w l) = wn w.
  Proof.
    induction l as [|s l IH]; intros w Hw Hv [L1 L2] Hl; [congruence|]. clear Hl.
    destruct (normalize_step w s Hw) as (w' & E & P & R & F1 & F2 & F3).
    - apply Hv; now left.
    - split; intros [->|[]]; [apply L1|apply L2]; now left.
    - unfold norm_all. cbn [fold_left]. rewrite E. cbn [fst].
      destruct l as [|s' l].
      + cbn. auto 10.
      + destruct (IH w') as (A & B & C1 & C2 & C3); auto.
        * intros; apply Hv; now right.
        * split; [intros Hi; apply L1; now right|intros Hi; apply L2; now right].
        * discriminate.
        * change (last (s :: s' :: l) ""%string) with (last (s' :: l) ""%string).
          unfold norm_all in *. rewrite C1, C2, C3. repeat split; auto.
  Qed.
  Lemma restored_fresh w : to_abs w = Scalar f1 -> magnitudes kabs (power w) = fin m -> restored w.
  Proof.
    intros E H. unfold restored. rewrite E, <- H. f_equal. unfold scale.
    rewrite <- (map_id (power w)) at 2. apply map_ext. intros r. rewrite <- (map_id r) at 2. apply map_ext.
    apply (mul_one _ _ _ laws).
  Qed.
  (** A refused name changes nothing as long as the scale is one. *)
  Lemma bad_name_harmless w s : to_abs w = Scalar f1 -> ~ valid_name s -> norm w s = (w, Err KeyError).
  Proof.
    intros E H. unfold norm.
    assert (S : scale kmul (power w) (to_abs w) = power w).
    { rewrite E. unfold scale. rewrite <- (map_id (power w)) at 2. apply map_ext. intros r.
      rewrite <- (map_id r) at 2. apply map_ext. apply (mul_one _ _ _ laws). }
    destruct (String.eqb_spec s "none") as [->|]; [destruct H; now left|].
    destruct (String.eqb_spec s "absolute-maximum") as [->|]; [destruct H; right; now left|].
    destruct (String.eqb_spec s "frequency-maximum") as [->|]; [destruct H; right; now right|].
    rewrite S. unfold set_power. destruct w; reflexivity.
  Qed.
End Norm.

Lemma real_laws : entry_laws fabs fmul (fun x => x).
Proof.
  split; auto. intros [q| | |]; unfold f1; cbn; auto. f_equal. ring.
Qed.

(** * Peaks *)
Lemma argbest_aux_map {A B} (f : A -> B) (b : A -> A -> bool) (b' : B -> B -> bool) l :
  forall i bi best, (forall x y, In x (best :: l) -> In y (best :: l) -> b' (f x) (f y) = b x y) ->
  argbest_aux b' (map f l) i bi (f best) = argbest_aux b l i bi best.
Proof.
  induction l as [|a l IH]; intros i bi best H; cbn [map argbest_aux]; auto.
  rewrite H by (cbn; auto). destruct (b a best).
  - apply IH. intros x y Hx Hy. apply H; cbn in *; tauto.
  - apply IH. intros x y Hx Hy. apply H; cbn in *; tauto.
Qed.
Lemma argbest_map {A B} (f : A -> B) (b : A -> A -> bool) (b' : B -> B -> bool) l :
  (forall x y, In x l -> In y l -> b' (f x) (f y) = b x y) -> argbest b' (map f l) = argbest b l.
Proof. intros H. destruct l as [|a l]; cbn [map argbest]; auto. f_equal. now apply argbest_aux_map. Qed.

Lemma find_peak_fin frqs f n nr nc m vels : rect nr nc m -> m <> [] -> List.length vels = nr ->
  exists ps, find_peak_real (mkTransform n frqs vels (fin m) f) "frequency-maximum" = Ok ps /\
    List.length ps = nc /\
    forall j, j < nc -> exists i, argmax (column m j) = Ok i /\ nth j ps 0%Qc = nth i vels 0%Qc.
Proof.
  intros [Hl Hc] Hne Hv. unfold find_peak_real, find_peak_power. cbn [String.eqb Ascii.eqb Bool.eqb power wvel].
  destruct m as [|r m]; [congruence|].
  change (fin (r :: m)) with (map Fin r :: fin m). cbv iota.
  rewrite map_length, (Hc r) by now left.
  change (map Fin r :: fin m) with (fin (r :: m)).
  assert (C : forall j, j < nc ->
     flat_map (fun r' => match nth_error r' j with Some k => [k] | None => [] end) (fin (r :: m))
     = map Fin (column (r :: m) j)).
  { intros j Hj. unfold fin, column. rewrite flat_map_concat_map, !map_map.
    clear Hl Hv. revert Hc. generalize (r :: m). intros l Hc. induction l as [|x l IH]; auto.
    cbn [map List.concat]. rewrite IH by (intros; apply Hc; now right).
    rewrite nth_error_map, (nth_error_nth' x 0%Qc) by (rewrite Hc; [auto|now left]). reflexivity. }
  set (best := fun j => match argmax (column (r :: m) j) with Ok i => i | Err _ => 0 end).
  assert (Am : forall j, argmax (column (r :: m) j) = Ok (best j)).
  { intros j. unfold best. destruct (argmax_ok (column (r :: m) j)) as [i E]; [now apply column_nonempty|].
    now rewrite E. }
  exists (map (fun j => nth (best j) vels 0%Qc) (seq 0 nc)).
  split; [|split].
  - unfold range. apply mapM_total. intros j Hj. apply in_seq in Hj.
    rewrite C by lia. rewrite (argbest_map Fin (fun x y => Qcltb y x)) by reflexivity.
    change (argbest (fun x y => Qcltb y x) (column (r :: m) j)) with (argmax (column (r :: m) j)).
    rewrite Am. cbn [bind]. apply pyget_nth. apply nth_error_nth'.
    destruct (argmax_spec _ _ (Am j)) as (A & _). rewrite length_column in A. lia.
  - now rewrite map_length, seq_length.
  - intros j Hj. exists (best j). split; auto. rewrite nth_map_seq by auto. reflexivity.
Qed.
Lemma argmax_first l i : argmax l = Ok i -> first_greatest l i.
Proof. intros H. apply argmax_spec in H. exact H. Qed.
Lemma column_entry m j i : i < List.length m -> nth i (column m j) 0%Qc = entry m i j.
Proof. intros. unfold column, entry. now rewrite (nth_map_lt _ _ _ _ []). Qed.
Lemma normalised_argmax by_ nr nc m q j : normalised by_ nr nc m q -> rect nr nc m -> j < nc ->
  loud [by_] nc m -> argmax (column q j) = argmax (column m j).
Proof.
  intros [[Ql Qc0] H] [Ml Mc] Hj [L1 L2].
  assert (G : (exists g, (0 < g)%Qc /\ forall i, i < nr -> entry q i j = (entry m i j / g)%Qc) ->
              argmax (column q j) = argmax (column m j)).
  { intros (g & P & E).
    replace (column q j) with (map (fun x => (x / g)%Qc) (column m j)).
    2:{ apply (nth_ext_len 0%Qc); [now rewrite map_length, !length_column, Ql, Ml|].
        intros i Hi. rewrite map_length, length_column in Hi.
        rewrite (nth_map_lt _ _ _ _ 0%Qc) by now rewrite length_column.
        rewrite !column_entry by lia. rewrite E by lia. reflexivity. }
    unfold argmax. apply argbest_map. intros x y _ _.
    assert (X : (0 < / g)%Qc) by now apply Qcinv_pos.
    destruct (Qcltb_spec y x) as [C|C], (Qcltb_spec (y / g) (x / g)) as [D|D]; auto; exfalso.
    - apply D. now apply Qcmult_lt_compat_r.
    - apply Qcnot_lt_le in C. apply (Qclt_not_le _ _ D). apply Qcmult_le_compat_r; auto. now apply Qclt_le_weak. }
  destruct H as [[-> ->] | [[-> (g & G1 & E)] | [-> E]]]; [reflexivity| |].
  - apply G. exists g. split; [|auto]. destruct L1 as (r & x & A & B & P); [now left|].
    eapply greatest_pos; eauto. apply in_concat; eauto.
  - apply G. destruct (E j Hj) as (g & G1 & E1). exists g. split; [|auto].
    destruct (L2 (or_introl eq_refl) j Hj) as (x & A & P). eapply greatest_pos; eauto.
Qed.

(** * Stacking *)
Lemma length_fin m : List.length (fin m) = List.length m.
Proof. apply map_length. Qed.
Lemma lengthened_same {A} n (l : list A) : List.length l = n -> lengthened n l = Ok l.
Proof. intros H. unfold lengthened. now rewrite H, Nat.eqb_refl. Qed.
Lemma lengthened_ok {A} n (l k : list A) : lengthened n l = Ok k -> List.length k = n /\ (l = k \/ exists x, l = [x] /\ k = repeat x n).
Proof.
  unfold lengthened. destruct (Nat.eqb_spec (List.length l) n) as [E|E].
  - intros Q. inversion Q; subst. auto.
  - destruct l as [|x [|y l]]; intros Q; try discriminate. inversion Q; subst. split; [apply repeat_length|]. right. now exists x.
Qed.
Lemma spread_same {A} nr nc (p : list (list A)) : rect nr nc p -> spread nr nc p = Ok p.
Proof.
  intros [L C]. unfold spread.
  assert (M : mapM (lengthened nc) p = Ok p).
  { clear L. induction p as [|r p IH]; auto. cbn [mapM]. rewrite lengthened_same by (apply C; now left). cbn [bind]. rewrite IH by (intros; apply C; now right). reflexivity. }
  rewrite M. cbn [bind]. now apply lengthened_same.
Qed.
Lemma common_self n : common n n = n.
Proof. unfold common. now destruct (n =? 1). Qed.
Lemma width_rect {A} nr nc (p : list (list A)) : rect nr nc p -> width p = if nr =? 0 then 0 else nc.
Proof. intros [L C]. destruct p as [|r p]; subst nr; auto. cbn. apply C. now left. Qed.
Lemma rect_empty {A} nc nc' (p : list (list A)) : rect 0 nc p -> rect 0 nc' p.
Proof. intros [L _]. destruct p; [|discriminate]. split; auto. intros r []. Qed.
(** two arrays of one shape are used as they are *)
Lemma spread_rect {A} nr nc (p q : list (list A)) : rect nr nc p -> rect nr nc q ->
  let nr' := common (List.length p) (List.length q) in let nc' := common (width p) (width q) in
  spread nr' nc' p = Ok p /\ spread nr' nc' q = Ok q.
Proof.
  intros P Q. cbn zeta. rewrite (width_rect nr nc p), (width_rect nr nc q), !common_self by auto.
  destruct P as [Lp Cp], Q as [Lq Cq]. rewrite Lp, Lq, common_self. destruct (Nat.eqb_spec nr 0) as [->|N].
  - split; apply spread_same; apply (rect_empty nc); split; auto.
  - split; apply spread_same; split; auto.
Qed.
Lemma rect_fin nr nc p : rect nr nc p -> rect nr nc (fin p).
Proof. intros [L C]. split; [now rewrite length_fin|]. intros r I. unfold fin in I. apply in_map_iff in I as (x & <- & I). rewrite map_length. auto. Qed.
Lemma nth_repeat_lt {A} (x d : A) n i : i < n -> nth i (repeat x n) d = x.
Proof. revert i. induction n as [|n IH]; intros i H; [lia|]. destruct i; auto. cbn. apply IH. lia. Qed.
Lemma lengthened_spec {A} n (l : list A) d :
  (List.length l = n \/ List.length l = 1 -> exists k, lengthened n l = Ok k /\ List.length k = n /\
     forall i, i < n -> nth i k d = nth (if Nat.eqb (List.length l) 1 then 0 else i) l d) /\
  (List.length l <> n -> List.length l <> 1 -> lengthened n l = Err ValueError).
Proof.
  unfold lengthened. split.
  - intros H. destruct (Nat.eqb_spec (List.length l) n) as [E|E].
    + exists l. split; auto. split; auto. intros i Hi. destruct (Nat.eqb_spec (List.length l) 1); auto. replace i with 0 by lia. reflexivity.
    + destruct H as [H|H]; [lia|]. destruct l as [|x [|y l]]; try discriminate. exists (repeat x n). split; auto. split; [apply repeat_length|].
      intros i Hi. now rewrite nth_repeat_lt.
  - intros H1 H2. apply Nat.eqb_neq in H1. rewrite H1. destruct l as [|x [|y l]]; auto. cbn in H2. lia.
Qed.
Lemma mapM_err_hd {A B} (f : A -> result B) a l e : f a = Err e -> mapM f (a :: l) = Err e.
Proof. intros H. cbn. now rewrite H. Qed.
Lemma rows_spec nc c (p : list (list flt)) : (forall r, In r p -> List.length r = c) -> (c = nc \/ c = 1) ->
  exists rows, mapM (lengthened nc) p = Ok rows /\ List.length rows = List.length p /\ (forall x, In x rows -> List.length x = nc) /\
    forall i j, i < List.length p -> j < nc -> nth j (nth i rows []) NaN = nth (if Nat.eqb c 1 then 0 else j) (nth i p []) NaN.
Proof.
  intros C Hc. induction p as [|x p IH].
  - exists []. split; auto. split; auto. split; [intros ? []|cbn; intros; lia].
  - destruct (IH (fun y I => C y (or_intror I))) as (rows & M & Lr & Cr & E).
    assert (Lx : List.length x = c) by (apply C; now left). destruct (lengthened_spec nc x NaN) as [A _].
    destruct A as (k & A1 & A2 & A3); [rewrite Lx; tauto|]. exists (k :: rows). cbn [mapM]. rewrite A1. cbn [bind]. rewrite M. cbn [bind].
    split; auto. split; [cbn; lia|]. split; [intros y [<-|I]; auto|].
    intros [|i] j Hi Hj; cbn [nth]; [rewrite A3 by auto; now rewrite Lx|apply E; auto; cbn in Hi; lia].
Qed.
Lemma spread_spec nr nc r c (p : list (list flt)) : rect r c p -> r <> 0 ->
  ((r = nr \/ r = 1) -> (c = nc \/ c = 1) -> exists k, spread nr nc p = Ok k /\ rect nr nc k /\
     forall i j, i < nr -> j < nc -> nth j (nth i k []) NaN = provided p r c i j) /\
  (~ ((r = nr \/ r = 1) /\ (c = nc \/ c = 1)) -> spread nr nc p = Err ValueError).
Proof.
  intros [L C] R. unfold spread. split.
  - intros Hr Hc.
    pose proof (rows_spec nc c p C Hc) as M. rewrite L in M.
    destruct M as (rows & M & Lr & Cr & E). rewrite M. cbn [bind].
    destruct (lengthened_spec nr rows []) as [A _].
    destruct A as (k & A1 & A2 & A3); [rewrite Lr; tauto|]. exists k. split; auto. split.
    + split; auto. intros y I. apply (In_nth _ _ []) in I as (i & Hi & <-). rewrite A3 by lia. apply Cr, nth_In. destruct (Nat.eqb_spec (List.length rows) 1); lia.
    + intros i j Hi Hj. rewrite A3 by auto. rewrite Lr. unfold provided. apply E; auto. destruct (Nat.eqb_spec r 1); lia.
  - intros N. destruct p as [|x p]; [cbn in L; lia|].
    destruct (Nat.eq_dec c nc) as [Hc|Hc]; [|destruct (Nat.eq_dec c 1) as [Hc1|Hc1]].
    3: { rewrite (mapM_err_hd _ _ _ ValueError); auto. apply (lengthened_spec nc x NaN); rewrite (C x) by (now left); auto. }
    all: assert (Hcc : c = nc \/ c = 1) by auto; destruct (rows_spec nc c (x :: p) C Hcc) as (rows & M & Lr & _); rewrite M; cbn [bind];
      apply (lengthened_spec nr rows []); rewrite Lr, L; intros Q; apply N; auto.
Qed.
(** one step on finite entries *)
Definition step_q (n : Z) (p : list (list Qc)) (k : Z) (q : list (list Qc)) : list (list Qc) :=
  map2 (map2 (fun x y => (x * QcZ n + y * QcZ k) / QcZ (n + k))%Qc) p q.
Lemma stack_fin w nr nc p k q : power w = fin p -> rect nr nc p -> rect nr nc q -> (wn w + k <> 0)%Z ->
  stack w (mkStackable (Some (fin q)) (Some k)) =
    (mkTransform (wn w + k) (wfrq w) (wvel w) (fin (step_q (wn w) p k q)) (to_abs w), Ok tt).
Proof.
  intros Hp Rp Rq Hn. unfold stack. cbn [o_power o_n]. rewrite Hp.
  destruct (spread_rect nr nc (fin p) (fin q) (rect_fin _ _ _ Rp) (rect_fin _ _ _ Rq)) as [Sp Sq]. cbn zeta in Sp, Sq |- *. rewrite Sp, Sq. clear Sp Sq.
  assert (N : QcZ (wn w + k) <> 0%Qc) by (intros E; apply Hn; apply QcZ_inj; now rewrite E, QcZ_0).
  f_equal. f_equal. unfold step_q, fin. clear Hp.
  destruct Rp as [Lp Cp], Rq as [Lq Cq]. clear Lp Lq. revert q Cq.
  induction p as [|r p IH]; intros [|s q] Cq; cbn [map map2]; auto.
  rewrite IH; [|intros; apply Cp; now right|intros; apply Cq; now right]. f_equal.
  clear - N. revert s. induction r as [|x r IH]; intros [|y s]; cbn [map map2]; auto.
  rewrite IH. cbn [fmul fadd]. now rewrite fdiv_Fin.
Qed.
Lemma step_q_rect n p k q nr nc : rect nr nc p -> rect nr nc q -> rect nr nc (step_q n p k q).
Proof.
  intros [Lp Cp] [Lq Cq]. unfold step_q. split; [rewrite length_map2; lia|].
  intros r H. apply (In_nth _ _ []) in H. destruct H as (i & Hi & <-). rewrite length_map2 in Hi.
  rewrite (nth_map2 _ _ _ _ [] []) by lia. rewrite length_map2, Cp, Cq by (apply nth_In; lia). lia.
Qed.
Lemma step_q_entry n p k q nr nc i j : rect nr nc p -> rect nr nc q -> i < nr -> j < nc ->
  entry (step_q n p k q) i j = ((entry p i j * QcZ n + entry q i j * QcZ k) / QcZ (n + k))%Qc.
Proof.
  intros [Lp Cp] [Lq Cq] Hi Hj. unfold entry, step_q.
  assert (List.length (nth i p []) = nc) by (apply Cp, nth_In; lia).
  assert (List.length (nth i q []) = nc) by (apply Cq, nth_In; lia).
  rewrite (nth_map2 _ _ _ _ [] []) by lia. rewrite (nth_map2 _ _ _ _ 0%Qc 0%Qc) by lia. reflexivity.
Qed.
Lemma total_cons k q l : total ((k, q) :: l) = (k + total l)%Z.
Proof. reflexivity. Qed.
Lemma total_nonneg l : (forall k q, In (k, q) l -> (0 <= k)%Z) -> (0 <= total l)%Z.
Proof.
  induction l as [|[k q] l IH]; intros H; [unfold total; cbn; lia|]. rewrite total_cons.
  specialize (H k q (or_introl eq_refl)) as H0. assert (0 <= total l)%Z by (apply IH; intros; eapply H; right; eauto). lia.
Qed.
Definition wsum (l : list (Z * list (list Qc))) i j : Qc :=
  Qcsum (map (fun p => QcZ (fst p) * entry (snd p) i j)%Qc l).
Lemma stack_many_fin nr nc l : forall w p, power w = fin p -> rect nr nc p -> (0 <= wn w)%Z ->
  (forall k q, In (k, q) l -> (0 <= k)%Z /\ rect nr nc q) ->
  match l with (k, _) :: _ => (0 < wn w + k)%Z | [] => False end ->
  exists w' p', stack_many w (others l) = (w', Ok tt) /\ power w' = fin p' /\ rect nr nc p' /\
    wn w' = (wn w + total l)%Z /\ wfrq w' = wfrq w /\ wvel w' = wvel w /\ to_abs w' = to_abs w /\
    forall i j, i < nr -> j < nc ->
      entry p' i j = ((entry p i j * QcZ (wn w) + wsum l i j) / QcZ (wn w + total l))%Qc.
Proof.
  induction l as [|[k q] l IH]; intros w p Hp Rp Hn Hl Hk; [contradiction|].
  destruct (Hl k q (or_introl eq_refl)) as [K0 Rq].
  unfold others. cbn [map stack_many fst snd].
  rewrite (stack_fin w nr nc p k q) by (auto; lia).
  set (w1 := mkTransform _ _ _ _ _). pose proof (step_q_rect (wn w) p k q nr nc Rp Rq) as R1.
  assert (N : QcZ (wn w + k) <> 0%Qc) by (intros E; assert (wn w + k = 0)%Z by (apply QcZ_inj; now rewrite E, QcZ_0); lia).
  destruct l as [|[k' q'] l].
  - exists w1, (step_q (wn w) p k q). cbn [map stack_many]. split; [reflexivity|]. split; [reflexivity|].
    split; [exact R1|]. unfold total, wsum. cbn [fold_right map fst snd Qcsum]. rewrite Z.add_0_r.
    repeat (split; [reflexivity|]). intros i j Hi Hj. rewrite (step_q_entry _ _ _ _ nr nc) by auto.
    cbn. f_equal. ring.
  - destruct (IH w1 (step_q (wn w) p k q)) as (w' & p' & E & Ep & Rp' & En & F1 & F2 & F3 & Ee).
    + reflexivity.
    + exact R1.
    + cbn. lia.
    + intros. apply (Hl k0). now right.
    + cbn. destruct (Hl k' q'); [right; now left|]. lia.
    + exists w', p'. change (map _ ((k', q') :: l)) with (others ((k', q') :: l)).
      split; [exact E|]. split; [exact Ep|]. split; [exact Rp'|]. rewrite En, F1, F2, F3.
      change (wn w1) with (wn w + k)%Z. rewrite (total_cons k q), Z.add_assoc. repeat (split; [reflexivity|]).
      intros i j Hi Hj. rewrite Ee by auto. change (wn w1) with (wn w + k)%Z. rewrite (step_q_entry _ _ _ _ nr nc) by auto.
      assert (T : (0 <= total ((k', q') :: l))%Z).
      { apply total_nonneg. intros. apply (Hl k0 q0). now right. }
      set (t := total _) in *.
      assert (N2 : QcZ (wn w + k + t) <> 0%Qc) by (intros X; assert (wn w + k + t = 0)%Z by (apply QcZ_inj; now rewrite X, QcZ_0); lia).
      change (wsum ((k, q) :: (k', q') :: l) i j) with (QcZ k * entry q i j + wsum ((k', q') :: l) i j)%Qc.
      f_equal. set (x := wsum ((k', q') :: l) i j). field. auto.
Qed.
Lemma total_perm l l' : Permutation l l' -> total l = total l'.
Proof.
  intros P. unfold total. induction P; cbn [map fold_right]; try lia.
Qed.
Lemma wsum_perm l l' i j : Permutation l l' -> wsum l i j = wsum l' i j.
Proof. intros. apply Qcsum_perm. now apply Permutation_map. Qed.
Lemma entry_ext nr nc p q : rect nr nc p -> rect nr nc q ->
  (forall i j, i < nr -> j < nc -> entry p i j = entry q i j) -> p = q.
Proof.
  intros [Lp Cp] [Lq Cq] H. apply (nth_ext_len []); [congruence|]. intros i Hi.
  apply (nth_ext_len 0%Qc).
  - rewrite Cp, Cq by (apply nth_In; lia). reflexivity.
  - intros j Hj. rewrite Cp in Hj by (apply nth_In; lia). apply H; lia.
Qed.
