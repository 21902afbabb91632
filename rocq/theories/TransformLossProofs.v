From Verif Require Import TransformModel TransformSpec PyFacts NumFacts SeriesProofs ArrayMatrixProofs TransformProofs TransformNormProofs TransformLossSpec.
Local Open Scope nat_scope.
Local Open Scope list_scope.

Local Notation mask := (fun (b : bool) (x : Qc) => if b then NaN else Fin x).

Lemma last_in (l : list string) : l <> [] -> In (last l ""%string) l.
Proof. destruct l as [|s l]; [congruence|]. intros _. revert s. induction l as [|a l IH]; intros s; [now left|]. right. apply IH. Qed.
Lemma fmax_nan l : In NaN l -> fmax l = Ok NaN.
Proof.
  destruct l as [|a l]; [intros []|]. cbn [fmax]. intros H. f_equal.
  assert (S : forall t, fold_left fmax2 t NaN = NaN) by (induction t; cbn; auto).
  revert a H. induction l as [|b l IH]; intros a H.
  - destruct H as [H|H]; [subst a; reflexivity|destruct H].
  - cbn [fold_left]. destruct H as [H|[H|H]].
    + subst a. exact (S (b :: l)).
    + subst b. apply IH. left. destruct a; reflexivity.
    + apply IH. right. exact H.
Qed.
Lemma masked_none nc m : (forall r, In r m -> List.length r = nc) -> masked (repeat false nc) m = fin m.
Proof.
  intros H. unfold masked, fin. apply map_ext_in. intros r Hin. rewrite <- (H r Hin). clear. induction r; cbn; [reflexivity|]. now rewrite IHr.
Qed.
Lemma mask_true_row : forall r n, List.length r = n -> map2 mask (repeat true n) r = map (fun _ => NaN) r.
Proof. induction r as [|x r IH]; intros [|n] H; try discriminate; cbn; [reflexivity|]. f_equal. apply IH. now injection H. Qed.

Section Loss.
  Context {K : Type} (kabs : K -> flt) (kmul : K -> flt -> K) (kreal : flt -> K).
  Hypothesis laws : entry_laws kabs kmul kreal.
  Local Notation norm := (normalize kabs kmul kreal).
  Local Notation norm_all := (normalize_all kabs kmul kreal).
  Variables (nr nc : nat) (m : list (list Qc)).
  Hypothesis (Hr : rect nr nc m) (Hne : m <> []) (Hnc : 0 < nc) (Hnn : nonneg m).

  Let tops := map (fun j => top (column m j)) (seq 0 nc).
  Let quiet := silences nc m.

  Definition restores (lost : list bool) (w : transform K) : Prop :=
    magnitudes kabs (scale kmul (power w) (to_abs w)) = masked lost m.

  Lemma tops_length : List.length tops = nc.
  Proof. unfold tops. now rewrite map_length, seq_length. Qed.
  Lemma quiet_length : List.length quiet = nc.
  Proof. unfold quiet, silences. now rewrite map_length, seq_length. Qed.
  Lemma column_in j x : In x (column m j) -> j < nc -> exists r, In r m /\ In x r.
  Proof. intros I Hj. unfold column in I. apply in_map_iff in I as (r & <- & Hin). exists r. split; [exact Hin|]. apply nth_In. destruct Hr as [_ H]. rewrite (H r Hin). exact Hj. Qed.
  Lemma silent_top j : j < nc -> silent m j = Qceqb (top (column m j)) 0%Qc.
  Proof.
    intros Hj. destruct (top_greatest _ (column_nonempty m j Hne)) as [G1 G2].
    destruct (Qceqb_spec (top (column m j)) 0) as [E|E].
    - apply forallb_forall. intros x I. apply Qceqb_eq. apply Qcle_antisym; [rewrite <- E; apply G2; exact I|].
      destruct (column_in j x I Hj) as (r & A & B). exact (Hnn r x A B).
    - apply Bool.not_true_is_false. intros S. apply E. unfold silent in S. rewrite forallb_forall in S. apply Qceqb_eq. apply S. exact G1.
  Qed.
  Lemma quiet_tops : quiet = map (fun t => Qceqb t 0%Qc) tops.
  Proof. unfold quiet, silences, tops. rewrite map_map. apply map_ext_in. intros j Hj. apply in_seq in Hj. apply silent_top. lia. Qed.
  Lemma all_quiet : forallb (fun b => b) quiet = Qceqb (top (List.concat m)) 0%Qc.
  Proof.
    destruct (top_greatest _ (concat_nonempty nr nc m Hr Hne Hnc Hnn)) as [G1 G2].
    destruct (Qceqb_spec (top (List.concat m)) 0) as [E|E].
    - apply forallb_forall. intros b I. unfold quiet, silences in I. apply in_map_iff in I as (j & <- & Hj). apply in_seq in Hj.
      apply forallb_forall. intros x I. destruct (column_in j x I ltac:(lia)) as (r & A & B). apply Qceqb_eq.
      apply Qcle_antisym; [|exact (Hnn r x A B)]. rewrite <- E. apply G2. apply in_concat. eauto.
    - apply Bool.not_true_is_false. intros S. apply E. rewrite forallb_forall in S.
      apply in_concat in G1 as (r & A & B). apply (In_nth _ _ 0%Qc) in B as (j & Hj & B). destruct Hr as [_ H]. rewrite (H r A) in Hj.
      assert (Q : silent m j = true) by (apply S; unfold quiet, silences; apply in_map_iff; exists j; split; [reflexivity|apply in_seq; lia]).
      unfold silent in Q. rewrite forallb_forall in Q. apply Qceqb_eq. apply Q. unfold column. apply in_map_iff. exists r. auto.
  Qed.
  Lemma fabs_masked lost : map (map fabs) (masked lost m) = masked lost m.
  Proof.
    unfold masked. rewrite map_map. apply map_ext_in. intros r Hin.
    assert (P : forall x, In x r -> (0 <= x)%Qc) by (intros x Hx; exact (Hnn r x Hin Hx)). clear Hin. revert lost.
    induction r as [|x r IH]; intros [|b lost]; cbn [map2 map]; try reflexivity. f_equal.
    - destruct b; [reflexivity|]. cbn [fabs]. f_equal. apply Qcabs_pos. apply P. now left.
    - apply IH. intros y Hy. apply P. now right.
  Qed.
  Lemma lose_length lost by_ : List.length lost = nc -> List.length (lose quiet lost by_) = nc.
  Proof.
    intros L. unfold lose. destruct (String.eqb by_ "frequency-maximum").
    - rewrite length_map2, L, quiet_length. apply Nat.min_id.
    - destruct (String.eqb by_ "absolute-maximum"); [|exact L]. destruct (_ || _); [rewrite map_length|]; exact L.
  Qed.
  Lemma masked_column lost j : List.length lost = nc -> j < nc ->
    map (fun r => nth j r NaN) (masked lost m) = map (fun x => if nth j lost false then NaN else Fin x) (column m j).
  Proof.
    intros L Hj. unfold masked, column. rewrite !map_map. apply map_ext_in. intros r Hin. destruct Hr as [_ H].
    rewrite (nth_map2 _ _ _ _ false 0%Qc) by (rewrite ?L, ?(H r Hin); exact Hj). reflexivity.
  Qed.
  Lemma column_max_masked lost : List.length lost = nc -> column_max (masked lost m) = Ok (map2 mask lost tops).
  Proof.
    intros L. unfold column_max. destruct (masked lost m) as [|r0 m0] eqn:E; [unfold masked in E; apply map_eq_nil in E; contradiction|].
    assert (L0 : List.length r0 = nc).
    { assert (I : In r0 (masked lost m)) by (rewrite E; now left). unfold masked in I. apply in_map_iff in I as (r & <- & Hin).
      destruct Hr as [_ H]. rewrite length_map2, L, (H r Hin). apply Nat.min_id. }
    rewrite L0, <- E. unfold range.
    assert (Q : map2 mask lost tops = map (fun j => if nth j lost false then NaN else Fin (top (column m j))) (seq 0 nc)).
    { apply (nth_ext _ _ NaN NaN); [rewrite length_map2, L, tops_length, map_length, seq_length; lia|]. intros j Hj.
      rewrite length_map2, L, tops_length, Nat.min_id in Hj. rewrite nth_map_seq by exact Hj.
      rewrite (nth_map2 _ _ _ _ false 0%Qc) by (rewrite ?L, ?tops_length; exact Hj). unfold tops. rewrite nth_map_seq by exact Hj. reflexivity. }
    rewrite Q. apply mapM_total. intros j Hj. apply in_seq in Hj. rewrite (masked_column lost j L) by lia.
    destruct (nth j lost false).
    - apply fmax_nan. destruct (column m j) as [|x c] eqn:C; [elim (column_nonempty m j Hne C)|]. now left.
    - apply fmax_top. now apply column_nonempty.
  Qed.
  Lemma fmax_masked lost : List.length lost = nc ->
    fmax (List.concat (masked lost m)) = Ok (if existsb (fun b => b) lost then NaN else Fin (top (List.concat m))).
  Proof.
    intros L. destruct (existsb (fun b => b) lost) eqn:E.
    - apply fmax_nan. apply existsb_exists in E as (b & I & ->). apply (In_nth _ _ false) in I as (j & Hj & B). rewrite L in Hj.
      destruct m as [|r m'] eqn:M; [contradiction|]. cbn [masked map List.concat]. apply in_or_app. left.
      destruct Hr as [_ H]. pose proof (H r (or_introl eq_refl)) as Hl.
      assert (N : nth j (map2 mask lost r) NaN = NaN).
      { rewrite (nth_map2 _ _ _ _ false 0%Qc) by lia. rewrite B. reflexivity. }
      assert (I : In (nth j (map2 mask lost r) NaN) (map2 mask lost r)) by (apply nth_In; rewrite length_map2; lia).
      rewrite N in I. exact I.
    - assert (Q : lost = repeat false nc).
      { rewrite <- L. clear -E. induction lost as [|[] lost IH]; cbn in *; [reflexivity|discriminate|]. f_equal. auto. }
      rewrite Q, (masked_none nc) by apply Hr. rewrite concat_fin. apply fmax_top. apply (concat_nonempty nr nc m Hr Hne Hnc Hnn).
  Qed.
  Lemma row_freq : forall (ts : list Qc) (lost : list bool) (r : list Qc), (forall x t, In (x, t) (combine r ts) -> t = 0%Qc -> x = 0%Qc) ->
    List.length lost = List.length ts -> List.length r = List.length ts ->
    map2 fdiv (map2 mask lost r) (map2 mask lost ts) = map2 mask (map2 orb lost (map (fun t => Qceqb t 0%Qc) ts)) (map2 Qcdiv r ts)
    /\ map2 fmul (map2 mask (map2 orb lost (map (fun t => Qceqb t 0%Qc) ts)) (map2 Qcdiv r ts)) (map2 mask lost ts)
       = map2 mask (map2 orb lost (map (fun t => Qceqb t 0%Qc) ts)) r.
  Proof.
    induction ts as [|t ts IH]; intros [|b lost] [|x r] H L1 L2; try discriminate; [split; reflexivity|].
    destruct (IH lost r) as [A B]; [intros y s I; apply H; now right|now injection L1|now injection L2|].
    cbn [map2 map]. rewrite A, B. split; f_equal.
    - destruct b; cbn [orb]; [reflexivity|]. cbn [fdiv]. destruct (Qceqb_spec t 0) as [E|E]; [|reflexivity].
      rewrite (H x t (or_introl eq_refl) E). unfold sgn_inf. destruct (Qceqb_spec 0 0); [reflexivity|contradiction].
    - destruct b; cbn [orb]; [reflexivity|]. destruct (Qceqb_spec t 0) as [E|E]; [reflexivity|]. cbn [fmul]. f_equal. now field.
  Qed.
  Lemma top_zero r x t : In r m -> In (x, t) (combine r tops) -> t = 0%Qc -> x = 0%Qc.
  Proof.
    intros Hin I E. apply (In_nth _ _ (0%Qc, 0%Qc)) in I as (j & Hj & Q). destruct Hr as [_ H].
    rewrite combine_length, tops_length, (H r Hin), Nat.min_id in Hj.
    rewrite combine_nth in Q by (rewrite tops_length; apply H; exact Hin). injection Q as Qx Qt.
    unfold tops in Qt. rewrite nth_map_seq in Qt by exact Hj. cbn [Nat.add] in Qt.
    destruct (top_greatest _ (column_nonempty m j Hne)) as [_ G]. rewrite Qt, E in G.
    apply Qcle_antisym.
    - apply G. unfold column. apply in_map_iff. exists r. auto.
    - apply (Hnn r); [exact Hin|]. rewrite <- Qx. apply nth_In. rewrite (H r Hin). exact Hj.
  Qed.

  Lemma step_loss lost w by_ : List.length lost = nc -> restores lost w -> valid_name by_ ->
    exists w', norm w by_ = (w', Ok tt) /\ power w' = reals kreal (masked (lose quiet lost by_) (norm_fn nc m by_)) /\
      restores (lose quiet lost by_) w' /\ wfrq w' = wfrq w /\ wvel w' = wvel w.
  Proof.
    intros L Hw Hv. unfold restores in Hw. unfold norm, norm_fn. rewrite Hw.
    destruct Hv as [-> | [-> | ->]]; cbn [String.eqb Ascii.eqb Bool.eqb]; unfold lose; cbn [String.eqb Ascii.eqb Bool.eqb].
    - eexists. split; [reflexivity|]. cbn [set_power power to_abs wfrq wvel]. split; [reflexivity|]. split; [|auto].
      unfold restores. cbn [set_power power to_abs]. rewrite (scale_reals_scalar kabs kmul kreal laws), (mag_reals kabs kmul kreal laws).
      transitivity (map (map fabs) (masked lost m)); [|apply fabs_masked]. f_equal. rewrite <- (map_id (masked lost m)) at 2.
      apply map_ext. intros r. rewrite <- (map_id r) at 2. apply map_ext. intros [x| | |]; cbn; try reflexivity.
      + f_equal. ring.
    - rewrite (fmax_masked lost L), all_quiet.
      destruct (existsb (fun b => b) lost) eqn:Ex; cbn [orb].
      + assert (Q : map (fun _ : bool => true) lost = repeat true nc) by (rewrite <- L; clear; induction lost; cbn; [|rewrite IHlost]; reflexivity).
        rewrite Q.
        assert (A : forall p : list (list Qc), (forall r, In r p -> List.length r = nc) -> masked (repeat true nc) p = map (map (fun _ => NaN)) p).
        { intros p H. unfold masked. apply map_ext_in. intros r Hin. apply mask_true_row. apply H. exact Hin. }
        assert (B : map (map (fun y => fdiv y NaN)) (masked lost m) = map (map (fun _ : Qc => NaN)) m).
        { unfold masked. rewrite map_map. apply map_ext_in. intros r Hin. destruct Hr as [_ H]. rewrite <- (H r Hin) in L. clear -L. revert lost L.
          induction r as [|x r IH]; intros [|b lost] L; try discriminate; cbn [map2 map]; [reflexivity|]. f_equal; [destruct b; reflexivity|]. apply IH. now injection L. }
        rewrite B. eexists. split; [reflexivity|]. cbn [set_power power to_abs wfrq wvel]. split; [|split; [|auto]].
        * f_equal. rewrite A; [rewrite map_map; apply map_ext; intros r; rewrite map_map; reflexivity|].
          intros r Hin. apply in_map_iff in Hin as (r' & <- & Hin). rewrite map_length. destruct Hr as [_ H]. apply H. exact Hin.
        * unfold restores. cbn [set_power power to_abs]. rewrite (scale_reals_scalar kabs kmul kreal laws), (mag_reals kabs kmul kreal laws).
          rewrite A by apply Hr. rewrite !map_map. apply map_ext. intros r. rewrite !map_map. reflexivity.
      + assert (Q : lost = repeat false nc).
        { rewrite <- L. clear -Ex. induction lost as [|[] lost IH]; cbn in *; [reflexivity|discriminate|]. f_equal. auto. }
        rewrite Q. rewrite (masked_none nc m) by apply Hr. set (g := top (List.concat m)) in *.
        destruct (Qceqb_spec g 0) as [G|G].
        * assert (Z : forall r x, In r m -> In x r -> x = 0%Qc).
          { intros r x A B. apply Qcle_antisym; [|exact (Hnn r x A B)]. rewrite <- G. apply (top_greatest _ (concat_nonempty nr nc m Hr Hne Hnc Hnn)). apply in_concat. eauto. }
          assert (MR : map (fun _ : bool => true) (repeat false nc) = repeat true nc) by (clear; induction nc as [|n IH]; cbn; [reflexivity|rewrite IH; reflexivity]).
          rewrite MR.
          assert (A : forall p : list (list Qc), (forall r, In r p -> List.length r = nc) -> masked (repeat true nc) p = map (map (fun _ => NaN)) p).
          { intros p H. unfold masked. apply map_ext_in. intros r Hin. apply mask_true_row. apply H. exact Hin. }
          assert (B : map (map (fun y => fdiv y (Fin g))) (fin m) = map (map (fun _ : Qc => NaN)) m).
          { unfold fin. rewrite map_map. apply map_ext_in. intros r Hin. rewrite map_map. apply map_ext_in. intros x Hx. rewrite (Z r x Hin Hx), G.
            cbn [fdiv]. unfold sgn_inf. destruct (Qceqb_spec 0 0); [reflexivity|contradiction]. }
          rewrite B. eexists. split; [reflexivity|]. cbn [set_power power to_abs wfrq wvel]. split; [|split; [|auto]].
          -- f_equal. rewrite A; [rewrite map_map; apply map_ext; intros r; rewrite map_map; reflexivity|].
             intros r Hin. apply in_map_iff in Hin as (r' & <- & Hin). rewrite map_length. destruct Hr as [_ H]. apply H. exact Hin.
          -- unfold restores. cbn [set_power power to_abs]. rewrite (scale_reals_scalar kabs kmul kreal laws), (mag_reals kabs kmul kreal laws).
             rewrite A by apply Hr. rewrite !map_map. apply map_ext. intros r. rewrite !map_map. reflexivity.
        * assert (E : map (map (fun y => fdiv y (Fin g))) (fin m) = fin (map (map (fun y => (y / g)%Qc)) m)).
          { unfold fin. rewrite !map_map. apply map_ext. intros r'. rewrite !map_map. apply map_ext. intros y. now apply fdiv_Fin. }
          rewrite E. eexists. split; [reflexivity|]. cbn [set_power power to_abs wfrq wvel]. split; [|split; [|auto]].
          -- f_equal. symmetry. apply masked_none. intros r Hin. apply in_map_iff in Hin as (r' & <- & Hin). rewrite map_length. destruct Hr as [_ H]. apply H. exact Hin.
          -- unfold restores. cbn [set_power power to_abs]. rewrite (scale_reals_scalar kabs kmul kreal laws), (mag_reals kabs kmul kreal laws).
             rewrite (masked_none nc m) by apply Hr. transitivity (map (map fabs) (fin m)); [|apply (fabs_m m Hnn)].
             f_equal. unfold fin. rewrite !map_map. apply map_ext. intros r'. rewrite !map_map. apply map_ext. intros y. cbn [fmul]. f_equal. now field.
    - rewrite (column_max_masked lost L), quiet_tops. fold tops. destruct Hr as [_ Hc].
      assert (R : forall r, In r m ->
        map2 fdiv (map2 mask lost r) (map2 mask lost tops) = map2 mask (map2 orb lost (map (fun t => Qceqb t 0%Qc) tops)) (map2 Qcdiv r tops)
        /\ map2 fmul (map2 mask (map2 orb lost (map (fun t => Qceqb t 0%Qc) tops)) (map2 Qcdiv r tops)) (map2 mask lost tops)
           = map2 mask (map2 orb lost (map (fun t => Qceqb t 0%Qc) tops)) r).
      { intros r Hin. apply row_freq; [intros x t; apply top_zero; exact Hin|rewrite tops_length; exact L|rewrite tops_length; apply Hc; exact Hin]. }
      eexists. split; [reflexivity|]. cbn [set_power power to_abs wfrq wvel]. split; [|split; [|auto]].
      + f_equal. unfold masked. rewrite !map_map. apply map_ext_in. intros r Hin. apply R. exact Hin.
      + unfold restores. cbn [set_power power to_abs]. rewrite (scale_reals_columns kabs kmul kreal laws), (mag_reals kabs kmul kreal laws).
        transitivity (map (map fabs) (masked (map2 orb lost (map (fun t => Qceqb t 0%Qc) tops)) m)); [|apply fabs_masked]. f_equal.
        unfold masked. rewrite !map_map. apply map_ext_in. intros r Hin. destruct (R r Hin) as [R1 R2]. rewrite R1. exact R2.
  Qed.

  Lemma all_loss : forall l lost w, List.length lost = nc -> restores lost w -> (forall s, In s l -> valid_name s) ->
    restores (fold_left (lose quiet) l lost) (norm_all w l) /\ wfrq (norm_all w l) = wfrq w /\ wvel (norm_all w l) = wvel w /\
    (l <> [] -> power (norm_all w l) = reals kreal (masked (fold_left (lose quiet) l lost) (norm_fn nc m (last l ""%string)))).
  Proof.
    induction l as [|s l IH]; intros lost w L Hw Hv.
    - repeat split; auto. congruence.
    - destruct (step_loss lost w s L Hw) as (w' & E & P & R & F1 & F2); [apply Hv; now left|].
      unfold normalize_all. cbn [fold_left]. rewrite E. cbn [fst]. fold (norm_all w' l).
      destruct (IH (lose quiet lost s) w' (lose_length lost s L) R) as (A & B & C & D); [intros x Hx; apply Hv; now right|].
      split; [exact A|]. split; [now rewrite B|]. split; [now rewrite C|]. intros _.
      destruct l as [|s' l]; [exact P|]. apply D. discriminate.
  Qed.
  Lemma history_loss l w : to_abs w = Scalar f1 -> magnitudes kabs (power w) = fin m -> l <> [] -> (forall s, In s l -> valid_name s) ->
    exists q, power (norm_all w l) = reals kreal (masked (fold_left (lose quiet) l (repeat false nc)) q) /\
      normalised (last l ""%string) nr nc m q /\ wfrq (norm_all w l) = wfrq w /\ wvel (norm_all w l) = wvel w.
  Proof.
    intros Ht Hp Hl Hv. destruct (all_loss l (repeat false nc) w) as (_ & A & B & C).
    - apply repeat_length.
    - unfold restores. rewrite (masked_none nc m) by apply Hr. exact (restored_fresh kabs kmul kreal laws m w Ht Hp).
    - exact Hv.
    - exists (norm_fn nc m (last l ""%string)). split; [apply C; exact Hl|]. split; [|auto].
      apply (norm_fn_normalised nr nc m Hr Hne Hnc Hnn). apply Hv. destruct l; [congruence|]. clear.
      revert s. induction l as [|a l IH]; intros s; [now left|]. right. apply IH.
  Qed.
End Loss.

(** * Refused calls *)
Section Refused.
  Context {K : Type} (kabs : K -> flt) (kmul : K -> flt -> K) (kreal : flt -> K).
  Hypothesis laws : entry_laws kabs kmul kreal.
  Local Notation norm := (normalize kabs kmul kreal).
  Local Notation norm_all := (normalize_all kabs kmul kreal).

  Lemma norm_all_app w l l' : norm_all w (l ++ l') = norm_all (norm_all w l) l'.
  Proof. unfold normalize_all. apply fold_left_app. Qed.
  Lemma refused_step w s : ~ valid_name s -> norm w s = (set_power w (scale kmul (power w) (to_abs w)) (to_abs w), Err KeyError).
  Proof.
    intros H. unfold norm.
    destruct (String.eqb_spec s "none") as [->|]; [destruct H; now left|].
    destruct (String.eqb_spec s "absolute-maximum") as [->|]; [destruct H; right; now left|].
    destruct (String.eqb_spec s "frequency-maximum") as [->|]; [destruct H; right; now right|]. reflexivity.
  Qed.

  Variables (nr nc : nat) (m : list (list Qc)).
  Hypothesis (Hr : rect nr nc m) (Hne : m <> []) (Hnc : 0 < nc) (Hnn : nonneg m).
  Let tops := map (fun j => top (column m j)) (seq 0 nc).

  Definition blown (by_ : string) : list (list Qc) :=
    if String.eqb by_ "none" then m
    else if String.eqb by_ "absolute-maximum" then map (map (fun y => y * top (List.concat m))%Qc) m
    else map (fun r => map2 Qcmult r tops) m.

  Lemma blown_inflated by_ : valid_name by_ -> inflated by_ nr nc m (blown by_).
  Proof.
    pose proof Hr as [H1 H2]. intros [-> | [-> | ->]]; unfold blown; cbn [String.eqb Ascii.eqb Bool.eqb].
    - split; [exact Hr|]. left. auto.
    - split.
      + split; [rewrite map_length; exact H1|]. intros r Hin. apply in_map_iff in Hin as (r' & <- & Hin). rewrite map_length. auto.
      + right. left. split; [reflexivity|]. exists (top (List.concat m)).
        split; [apply top_greatest; apply (concat_nonempty nr nc m Hr Hne Hnc Hnn)|]. intros i j Hi Hj. unfold entry.
        rewrite (nth_map_lt _ _ _ [] []) by lia. rewrite (nth_map_lt _ _ _ 0%Qc 0%Qc); [reflexivity|].
        rewrite H2; [exact Hj|]. apply nth_In. lia.
    - split.
      + split; [rewrite map_length; exact H1|]. intros r Hin. apply in_map_iff in Hin as (r' & <- & Hin). rewrite length_map2, (H2 _ Hin).
        unfold tops. rewrite map_length, seq_length. lia.
      + right. right. split; [reflexivity|]. intros j Hj. exists (top (column m j)).
        split; [apply top_greatest; now apply column_nonempty|]. intros i Hi. unfold entry.
        rewrite (nth_map_lt _ _ _ [] []) by lia.
        assert (L : List.length (nth i m []) = nc) by (apply H2; apply nth_In; lia).
        rewrite (nth_map2 _ _ _ _ 0%Qc 0%Qc) by (unfold tops; rewrite ?map_length, ?seq_length; lia).
        unfold tops. rewrite nth_map_seq by exact Hj. reflexivity.
  Qed.
  Lemma blown_nonneg by_ : nonneg (blown by_).
  Proof.
    assert (C : forall a b, (0 <= a)%Qc -> (0 <= b)%Qc -> (0 <= a * b)%Qc).
    { intros a b A B. replace 0%Qc with (0 * b)%Qc by ring. apply Qcmult_le_compat_r; assumption. }
    unfold blown. destruct (String.eqb by_ "none"); [exact Hnn|]. destruct (String.eqb by_ "absolute-maximum"); intros r x A B.
    - apply in_map_iff in A as (r' & <- & A). apply in_map_iff in B as (y & <- & B). apply C; [exact (Hnn r' y A B)|].
      destruct (top_greatest _ (concat_nonempty nr nc m Hr Hne Hnc Hnn)) as [G _]. apply in_concat in G as (r & G1 & G2). exact (Hnn r _ G1 G2).
    - apply in_map_iff in A as (r' & <- & A). apply (In_nth _ _ 0%Qc) in B as (j & Hj & <-). pose proof Hr as [H1 H2].
      rewrite length_map2, (H2 _ A) in Hj. unfold tops in *. rewrite map_length, seq_length, Nat.min_id in Hj.
      rewrite (nth_map2 _ _ _ _ 0%Qc 0%Qc) by (rewrite ?map_length, ?seq_length, ?(H2 _ A); exact Hj).
      rewrite nth_map_seq by exact Hj. apply C.
      + apply (Hnn r'); [exact A|]. apply nth_In. rewrite (H2 _ A). exact Hj.
      + destruct (top_greatest _ (column_nonempty m j Hne)) as [G _].
        destruct (column_in nr nc m Hr j _ G Hj) as (r & A1 & A2). exact (Hnn r _ A1 A2).
  Qed.

  Lemma refused_effect w by_ s w' : restored kabs kmul m w -> valid_name by_ -> loud [by_] nc m ->
    norm w by_ = (w', Ok tt) -> ~ valid_name s ->
    exists w2, norm w' s = (w2, Err KeyError) /\ power w2 = reals kreal (fin m) /\ restored kabs kmul (blown by_) w2 /\
      wfrq w2 = wfrq w /\ wvel w2 = wvel w.
  Proof.
    intros Hw Hv Hl E Hs. rewrite (refused_step w' s Hs). eexists. split; [reflexivity|]. cbn [set_power power to_abs wfrq wvel].
    assert (Sc : scale kmul (power w') (to_abs w') = reals kreal (fin m) /\
                 magnitudes kabs (scale kmul (reals kreal (fin m)) (to_abs w')) = fin (blown by_) /\ wfrq w' = wfrq w /\ wvel w' = wvel w).
    2:{ destruct Sc as (A & B & C). split; [exact A|]. split; [|exact C]. unfold restored. cbn [set_power power to_abs]. rewrite A. exact B. }
    unfold norm in E. unfold restored in Hw. rewrite Hw in E. destruct Hl as [L1 L2]. pose proof (blown_nonneg by_) as Bn.
    unfold blown in *. destruct Hv as [-> | [-> | ->]]; cbn [String.eqb Ascii.eqb Bool.eqb] in E, Bn |- *.
    - injection E as <-. cbn [set_power power to_abs wfrq wvel].
      assert (Q : scale kmul (reals kreal (fin m)) (Scalar f1) = reals kreal (fin m)).
      { rewrite (scale_reals_scalar kabs kmul kreal laws). f_equal. unfold fin. rewrite !map_map. apply map_ext. intros r. rewrite !map_map. apply map_ext. intros x. cbn. f_equal. ring. }
      rewrite Q. split; [reflexivity|]. split; [|auto]. rewrite (mag_reals kabs kmul kreal laws). apply fabs_m. exact Hnn.
    - rewrite concat_fin, fmax_top in E by apply (concat_nonempty nr nc m Hr Hne Hnc Hnn).
      pose proof (top_greatest _ (concat_nonempty nr nc m Hr Hne Hnc Hnn)) as G.
      destruct L1 as (r & x & Hin & Hx & P); [now left|].
      assert (In x (List.concat m)) by (apply in_concat; eauto).
      assert (T : (0 < top (List.concat m))%Qc) by (eapply greatest_pos; eauto).
      set (g := top (List.concat m)) in *. assert (Ng : g <> 0%Qc) by now apply Qcpos_neq0.
      injection E as <-. cbn [set_power power to_abs wfrq wvel].
      rewrite !(scale_reals_scalar kabs kmul kreal laws). split; [|split; [|auto]].
      + f_equal. unfold fin. rewrite !map_map. apply map_ext. intros r'. rewrite !map_map. apply map_ext. intros y.
        rewrite fdiv_Fin by exact Ng. cbn [fmul]. f_equal. now field.
      + rewrite (mag_reals kabs kmul kreal laws).
        transitivity (map (map fabs) (fin (map (map (fun y => (y * g)%Qc)) m))); [|apply fabs_m; exact Bn].
        f_equal. unfold fin. rewrite !map_map. apply map_ext. intros r'. rewrite !map_map. reflexivity.
    - rewrite (column_max_fin nr nc) in E by auto. fold tops in E.
      assert (Nz : forall x, In x tops -> x <> 0%Qc).
      { intros x Hx. apply in_map_iff in Hx. destruct Hx as (j & <- & Hj). apply in_seq in Hj.
        destruct (L2 (or_introl eq_refl) j ltac:(lia)) as (x & Ix & P). apply Qcpos_neq0.
        eapply greatest_pos; [apply top_greatest, column_nonempty|..]; eauto. }
      assert (LL : List.length tops = nc) by (unfold tops; now rewrite map_length, seq_length).
      injection E as <-. cbn [set_power power to_abs wfrq wvel].
      rewrite !(scale_reals_columns kabs kmul kreal laws). split; [|split; [|auto]].
      + f_equal. unfold fin. rewrite !map_map. apply map_ext_in. intros r' Hin. rewrite map2_fdiv by exact Nz. rewrite map2_fmul. f_equal.
        apply map2_mul_div; [|exact Nz]. destruct Hr as [_ H2]. rewrite LL. apply H2. exact Hin.
      + rewrite (mag_reals kabs kmul kreal laws).
        transitivity (map (map fabs) (fin (map (fun r => map2 Qcmult r tops) m))); [|apply fabs_m; exact Bn].
        f_equal. unfold fin. rewrite !map_map. apply map_ext. intros r'. apply map2_fmul.
  Qed.

  Lemma loud_incl l l' : (forall s, In s l' -> In s l) -> loud l nc m -> loud l' nc m.
  Proof. intros H [A B]. split; intros I; [apply A|apply B]; apply H; exact I. Qed.

  Lemma refused_history w l s : to_abs w = Scalar f1 -> magnitudes kabs (power w) = fin m ->
    l <> [] -> (forall x, In x l -> valid_name x) -> loud l nc m -> ~ valid_name s ->
    exists q, snd (norm (norm_all w l) s) = Err KeyError /\ power (norm_all w (l ++ [s])) = reals kreal (fin m) /\
      inflated (last l ""%string) nr nc m q /\
      forall l', l' <> [] -> (forall x, In x l' -> valid_name x) -> loud l' nc q ->
        exists p, power (norm_all w (l ++ [s] ++ l')) = reals kreal (fin p) /\ normalised (last l' ""%string) nr nc q p.
  Proof.
    intros Ht Hp Hl Hv Hd Hs. destruct (exists_last Hl) as (l0 & b & ->). rewrite last_last.
    assert (R0 : restored kabs kmul m (norm_all w l0)).
    { destruct l0 as [|a l0].
      - exact (restored_fresh kabs kmul kreal laws m w Ht Hp).
      - apply (normalize_all_spec kabs kmul kreal laws nr nc m Hr Hne Hnc Hnn (a :: l0) w).
        + exact (restored_fresh kabs kmul kreal laws m w Ht Hp).
        + intros x Hx. apply Hv. apply in_or_app. now left.
        + revert Hd. apply loud_incl. intros x Hx. apply in_or_app. now left.
        + discriminate. }
    assert (Vb : valid_name b) by (apply Hv; apply in_or_app; right; now left).
    assert (Lb : loud [b] nc m) by (revert Hd; apply loud_incl; intros x [<-|[]]; apply in_or_app; right; now left).
    destruct (normalize_step kabs kmul kreal laws nr nc m Hr Hne Hnc Hnn _ b R0 Vb Lb) as (w1 & E1 & _).
    destruct (refused_effect _ b s w1 R0 Vb Lb E1 Hs) as (w2 & E2 & P2 & R2 & _).
    assert (Q1 : norm_all w (l0 ++ [b]) = w1).
    { rewrite norm_all_app. change (fst (norm (norm_all w l0) b) = w1). rewrite E1. reflexivity. }
    assert (Q2 : norm_all w ((l0 ++ [b]) ++ [s]) = w2).
    { rewrite norm_all_app, Q1. unfold normalize_all. cbn [fold_left]. rewrite E2. reflexivity. }
    exists (blown b). rewrite Q1, E2, Q2. split; [reflexivity|]. split; [exact P2|]. split; [apply blown_inflated; exact Vb|].
    intros l' Hl' Hv' Hd'. rewrite app_assoc, norm_all_app, Q2.
    pose proof (blown_inflated b Vb) as [[B1 B2] _].
    assert (Bne : blown b <> []) by (intros Z; rewrite Z in B1; cbn in B1; apply Hne; apply length_zero_iff_nil; destruct Hr as [H1 _]; lia).
    pose proof (normalize_all_spec kabs kmul kreal laws nr nc (blown b) (conj B1 B2) Bne Hnc (blown_nonneg b) l' w2 R2 Hv' Hd' Hl') as X.
    exists (norm_fn nc (blown b) (last l' ""%string)). split; [apply X|].
    apply (norm_fn_normalised nr nc _ (conj B1 B2) Bne Hnc (blown_nonneg b)). apply Hv'. now apply last_in.
  Qed.
End Refused.
