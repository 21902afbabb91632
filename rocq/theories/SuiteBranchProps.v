(* Properties C43, C45, C46 and C48, continued: comparison of suites, which sessions of trimming
   fail, correlations and substitution, resampling at NaN. *)
From Verif Require Import PyFacts NumFacts PeaksModel PeaksSpec PeaksProofs PeaksLoadSpec PeaksLoadProofs SuiteModel SuiteSpec SuiteProofs SuiteTrimProofs SuiteStatProofs SuiteInfSpec SuiteInfProofs PeaksProps SuiteProps.
From Verif Require PeaksLoadProps.
Local Open Scope string_scope.
Local Open Scope nat_scope.
Local Open Scope list_scope.

(** ** C43: comparison of suites *)
Lemma all_eq_spec ps qs : Forall (fun p => exists s, well_formed s p) ps -> Forall (fun p => exists s, well_formed s p) qs -> List.length ps = List.length qs ->
  (all_eq ps qs = Ok true /\ Forall2 compares_equal ps qs) \/ (all_eq ps qs = Ok false /\ ~ Forall2 compares_equal ps qs).
Proof.
  intros P. revert qs. induction P as [|p ps (s & W) P IH]; intros [|q qs] Q L; try discriminate; cbn [all_eq].
  - left. auto.
  - inversion_clear Q as [|? ? (t & V) Q']. destruct (PeaksLoadProps.C43_compared _ _ _ _ W V) as [[E C]|[E C]]; rewrite E; cbn [bind].
    + destruct (IH qs Q' ltac:(cbn in L; lia)) as [[E' F]|[E' F]]; rewrite E'; [left|right]; split; auto.
      intros X. inversion X. contradiction.
    + right. split; auto. intros X. inversion X. contradiction.
Qed.
(** Two suites compare equal exactly if they have as many members and these compare equal in
    order; comparison never raises. *)
Theorem C43_suites : forall a b, Forall (fun p => exists s, well_formed s p) (members a) -> Forall (fun p => exists s, well_formed s p) (members b) ->
  (suite_eq a b = Ok true /\ Forall2 compares_equal (members a) (members b))
  \/ (suite_eq a b = Ok false /\ ~ Forall2 compares_equal (members a) (members b)).
Proof.
  intros a b A B. unfold suite_eq. destruct (Nat.eqb_spec (List.length (members a)) (List.length (members b))) as [L|L]; cbn [negb].
  - now apply all_eq_spec.
  - right. split; auto. intros F. apply L. eapply Forall2_length, F.
Qed.
Print Assumptions C43_suites.

(** ** C45: what makes a session fail *)
(** Every gesture of two points, every box on one of the axes, and every member with the
    attributes of the axes. *)
Definition undrawable (g : gesture) : Prop := List.length (points g) <> 2.

Lemma draw_box_err gs e gs' : draw_box gs = Some (Err e, gs') -> e = ValueError /\ Exists undrawable gs.
Proof.
  induction gs as [|g gs IH]; [discriminate|]. cbn [draw_box].
  destruct (points g) as [|[x1 y1] [|[x2 y2] [|]]] eqn:P; try (intros [= <- <-]; split; [reflexivity|left; unfold undrawable; rewrite P; cbn; lia]).
  destruct (clicked g) as [|a [|b' [|]]]; try (intros H; destruct (IH H); split; [auto|now right]).
  destruct (a =? b'); [discriminate|]. intros H; destruct (IH H); split; [auto|now right].
Qed.
Lemma draw_box_tail gs r gs' : draw_box gs = Some (r, gs') -> exists l, gs = l ++ gs'.
Proof.
  induction gs as [|g gs IH]; [discriminate|]. cbn [draw_box]. intros H.
  assert (K : draw_box gs = Some (r, gs') -> exists l, g :: gs = l ++ gs') by (intros X; destruct (IH X) as (l & ->); now exists (g :: l)).
  destruct (points g) as [|[x1 y1] [|[x2 y2] [|]]]; try (injection H as <- <-; now exists [g]).
  destruct (clicked g) as [|a [|b' [|]]]; auto.
  destruct (a =? b'); auto. injection H as <- <-. now exists [g].
Qed.
(** The reasons for which a box cannot be applied. *)
Definition no_axes (xt : list string) (b : box) : Prop := List.length xt <= baxis b.
Definition no_values (xt yt : list string) (ps : list peaks) (b : box) : Prop :=
  exists p x y, In p ps /\ nth_error xt (baxis b) = Some x /\ nth_error yt (baxis b) = Some y /\ ~ (has_attr p x /\ has_attr p y).

Lemma has_attr_dec p k : {has_attr p k} + {~ has_attr p k}.
Proof.
  unfold has_attr, derived.
  destruct (string_dec k "slowness"); [left; auto|]. destruct (string_dec k "wavelength"); [left; auto|]. destruct (string_dec k "wavenumber"); [left; auto|].
  destruct (in_dec string_dec k (map fst (fields p))); [left; auto|right; tauto].
Qed.
Lemma box_masks_err xt yt ps b e : List.length xt = List.length yt -> Forall (fun p => exists s, well_formed s p) ps -> box_masks xt yt ps b = Err e ->
  (e = IndexError /\ no_axes xt b) \/ (e = AttributeError /\ no_values xt yt ps b).
Proof.
  intros L F. unfold box_masks, no_axes, no_values. induction F as [|p ps (s & W) F IH]; [discriminate|]. cbn [mapM].
  destruct (nth_error xt (baxis b)) as [x|] eqn:X.
  2:{ intros [= <-]. left. split; auto. now apply nth_error_None. }
  destruct (nth_error yt (baxis b)) as [y|] eqn:Y.
  2:{ exfalso. apply nth_error_None in Y. assert (N : nth_error xt (baxis b) <> None) by congruence. apply nth_error_Some in N. lia. }
  destruct (has_attr_dec p x) as [Hx|Hx].
  - destruct (has_attr_dec p y) as [Hy|Hy].
    + destruct (box_mask_ok s p x (bx b) y (by_ b) W Hx Hy) as (m & -> & _). cbn [bind].
      match goal with |- bind ?r _ = _ -> _ => destruct r as [ms|e'] end; cbn [bind]; [discriminate|].
      intros [= ->]. destruct IH as [H|(-> & q & x' & y' & I & A & B & N)]; auto. right. split; auto. exists q, x', y'. split; [now right|auto].
    + unfold box_mask. destruct (stored_ok s p W x Hx) as (xs & -> & _). rewrite (stored_err p y Hy). cbn [bind]. intros [= <-]. right. split; auto. exists p, x, y. split; [now left|]. tauto.
  - unfold box_mask. rewrite (stored_err p x Hx). cbn [bind]. intros [= <-]. right. split; auto. exists p, x, y. split; [now left|]. tauto.
Qed.

Lemma trim_loop_raised xt yt fuel : forall ps acc gs ans pend ps' e, List.length xt = List.length yt -> Forall wf_any ps -> Forall2 (acc_rel xt yt pend) ps acc ->
  trim_loop fuel xt yt ps acc gs ans = (ps', Raised e) ->
  (e = ValueError /\ Exists undrawable gs)
  \/ (e = IndexError /\ Exists (no_axes xt) (boxes_of gs))
  \/ (e = AttributeError /\ Exists (no_values xt yt ps) (boxes_of gs)).
Proof.
  induction fuel as [|fuel IH]; intros ps acc gs ans pend ps' e L F A E; [discriminate|]. cbn [trim_loop] in E.
  destruct (draw_box gs) as [[[b|e'] gs']|] eqn:D; [| |discriminate].
  2:{ injection E as _ <-. apply draw_box_err in D. auto. }
  destruct (draw_box_tail _ _ _ D) as (pre & TL). apply draw_box_some in D as [D1 D2].
  destruct (box_masks xt yt ps b) as [ms|e'] eqn:M.
  2:{ injection E as _ <-. apply box_masks_err in M; auto. rewrite D1. destruct M as [[-> M]|[-> M]]; auto. }
  apply box_masks_spec in M; [|auto]. pose proof (acc_or xt yt pend b ps acc ms F A M) as A'.
  assert (K : forall ps1, (forall p1, In p1 ps1 -> exists p, In p ps /\ fields p1 = fields p) ->
     (e = ValueError /\ Exists undrawable gs') \/ (e = IndexError /\ Exists (no_axes xt) (boxes_of gs')) \/ (e = AttributeError /\ Exists (no_values xt yt ps1) (boxes_of gs')) ->
     (e = ValueError /\ Exists undrawable gs) \/ (e = IndexError /\ Exists (no_axes xt) (boxes_of gs)) \/ (e = AttributeError /\ Exists (no_values xt yt ps) (boxes_of gs))).
  { intros ps1 S [[-> H]|[[-> H]|[-> H]]].
    - left. split; auto. rewrite TL. apply Exists_app. auto.
    - right; left. split; auto. rewrite D1. auto.
    - right; right. split; auto. rewrite D1. right. apply Exists_exists in H as (b0 & I & p1 & x & y & Hp & X & Y & N). apply Exists_exists. exists b0. split; auto.
      destruct (S _ Hp) as (p & Ip & Fp). exists p, x, y. do 3 (split; auto). unfold has_attr in *. rewrite <- Fp. exact N. }
  destruct (existsb any_true ms) eqn:X.
  { apply (K ps); [eauto|]. now apply (IH ps (map2 nd_or acc ms) gs' ans (pend ++ [b]) ps' e). }
  destruct (next_decision ans) as [[d ans']|] eqn:N; [|discriminate].
  set (ps1 := match d with Undo => ps | _ => reject_all ps (map2 nd_or acc ms) end) in *.
  assert (A1 : Forall2 (after xt yt [(pend ++ [b], d)]) ps ps1).
  { destruct d; cbn; [apply reject_all_after; auto; discriminate|apply reject_all_after; auto; discriminate|apply undo_after]. }
  assert (F1 := after_wf xt yt _ _ _ F A1).
  assert (E' : trim_loop fuel xt yt ps1 (map (fun p => zeros_like (valid p)) ps1) gs' ans' = (ps', Raised e)) by (destruct d; [discriminate|exact E|exact E]).
  apply (K ps1).
  - intros p1 I. destruct (F2_In_r _ _ _ _ A1 I) as (p & Ip & H & _). eauto.
  - now apply (IH ps1 _ gs' ans' [] ps' e L F1 (zeros_acc xt yt ps1 F1)).
Qed.
(** A session of trimming can only fail in three ways: with ValueError after a gesture of other than
    two points, IndexError after a box on axes that are not there, AttributeError after a box on
    axes of quantities some member does not have. *)
Theorem C45_failures : forall xt yt ps gs ans ps' e,
  List.length xt = List.length yt -> Forall (fun p => exists s, well_formed s p) ps ->
  interactive_trimming xt yt ps gs ans = (ps', Raised e) ->
  (e = ValueError /\ Exists undrawable gs)
  \/ (e = IndexError /\ Exists (no_axes xt) (boxes_of gs))
  \/ (e = AttributeError /\ Exists (no_values xt yt ps) (boxes_of gs)).
Proof.
  intros xt yt ps gs ans ps' e L F E. unfold interactive_trimming in E. rewrite (proj2 (Nat.eqb_eq _ _) L) in E. cbn [negb] in E.
  eapply trim_loop_raised; eauto. now apply zeros_acc.
Qed.
Print Assumptions C45_failures.
Example C45_failures_example :
  map snd [interactive_trimming ["frequency"] ["velocity"] [c1; c2] [mkGesture [(z 0, z 0)] [0]] [];
           interactive_trimming ["frequency"] ["velocity"] [c1; c2] [mkGesture [(z 0, z 0); (z 1, z 1)] [1; 1]] [];
           interactive_trimming ["frequency"] ["azimuth"] [c1; c2] [mkGesture [(z 0, z 0); (z 1, z 1)] [0; 0]] []]
  = [Raised ValueError; Raised IndexError; Raised AttributeError].
Proof. vm_compute. reflexivity. Qed.

(** ** C46: what is averaged, and what is correlated *)
Lemma map_nth_seq {A} (f : nat -> A) js : map (fun k => f (nth k js 0)) (seq 0 (List.length js)) = map f js.
Proof.
  induction js as [|j js IH]; [reflexivity|]. cbn [List.length seq map nth]. f_equal. rewrite <- seq_shift, map_map. exact IH.
Qed.
Lemma transpose_part (e : nat -> nat -> flt) is_ js : transpose (List.length js) (map (fun i => map (e i) js) is_) = map (fun j => map (fun i => e i j) is_) js.
Proof.
  unfold transpose, range. rewrite <- (map_nth_seq (fun j => map (fun i => e i j) is_)). apply map_ext_in. intros k Hk. apply in_seq in Hk. rewrite map_map. apply map_ext. intros i.
  rewrite (nth_map_lt (e i) js k NaN 0) by lia. reflexivity.
Qed.
Lemma map2_map_l {A B C D} (f : B -> C -> D) (g : A -> B) l m : map2 f (map g l) m = map2 (fun a c => f (g a) c) l m.
Proof. revert m. induction l as [|a l IH]; intros [|c m]; cbn; auto. now rewrite IH. Qed.
Lemma map2_map_r {A B C D} (f : A -> C -> D) (g : B -> C) l m : map2 f l (map g m) = map2 (fun a b => f a (g b)) l m.
Proof. revert m. induction l as [|a l IH]; intros [|c m]; cbn; auto. now rewrite IH. Qed.
Lemma map2_same {A B} (f : A -> A -> B) l : map2 f l l = map (fun a => f a a) l.
Proof. induction l as [|a l IH]; cbn; auto. now rewrite IH. Qed.

(** The value of member [i] at point [j]. *)
Definition cell (m : list (list flt)) (i j : nat) : flt := nth j (nth i m []) NaN.
(** The values observed at point [j] in the members [is_]. *)
Definition observed_of (m : list (list flt)) (is_ : list nat) (j : nat) : list flt := filter (fun x => negb (is_nan x)) (map (fun i => cell m i j) is_).

(** Whatever the data: for the members [is_] and points [js] that remain, mean and deviation of a
    point are those of the values observed there (none: no mean; fewer than two: no deviation);
    the correlation, if asked for, is that of the remaining values, missing ones replaced by the
    mean of their point if that is asked for. *)
Theorem C46_correlation : forall fsqrt C (corrcoef : list (list flt) -> C) ps xt yt xx ignore_corr cnt substitution xx' mean std corr m,
  statistics fsqrt corrcoef ps xt yt xx ignore_corr cnt substitution = Ok (xx', mean, std, corr) ->
  to_array ps xt yt xx = Ok (xx, m) ->
  exists is_ js,
    drop (Q2Qc (1 # 100)) (Q2Qc (1 # 100)) cnt xx m = (map (fun j => nth j xx NaN) js, map (fun i => map (cell m i) js) is_)
    /\ xx' = map (fun j => nth j xx NaN) js /\ List.length mean = List.length js /\ List.length std = List.length js
    /\ (forall k j, nth_error js k = Some j ->
          (observed_of m is_ j = [] -> nth_error mean k = Some NaN)
          /\ (forall qs, observed_of m is_ j = map Fin qs -> qs <> [] -> nth_error mean k = Some (Fin (mean_of qs)))
          /\ (List.length (observed_of m is_ j) <= 1 -> nth_error std k = Some NaN)
          /\ (forall qs, observed_of m is_ j = map Fin qs -> 2 <= List.length qs -> nth_error std k = Some (fsqrt (Fin (variance_of qs)))))
    /\ corr = (if ignore_corr then None
               else Some (corrcoef (map2 (fun j mu => map (fun i => if substitution && is_nan (cell m i j) then mu else cell m i j) is_) js mean))).
Proof.
  intros fsqrt C cc ps xt yt xx ic cnt ms xx' mean std corr m E T. unfold statistics in E.
  destruct (List.length ps <? 3); [discriminate|]. rewrite T in E. cbn [bind fst snd] in E.
  destruct (to_array_rect _ _ _ _ _ _ T) as (_ & R & _).
  destruct (C47_aligned (Q2Qc (1 # 100)) (Q2Qc (1 # 100)) cnt xx m R) as (is_ & js & _ & _ & _ & _ & D). rewrite D in E.
  change (fun i => map (fun j => nth j (nth i m []) NaN) js) with (fun i => map (cell m i) js) in *.
  exists is_, js. split; [exact D|]. rewrite map_length in E. rewrite !transpose_part in E. injection E as <- <- <- <-.
  split; [reflexivity|]. rewrite !map_length. do 2 (split; [reflexivity|]). split.
  - intros k j H. assert (N : forall B (f : _ -> B), nth_error (map f (map (fun j => map (fun i => cell m i j) is_) js)) k = Some (f (map (fun i => cell m i j) is_))).
    { intros B f. rewrite map_map. now rewrite (map_nth_error _ k js H). }
    rewrite !N. unfold observed_of. fold (nums (map (fun i => cell m i j) is_)). set (col := map (fun i => cell m i j) is_). split; [|split; [|split]].
    + intros O. f_equal. unfold nanmean. rewrite O. reflexivity.
    + intros qs O Q. f_equal. now apply nanmean_fin.
    + intros O. f_equal. unfold nanstd. rewrite (proj2 (Nat.leb_le _ _) O). reflexivity.
    + intros qs O Q. f_equal. now apply nanstd_fin.
  - destruct ic; [reflexivity|]. f_equal. f_equal. destruct ms; cbn [andb].
    + unfold substitute. rewrite transpose_part, !map_map. rewrite map2_map_r, map2_same.
      rewrite <- (transpose_part (fun i j => if is_nan (cell m i j) then nanmean (map (fun i => cell m i j) is_) else cell m i j) is_ js).
      f_equal. apply map_ext. intros i. now rewrite map2_map_l, map2_map_r, map2_same.
    + rewrite transpose_part. rewrite map_map, map2_map_r, map2_same. reflexivity.
Qed.
Print Assumptions C46_correlation.
(* Three members of which one has no value at the second point; the missing value is replaced by the mean of the others. *)
Example C46_correlation_example :
  match statistics (fun x => x) (fun m => m) [c1; c2; c3] "frequency" "velocity" [z 4; z 5] false 1 true with
  | Ok (xx, mean, std, Some m) => (List.length xx, map (map (fun x => match x with Fin q => Qceqb q (Q2Qc 40) | _ => false end)) m)
  | _ => (0, [])
  end = (2, [[true; false; false]; [true; false; false]]).
Proof. vm_compute. reflexivity. Qed.

(** ** Resampling with infinite values *)
Lemma infinite_velocity ident f1 f2 v1 v2 f : (f1 < f)%Qc -> (f < f2)%Qc ->
  (v1 = PInf \/ v2 = PInf) -> ~ In v1 [NInf; NaN] -> ~ In v2 [NInf; NaN] ->
  to_array [mkPeaks ident [("frequency", ND (S1 2) [Fin f1; Fin f2]); ("velocity", ND (S1 2) [v1; v2])] (ND (S1 2) [true; true])]%string
    "frequency" "velocity" [Fin f] = Ok ([Fin f], [[PInf]]).
Proof.
  intros A B V N1 N2. unfold to_array. cbn [mapM]. unfold array_row.
  change (simplify_mpeaks _ "frequency"%string) with (Ok [Fin f1; Fin f2] : result (list flt)).
  change (simplify_mpeaks _ "velocity"%string) with (Ok [v1; v2] : result (list flt)).
  cbn [bind existsb is_nan orb].
  assert (is_nan v1 = false) as -> by (destruct v1; auto; exfalso; apply N1; cbn; auto).
  assert (is_nan v2 = false) as -> by (destruct v2; auto; exfalso; apply N2; cbn; auto).
  cbn [orb]. unfold interp1d. cbn [List.length Nat.eqb negb combine sort_pts fold_right insert_pt fst flt_lt].
  assert (AB : Qcltb f2 f1 = false).
  { destruct (Qcltb_spec f2 f1) as [L|L]; auto. exfalso. apply (Qclt_not_le f1 f1); [|apply Qcle_refl].
    eapply Qclt_trans; [exact A|]. eapply Qclt_trans; [exact B|exact L]. }
  rewrite AB. cbn [bind map is_nan last fst flt_lt].
  assert (Qcltb f f1 = false) as ->.
  { destruct (Qcltb_spec f f1) as [L|L]; auto. exfalso. apply (Qclt_not_le f f1 L). now apply Qclt_le_weak. }
  assert (Qcltb f2 f = false) as ->.
  { destruct (Qcltb_spec f2 f) as [L|L]; auto. exfalso. apply (Qclt_not_le f2 f L). now apply Qclt_le_weak. }
  cbn [interp_from fst snd]. unfold flt_le. cbn [flt_lt flt_eq].
  assert (Qcltb f2 f = false) as ->.
  { destruct (Qcltb_spec f2 f) as [L|L]; auto. exfalso. apply (Qclt_not_le f2 f L). now apply Qclt_le_weak. }
  assert (Qceqb f2 f = false) as ->.
  { destruct (Qceqb_spec f2 f) as [L|L]; auto. subst. exfalso. apply (Qclt_not_le f f B). apply Qcle_refl. }
  assert (Qceqb f1 f = false) as ->.
  { destruct (Qceqb_spec f1 f) as [L|L]; auto. subst. exfalso. apply (Qclt_not_le f f A). apply Qcle_refl. }
  cbn [orb]. enough (Q : interp_piece (Fin f1, v1) (Fin f2, v2) (Fin f) = PInf) by now rewrite Q.
  unfold interp_piece. cbv zeta. cbn [fst snd].
  assert (P1 : (0 < f2 + - f1)%Qc) by qclra. assert (P2 : (0 < f + - f1)%Qc) by qclra. assert (P3 : (f + - f2 < 0)%Qc) by qclra.
  assert (E1 : Qcltb (f2 + - f1) 0 = false) by (destruct (Qcltb_spec (f2 + - f1) 0) as [L|L]; auto; exfalso; qclra).
  assert (E2 : sgn_inf (f + - f1) true = PInf).
  { unfold sgn_inf. destruct (Qceqb_spec (f + - f1) 0) as [L|L]; [exfalso; qclra|]. destruct (Qcltb_spec 0 (f + - f1)) as [M|M]; [reflexivity|exfalso; qclra]. }
  assert (E3 : sgn_inf (f + - f1) false = NInf).
  { unfold sgn_inf. destruct (Qceqb_spec (f + - f1) 0) as [L|L]; [exfalso; qclra|]. destruct (Qcltb_spec 0 (f + - f1)) as [M|M]; [reflexivity|exfalso; qclra]. }
  assert (E4 : sgn_inf (f + - f2) false = PInf).
  { unfold sgn_inf. destruct (Qceqb_spec (f + - f2) 0) as [L|L]; [exfalso; qclra|]. destruct (Qcltb_spec 0 (f + - f2)) as [M|M]; [exfalso; qclra|reflexivity]. }
  destruct v1 as [a| | |], v2 as [b| | |]; try (exfalso; first [apply N1; cbn; tauto|apply N2; cbn; tauto]).
  - destruct V; discriminate.
  - cbn [fsub fneg fadd fdiv]. rewrite E1. cbn [fmul]. rewrite E2. reflexivity.
  - cbn [fsub fneg fadd fdiv]. rewrite E1. cbn [fmul]. rewrite E3, E4. reflexivity.
  - cbn [fsub fneg fadd fdiv fmul is_nan flt_eq andb]. reflexivity.
Qed.
Lemma infinite_wavelength ident f v v0 x : (0 < f)%Qc -> (0 < v0)%Qc -> (v / f < x)%Qc ->
  to_array [mkPeaks ident [("frequency", ND (S1 2) [Fin 0%Qc; Fin f]); ("velocity", ND (S1 2) [Fin v0; Fin v])] (ND (S1 2) [true; true])]%string
    "wavelength" "velocity" [Fin x; PInf] = Ok ([Fin x; PInf], [[Fin v; Fin v0]]).
Proof.
  intros Pf Pv Lx. unfold to_array. cbn [mapM]. unfold array_row.
  assert (D0 : fdiv (Fin v0) (Fin 0%Qc) = PInf).
  { cbn [fdiv]. change (Qceqb 0 0) with true. cbn match. unfold sgn_inf. destruct (Qceqb_spec v0 0) as [L|L]; [exfalso; qclra|].
    destruct (Qcltb_spec 0 v0) as [M|M]; [reflexivity|exfalso; qclra]. }
  assert (D1 : fdiv (Fin v) (Fin f) = Fin (v / f)%Qc).
  { cbn [fdiv]. destruct (Qceqb_spec f 0) as [L|L]; [exfalso; qclra|reflexivity]. }
  change (simplify_mpeaks _ "wavelength"%string) with (Ok [fdiv (Fin v0) (Fin 0%Qc); fdiv (Fin v) (Fin f)] : result (list flt)).
  change (simplify_mpeaks _ "velocity"%string) with (Ok [Fin v0; Fin v] : result (list flt)).
  rewrite D0, D1. generalize dependent (v / f)%Qc. intros w Lx _. cbn [bind existsb is_nan orb].
  unfold interp1d. cbn [List.length Nat.eqb negb combine sort_pts fold_right insert_pt fst flt_lt bind map is_nan last].
  assert (Qcltb x w = false) as ->.
  { destruct (Qcltb_spec x w) as [L|L]; auto. exfalso. qclra. }
  cbn [interp_from fst snd]. unfold flt_le. cbn [flt_lt flt_eq orb].
  destruct (Qceqb_spec w x) as [L|L]; [exfalso; subst; qclra|].
  unfold interp_piece. cbn [fst snd fsub fneg fadd fdiv fmul is_nan]. do 4 f_equal. f_equal. qclra.
Qed.
(** ** C48: resampling at NaN and at infinity *)
Theorem C48_not_a_number : forall xt yt ps xx rows, to_array ps xt yt xx = Ok (xx, rows) ->
  forall row k, In row rows -> nth_error xx k = Some NaN -> nth_error row k = Some NaN.
Proof.
  intros xt yt ps xx rows T row k I N. unfold to_array in T. destruct (mapM (array_row xt yt xx) ps) as [rs|] eqn:M; [|discriminate]. injection T as <-.
  apply mapM_ok in M. destruct (F2_In_r _ _ _ _ M I) as (p & _ & H). unfold array_row in H.
  destruct (simplify_mpeaks p xt) as [x|]; [|discriminate]. cbn [bind] in H. destruct (simplify_mpeaks p yt) as [y|]; [|discriminate]. cbn [bind] in H.
  destruct (existsb is_nan x || existsb is_nan y); [discriminate|]. destruct (interp1d x y) as [f|[]] eqn:IP; try discriminate.
  - injection H as <-. rewrite (map_nth_error _ _ _ N). unfold interp1d in IP. destruct (negb _); [discriminate|]. destruct (sort_pts _); [discriminate|]. injection IP as <-. reflexivity.
  - injection H as <-. now rewrite (map_nth_error _ _ _ N).
Qed.
Print Assumptions C48_not_a_number.

(** Between two peaks of which one has an infinite velocity the velocity is infinite. *)
Theorem C48_infinite_velocity : forall ident f1 f2 v1 v2 f, (f1 < f)%Qc -> (f < f2)%Qc ->
  (v1 = PInf \/ v2 = PInf) -> ~ In v1 [NInf; NaN] -> ~ In v2 [NInf; NaN] ->
  to_array [mkPeaks ident [("frequency", ND (S1 2) [Fin f1; Fin f2]); ("velocity", ND (S1 2) [v1; v2])] (ND (S1 2) [true; true])]%string
    "frequency" "velocity" [Fin f] = Ok ([Fin f], [[PInf]]).
Proof. exact infinite_velocity. Qed.
Print Assumptions C48_infinite_velocity.
(** The wavelength of a peak at frequency zero is infinite; at every longer wavelength the velocity is that of the other peak. *)
Theorem C48_infinite_wavelength : forall ident f v v0 x, (0 < f)%Qc -> (0 < v0)%Qc -> (v / f < x)%Qc ->
  to_array [mkPeaks ident [("frequency", ND (S1 2) [Fin 0%Qc; Fin f]); ("velocity", ND (S1 2) [Fin v0; Fin v])] (ND (S1 2) [true; true])]%string
    "wavelength" "velocity" [Fin x; PInf] = Ok ([Fin x; PInf], [[Fin v; Fin v0]]).
Proof. exact infinite_wavelength. Qed.
Print Assumptions C48_infinite_wavelength.
Example C48_infinite_example :
  (QcZ 5 < QcZ 6)%Qc /\ (QcZ 6 < QcZ 8)%Qc /\ (QcZ 100 / QcZ 5 < QcZ 30)%Qc /\ ~ In (Fin (QcZ 200)) [NInf; NaN].
Proof. repeat split; try reflexivity. intros [H|[H|[]]]; discriminate. Qed.
(** Resampling of any peaks with finite x, each once, and y that may be infinite. *)
Theorem C48_with_infinities : forall xt yt ps xx,
  Forall (fun p => (exists s, well_formed s p) /\ readable p xt /\ readable p yt /\ sketchable xt yt p) ps ->
  exists rows, to_array ps xt yt xx = Ok (xx, rows)
    /\ Forall2 (fun p row => Forall2 (fun x e => forall v, x = Fin v -> value_between xt yt p v e) xx row) ps rows.
Proof.
  intros xt yt ps xx F. unfold to_array.
  destruct (mapM_all_ok (array_row xt yt xx)
     (fun p row => Forall2 (fun x e => forall v, x = Fin v -> value_between xt yt p v e) xx row) ps) as (rows & E & R).
  - intros p Hp. rewrite Forall_forall in F. destruct (F p Hp) as ((s & W) & Rx & Ry & D).
    eapply array_row_inf; eauto.
  - rewrite E. cbn [bind]. exists rows. auto.
Qed.
Print Assumptions C48_with_infinities.
(** Three peaks, the first with an infinite and the last with a negative infinite velocity. *)
Local Definition steep : peaks :=
  mkPeaks "s" [("frequency", ND (S1 3) [Fin (QcZ 1); Fin (QcZ 2); Fin (QcZ 3)]); ("velocity", ND (S1 3) [PInf; Fin (QcZ 4); NInf])]%string (ND (S1 3) [true; true; true]).
Example C48_with_infinities_example : well_formed (S1 3) steep /\ readable steep "frequency" /\ readable steep "velocity" /\
  sketchable "frequency" "velocity" steep /\
  match to_array [steep] "frequency" "velocity" [Fin (QcZ 1); Fin (Q2Qc (3 # 2)); Fin (QcZ 2); Fin (Q2Qc (5 # 2))] with
  | Ok (_, m) => map (map show_flt) m = [[ShPInf; ShPInf; ShFin 4; ShNInf]]
  | Err _ => False
  end.
Proof.
  split; [|split; [|split; [|split; [|vm_compute; reflexivity]]]].
  - unfold well_formed, steep. cbn [fields valid shp dat map fst snd size List.length]. split; [do 3 eexists; reflexivity|].
    split; [repeat constructor|]. split; [reflexivity|]. split; [reflexivity|]. split.
    + constructor; [intros [H|[]]; discriminate|]. constructor; [intros []|constructor].
    + constructor; [|constructor; [|constructor]]; repeat split; discriminate.
  - right. split; [now left|now left].
  - right. split; [now right; left|now right; left].
  - assert (U : forall i, used steep i -> i = 0 \/ i = 1 \/ i = 2).
    { intros i H. destruct i as [|[|[|i]]]; auto. vm_compute in H. destruct i; discriminate. }
    split.
    + intros i H. destruct (U i H) as [->|[->| ->]]; (split; [eexists; reflexivity|discriminate]).
    + intros i j Hi Hj. destruct (U i Hi) as [->|[->| ->]], (U j Hj) as [->|[->| ->]]; auto;
        intros X; apply (f_equal show_flt) in X; vm_compute in X; discriminate.
Qed.
