(* Proofs about the drawings of an array. *)
From Verif Require Import WaterfallModel WaterfallSpec ArraySpec ArrayProofs ArrayMatrixProofs InteractSpec InteractProofs PyFacts NumFacts SeriesProofs SeriesProps.
From Coq Require Import Lia Sorted Permutation.
Local Open Scope nat_scope.
Local Open Scope list_scope.

Lemma diffs_sum a l : Qcsum (diffs (a :: l)) = (last (a :: l) 0 - a)%Qc.
Proof.
  revert a. induction l as [|b l IH]; intros a; [unfold Qcsum; cbn; ring|].
  change (diffs (a :: b :: l)) with ((b - a)%Qc :: diffs (b :: l)).
  replace (Qcsum ((b - a)%Qc :: diffs (b :: l))) with ((b - a) + Qcsum (diffs (b :: l)))%Qc
    by (change ((b - a)%Qc :: diffs (b :: l)) with ([(b - a)%Qc] ++ diffs (b :: l)); rewrite Qcsum_app; f_equal; unfold Qcsum; cbn; ring).
  rewrite IH. change (last (a :: b :: l) 0%Qc) with (last (b :: l) 0%Qc). ring.
Qed.
Lemma diffs_length l : List.length (diffs l) = List.length l - 1.
Proof.
  induction l as [|a [|b l] IH]; auto. change (diffs (a :: b :: l)) with ((b - a)%Qc :: diffs (b :: l)).
  cbn [List.length] in *. rewrite IH. lia.
Qed.
Lemma default_scale_spec l : 2 <= List.length l ->
  default_scale l = Fin ((last l 0 - hd 0 l) / QcN (List.length l - 1) / Q2Qc 2)%Qc.
Proof.
  intros H. unfold default_scale. pose proof (diffs_length l) as L. destruct l as [|a l]; [cbn in H; lia|].
  pose proof (diffs_sum a l) as S. destruct (diffs (a :: l)) as [|d r] eqn:E; [cbn [List.length] in *; lia|].
  cbn [hd]. now rewrite <- S, <- L.
Qed.
Lemma default_scale_shift x l : default_scale (map (fun y => y - x)%Qc l) = default_scale l.
Proof.
  assert (D : diffs (map (fun y => y - x)%Qc l) = diffs l).
  { induction l as [|a [|b l] IH]; auto. cbn [map diffs] in *. rewrite IH. f_equal. ring. }
  unfold default_scale. now rewrite D.
Qed.
Lemma hd_map_sx a : hd 0%Qc (map sx (sensors a)) = first_x a. Proof. reflexivity. Qed.

Definition places (pn : bool) (a : array) : result (list Qc) := if pn then position_normalized a else Ok (position a).
Lemma places_ok pn a : sensors a <> [] -> places pn a = Ok (map (place pn a) (sensors a)).
Proof.
  intros H. unfold places, place, position_normalized, position, first_x, position. destruct pn; [|reflexivity].
  destruct (sensors a); [congruence|]. reflexivity.
Qed.
Lemma places_scale pn a : 2 <= List.length (sensors a) ->
  default_scale (map (place pn a) (sensors a)) = Fin (half_spacing a).
Proof.
  intros H. unfold place. transitivity (default_scale (map sx (sensors a))).
  - destruct pn; [|reflexivity]. rewrite <- (default_scale_shift (first_x a) (map sx (sensors a))), map_map. reflexivity.
  - rewrite default_scale_spec by (rewrite map_length; exact H). rewrite map_length. reflexivity.
Qed.
Lemma timeseriesmatrix_length a dtr norm rows : timeseriesmatrix a dtr norm = Ok rows -> List.length rows = List.length (sensors a).
Proof.
  unfold timeseriesmatrix. destruct (sensors a) as [|s l] eqn:E; [discriminate|]. rewrite <- E. clear E.
  destruct (mapM (tsm_row dtr norm) (sensors a)) as [m|] eqn:M; [|discriminate]. cbn [bind].
  assert (L : List.length m = List.length (sensors a)) by (symmetry; eapply Forall2_length; exact (proj1 (mapM_ok _ _ _) M)).
  destruct norm; intros Q; try (injection Q as <-; exact L).
  destruct (fmax _); [|discriminate]. cbn [bind] in Q. injection Q as <-. now rewrite map_length.
Qed.
Lemma curves_app m n : curves (m ++ n) = curves m ++ curves n.
Proof. unfold curves. now rewrite map_app, concat_app. Qed.
Lemma decorate_ok tax t0 tr p0 p1 pr : tax = "x"%string \/ tax = "y"%string ->
  decorate tax (t0 :: tr) (p0 :: p1 :: pr) =
  ([if String.eqb tax "x" then Limits tax (lmin t0 tr) (lmax t0 tr) else Limits tax (lmax t0 tr) (lmin t0 tr);
    Limits (other tax) (p0 - (p1 - p0))%Qc (last (p0 :: p1 :: pr) 0 + (p1 - p0))%Qc; Grid tax; Label tax "Time (s)"; Label (other tax) "Distance (m)"], Ok tt).
Proof. intros [-> | ->]; reflexivity. Qed.
Lemma decorate_no_curves tax ts pos : curves (fst (decorate tax ts pos)) = [].
Proof.
  unfold decorate. destruct ts as [|t0 tr]; auto. destruct (has_axis tax); auto.
  destruct pos as [|p0 [|p1 pr]]; destruct (String.eqb tax "x"); reflexivity.
Qed.
Lemma trace_drawn tax ts row : tax = "x"%string \/ tax = "y"%string ->
  exists c, curves [trace_curve tax ts row] = [c] /\ drawn tax (map Fin ts) row c.
Proof.
  intros [-> | ->]; [exists (map Fin ts, row)|exists (row, map Fin ts)]; (split; [reflexivity|]); [left|right]; auto.
Qed.
Lemma curves_traces tax ts sc (f : sensor -> Qc) l rows : tax = "x"%string \/ tax = "y"%string -> List.length rows = List.length l ->
  exists cs, curves (map (fun pr => trace_curve tax ts (shifted sc (fst pr) (snd pr))) (combine (map f l) rows)) = cs /\
    Forall2 (fun sr c => drawn tax (map Fin ts) (shifted sc (f (fst sr)) (snd sr)) c) (combine l rows) cs.
Proof.
  intros T. revert rows. induction l as [|s l IH]; intros rows L.
  - exists []. split; [reflexivity|constructor].
  - destruct rows as [|r rows]; [discriminate|]. destruct (IH rows ltac:(now injection L)) as (cs & E & F).
    destruct (trace_drawn tax ts (shifted sc (f s) r) T) as (c & Ec & D). exists (c :: cs). split; [|now constructor].
    cbn [map combine fst snd]. change (?x :: ?y) with ([x] ++ y) at 1. now rewrite curves_app, Ec, E.
Qed.
Lemma consistent_time a s t : consistent a -> In s (sensors a) -> In t (sensors a) -> time (ser s) = time (ser t).
Proof.
  intros (_ & _ & A) Is It. destruct (A s t Is It) as (D & _ & E & L). unfold time, nsamples. now rewrite D, E, L.
Qed.
(** The whole run, when nothing raises. *)
Lemma waterfall_ok a given tax dtr norm scale pn rows : consistent a -> 2 <= List.length (sensors a) ->
  (forall s, In s (sensors a) -> amp (ser s) <> []) -> tax = "x"%string \/ tax = "y"%string ->
  timeseriesmatrix a dtr norm = Ok rows ->
  exists s0 s1 rest t0 tr, sensors a = s0 :: s1 :: rest /\ time (ser s0) = t0 :: tr /\
  let p0 := place pn a s0 in let gap := (place pn a s1 - p0)%Qc in
  waterfall a given tax dtr norm scale pn =
  (map (fun pr => trace_curve tax (t0 :: tr) (shifted (Fin (chosen_scale scale a)) (fst pr) (snd pr))) (combine (map (place pn a) (sensors a)) rows) ++
   [if String.eqb tax "x" then Limits tax (lmin t0 tr) (lmax t0 tr) else Limits tax (lmax t0 tr) (lmin t0 tr);
    Limits (other tax) (p0 - gap)%Qc (last (map (place pn a) (sensors a)) 0 + gap)%Qc; Grid tax; Label tax "Time (s)"; Label (other tax) "Distance (m)"],
   Ok (negb given)).
Proof.
  intros Hc H2 Hn T Er.
  assert (Sc : match scale with None => default_scale (map (place pn a) (sensors a)) | Some c => Fin c end = Fin (chosen_scale scale a)).
  { destruct scale; [reflexivity|]. now apply places_scale. }
  destruct (sensors a) as [|s0 [|s1 rest]] eqn:Es; [cbn in H2; lia|cbn in H2; lia|].
  destruct (time (ser s0)) as [|t0 tr] eqn:Et.
  { exfalso. apply (Hn s0); [now left|]. unfold time, nsamples in Et. destruct (amp (ser s0)); auto. discriminate. }
  exists s0, s1, rest, t0, tr. split; [reflexivity|]. split; [exact Et|]. cbv zeta. unfold waterfall.
  assert (A : has_axis tax = true) by (destruct T as [-> | ->]; reflexivity). rewrite A, andb_false_r.
  rewrite Es. change (pyget (s0 :: s1 :: rest) 0) with (Ok s0). cbv iota beta zeta. rewrite Er, Et.
  fold (places pn a). rewrite places_ok by congruence. rewrite Es. cbv iota beta zeta. rewrite Sc.
  cbn [map]. rewrite decorate_ok by exact T. reflexivity.
Qed.
Lemma forall2_in_l {A B} (R : A -> B -> Prop) l m : Forall2 R l m -> Forall2 (fun a b => In a l /\ R a b) l m.
Proof.
  intros F. induction F as [|a b l m H F IH]; constructor; [split; [now left|auto]|].
  eapply Forall2_impl; [|exact IH]. cbn. intros x y [I K]. split; [now right|auto].
Qed.
Lemma waterfall_curves a given tax dtr norm scale pn rows : consistent a -> 2 <= List.length (sensors a) ->
  (forall s, In s (sensors a) -> amp (ser s) <> []) -> tax = "x"%string \/ tax = "y"%string ->
  timeseriesmatrix a dtr norm = Ok rows ->
  exists m, waterfall a given tax dtr norm scale pn = (m, Ok (negb given)) /\
    Forall2 (fun sr c => drawn tax (map Fin (time (ser (fst sr))))
        (map (fun v => fadd (fmul v (Fin (chosen_scale scale a))) (Fin (place pn a (fst sr)))) (snd sr)) c)
      (combine (sensors a) rows) (curves m).
Proof.
  intros Hc H2 Hn T Er. destruct (waterfall_ok a given tax dtr norm scale pn rows Hc H2 Hn T Er) as (s0 & s1 & rest & t0 & tr & Es & Et & E).
  cbv zeta in E. eexists. split; [exact E|]. rewrite curves_app.
  destruct (curves_traces tax (t0 :: tr) (Fin (chosen_scale scale a)) (place pn a) (sensors a) rows T) as (cs & Ec & F).
  { eapply timeseriesmatrix_length; eauto. }
  rewrite Ec. match goal with |- context [curves ?l] => replace (curves l) with (@nil (list flt * list flt)) by (destruct T as [-> | ->]; reflexivity) end.
  rewrite app_nil_r. apply forall2_in_l in F. eapply Forall2_impl; [|exact F]. cbv beta. intros [s r] c [I D]. cbn [fst snd] in *.
  assert (Is : In s (sensors a)) by (eapply in_combine_l; eauto).
  rewrite (consistent_time a s s0 Hc Is) by (rewrite Es; now left). rewrite Et. exact D.
Qed.
Lemma combine_forall2 {A B C} (R : A * B -> C -> Prop) (P : A -> B -> Prop) (Q : A -> C -> Prop) l m n :
  Forall2 P l m -> Forall2 R (combine l m) n -> (forall a b c, In a l -> P a b -> R (a, b) c -> Q a c) -> Forall2 Q l n.
Proof.
  intros F. revert n. induction F as [|a b l m H F IH]; intros n G K; inversion G; subst; constructor.
  - eapply K; eauto. now left.
  - apply IH; auto. intros; eapply K; eauto. now right.
Qed.
Lemma waterfall_each a given tax dtr scale pn : consistent a -> 2 <= List.length (sensors a) ->
  (forall s, In s (sensors a) -> amp (ser s) <> []) -> tax = "x"%string \/ tax = "y"%string ->
  exists m, waterfall a given tax dtr NormEach scale pn = (m, Ok (negb given)) /\
    Forall2 (fun s c => exists mx ds, largest_magnitude (plotted dtr s) mx /\ drawn tax (map Fin (time (ser s))) ds c /\
      ((0 < mx)%Qc -> ds = map (fun v => Fin (place pn a s + chosen_scale scale a * (v / mx))%Qc) (plotted dtr s)) /\
      (mx = 0%Qc -> ds = map (fun _ => NaN) (plotted dtr s)))
      (sensors a) (curves m).
Proof.
  intros Hc H2 Hn T. assert (Ne : sensors a <> []) by (destruct (sensors a); [cbn in H2; lia|congruence]).
  destruct (matrix_each a dtr Ne Hn) as (rows & Er & F).
  destruct (waterfall_curves a given tax dtr NormEach scale pn rows Hc H2 Hn T Er) as (m & E & G).
  exists m. split; [exact E|]. eapply combine_forall2; [exact F|exact G|].
  cbv beta. intros s row c _ (mx & L & P & Z) D. cbn [fst snd] in D. exists mx. eexists. split; [exact L|]. split; [exact D|]. split.
  - intros Pm. rewrite (P Pm). rewrite map_map. apply map_ext. intros v. cbn [fmul fadd]. f_equal. ring.
  - intros Em. rewrite (Z Em). rewrite map_map. reflexivity.
Qed.
Lemma scaled_bound c v mx : (0 <= c)%Qc -> (0 < mx)%Qc -> (Qcabs v <= mx)%Qc -> (Qcabs (c * (v / mx)) <= c)%Qc.
Proof.
  intros Pc Pm B. rewrite Qcabs_mult, (Qcabs_pos c Pc).
  assert (U : (Qcabs (v / mx) <= 1)%Qc).
  { unfold Qcdiv. rewrite Qcabs_mult. assert (Pi : (0 < / mx)%Qc) by (apply Qcinv_pos; exact Pm).
    rewrite (Qcabs_pos (/ mx)) by now apply Qclt_le_weak.
    assert (M1 : (mx * / mx = 1)%Qc) by (apply Qcmult_inv_r; intros E0; rewrite E0 in Pm; discriminate Pm).
    rewrite <- M1. apply Qcmult_le_compat_r; auto. now apply Qclt_le_weak. }
  replace c with (1 * c)%Qc at 2 by ring. rewrite (Qcmult_comm c). apply Qcmult_le_compat_r; auto.
Qed.
Lemma half_spacing_nonneg a : consistent a -> (0 <= half_spacing a)%Qc.
Proof.
  intros Hc. unfold half_spacing, Qcdiv.
  assert (D : (0 <= last_x a - first_x a)%Qc).
  { apply -> Qcle_minus_iff. destruct (sensors a) as [|s l] eqn:E; [destruct Hc as (N & _); congruence|].
    eapply Qcle_trans; [apply (first_x_le a s)|apply (last_x_ge a s)]; auto; rewrite E; now left. }
  assert (I : forall n, (0 <= / QcN n)%Qc).
  { intros n. destruct n; [unfold Qcle; cbn; discriminate|]. apply Qclt_le_weak, Qcinv_pos.
    rewrite <- (QcZ_0). apply QcZ_lt. lia. }
  assert (M : forall x y, (0 <= x -> 0 <= y -> 0 <= x * y)%Qc).
  { intros x y A B. replace 0%Qc with (0 * y)%Qc by ring. apply Qcmult_le_compat_r; auto. }
  apply M; [apply M; auto|]. unfold Qcle. cbn. discriminate.
Qed.

(** ** Errors *)
Lemma waterfall_bad_axis a dtr norm scale pn tax : tax <> "x"%string -> tax <> "y"%string ->
  waterfall a false tax dtr norm scale pn = ([], Err ValueError).
Proof.
  intros Hx Hy. unfold waterfall, has_axis.
  destruct (String.eqb_spec tax "x"); [contradiction|]. destruct (String.eqb_spec tax "y"); [contradiction|]. reflexivity.
Qed.
Lemma waterfall_bad_axis_given a dtr norm scale pn tax rows : tax <> "x"%string -> tax <> "y"%string ->
  (forall s, In s (sensors a) -> amp (ser s) <> []) -> timeseriesmatrix a dtr norm = Ok rows ->
  exists m, waterfall a true tax dtr norm scale pn = (m, Err AttributeError).
Proof.
  intros Hx Hy Hn Er. unfold waterfall. cbn [negb andb].
  destruct (sensors a) as [|s0 l] eqn:Es; [unfold timeseriesmatrix in Er; rewrite Es in Er; discriminate|].
  change (pyget (s0 :: l) 0) with (Ok s0). cbv iota beta zeta. rewrite Er. fold (places pn a).
  rewrite places_ok by congruence. cbv iota beta zeta.
  destruct (time (ser s0)) as [|t0 tr] eqn:Et.
  { exfalso. apply (Hn s0); [now left|]. unfold time, nsamples in Et. destruct (amp (ser s0)); auto. discriminate. }
  unfold decorate, has_axis. destruct (String.eqb_spec tax "x"); [contradiction|]. destruct (String.eqb_spec tax "y"); [contradiction|].
  cbn [orb]. eexists. reflexivity.
Qed.
Lemma waterfall_single a s given tax dtr norm scale pn rows : sensors a = [s] -> amp (ser s) <> [] ->
  tax = "x"%string \/ tax = "y"%string -> timeseriesmatrix a dtr norm = Ok rows ->
  exists m, waterfall a given tax dtr norm scale pn = (m, Err IndexError) /\ List.length (curves m) = 1.
Proof.
  intros Es Hn T Er. pose proof (timeseriesmatrix_length _ _ _ _ Er) as L. rewrite Es in L.
  destruct rows as [|r [|]]; try discriminate. unfold waterfall.
  assert (A : has_axis tax = true) by (destruct T as [-> | ->]; reflexivity). rewrite A, andb_false_r, Es.
  change (pyget [s] 0) with (Ok s). cbv iota beta zeta. rewrite Er. fold (places pn a).
  rewrite places_ok by congruence. rewrite Es. cbv iota beta zeta. cbn [map combine fst snd].
  destruct (time (ser s)) as [|t0 tr] eqn:Et.
  { exfalso. apply Hn. unfold time, nsamples in Et. destruct (amp (ser s)); auto. discriminate. }
  unfold decorate. rewrite A. eexists. split; [reflexivity|]. destruct T as [-> | ->]; reflexivity.
Qed.

(** ** Manual picking *)
Lemma xlabel_waterfall a given tax dtr norm scale pn rows m b : consistent a -> 2 <= List.length (sensors a) ->
  (forall s, In s (sensors a) -> amp (ser s) <> []) -> tax = "x"%string \/ tax = "y"%string ->
  timeseriesmatrix a dtr norm = Ok rows -> waterfall a given tax dtr norm scale pn = (m, Ok b) ->
  xlabel m = if String.eqb tax "x" then "Time (s)"%string else "Distance (m)"%string.
Proof.
  intros Hc H2 Hn T Er Ew. destruct (waterfall_ok a given tax dtr norm scale pn rows Hc H2 Hn T Er) as (s0 & s1 & rest & t0 & tr & _ & _ & E).
  cbv zeta in E. rewrite E in Ew. injection Ew as <- _. unfold xlabel. rewrite fold_left_app.
  generalize (fold_left (fun l e => match e with Label "x" t => t | _ => l end)
    (map (fun pr => trace_curve tax (t0 :: tr) (shifted (Fin (chosen_scale scale a)) (fst pr) (snd pr))) (combine (map (place pn a) (sensors a)) rows)) ""%string).
  intros l. destruct T as [-> | ->]; reflexivity.
Qed.
Definition swap (p : point) : point := (snd p, fst p).
Lemma select_points_swap npts ask npt xs ys (cl : list (list point)) w :
  select_points npts ask npt ys xs (map (map swap) cl) w =
  match select_points npts ask npt xs ys cl w with
  | Waiting => Waiting
  | Returned (x, y) u => Returned (y, x) (mkUser (map (map swap) (clicks u)) (waits u))
  end.
Proof.
  revert npt xs ys w. induction cl as [|v cl IH]; intros npt xs ys w; cbn [select_points map].
  - destruct (npt <? npts)%Z; reflexivity.
  - destruct (npt <? npts)%Z; [|reflexivity]. rewrite <- map_rev. destruct (@rev point v) as [|[x y] r] eqn:Ev; cbn [map fst snd swap]; [apply IH|].
    destruct (if ask then until_key w else Some w) as [[|k w']|]; try reflexivity.
    destruct (truthy k); [reflexivity|]. apply IH.
Qed.
Lemma ginput_swap ini npts ask u :
  ginput_session ini npts ask (mkUser (map (map swap) (clicks u)) (waits u)) =
  match ginput_session ini npts ask u with
  | Waiting => Waiting
  | Returned (x, y) u => Returned (y, x) (mkUser (map (map swap) (clicks u)) (waits u))
  end.
Proof.
  unfold ginput_session. cbn [waits clicks]. destruct (if ini then until_key (waits u) else Some (waits u)); [|reflexivity].
  apply select_points_swap.
Qed.
Lemma accepted_points_length r : List.length (accepted_points r) <= List.length r.
Proof. induction r as [|x r IH]; cbn [accepted_points List.length]; [lia|]. destruct (accepted x); cbn [List.length]; lia. Qed.
Lemma clicking_y u : clicking "y" u = u.
Proof.
  destruct u as [cl w]. unfold clicking. cbn [clicks waits]. f_equal. induction cl as [|l cl IH]; cbn [map]; [reflexivity|].
  apply (f_equal2 cons); [|exact IH]. clear. induction l as [|x l IH]; cbn [map]; [reflexivity|]. apply (f_equal2 cons); [reflexivity|exact IH].
Qed.
Lemma clicking_x u : clicking "x" u = mkUser (map (map swap) (clicks u)) (waits u).
Proof. reflexivity. Qed.
Lemma manual_pick_session a tax dtr norm scale pn rows u : consistent a -> 2 <= List.length (sensors a) ->
  (forall s, In s (sensors a) -> amp (ser s) <> []) -> tax = "x"%string \/ tax = "y"%string ->
  timeseriesmatrix a dtr norm = Ok rows ->
  manual_pick a false tax dtr norm scale pn (clicking tax u) =
  match ginput_session true (Z.of_nat (List.length (clicks u)) + 1) true u with
  | Waiting => Waiting
  | Returned p u' => Returned (Ok p) (clicking tax u')
  end.
Proof.
  intros Hc H2 Hn T Er. unfold manual_pick.
  destruct (waterfall_curves a false tax dtr norm scale pn rows Hc H2 Hn T Er) as (m & E & _).
  rewrite E. cbn [negb]. rewrite (xlabel_waterfall a false tax dtr norm scale pn rows m true Hc H2 Hn T Er E).
  destruct T as [-> | ->].
  - rewrite clicking_x. cbn [clicks]. rewrite map_length, ginput_swap. change (String.eqb "x" "x") with true. cbv iota.
    change (String.eqb "Time (s)" "Distance (m)") with false. cbv iota.
    destruct (ginput_session _ _ _ u) as [|[x y] u']; [reflexivity|]. now rewrite clicking_x.
  - rewrite !clicking_y. change (String.eqb "y" "x") with false. cbv iota.
    change (String.eqb "Distance (m)" "Distance (m)") with true. cbv iota.
    destruct (ginput_session _ _ _ u) as [|[x y] u']; [reflexivity|]. now rewrite clicking_y.
Qed.
Lemma endless_session u ds ts u' :
  ginput_session true (Z.of_nat (List.length (clicks u)) + 1) true u = Returned (ds, ts) u' ->
  exists rounds idle wd, clicks u = rounds ++ clicks u' /\ waits u = (idle ++ [Some true]) ++ wd ++ waits u' /\
    ~ In (Some true) idle /\ combine ds ts = accepted_points rounds /\ List.length ds = List.length ts /\
    wait_log true (List.length ds) true wd.
Proof.
  intros E. destruct (session_spec _ _ _ _ _ _ _ E) as (rounds & pre & wd & stopped & Ec & Ew & (idle & -> & Ni) & Ep & El & Wl & St & _).
  exists rounds, idle, wd. do 5 (split; auto). destruct stopped; auto. exfalso.
  assert (L : List.length (combine ds ts) <= List.length rounds) by (rewrite Ep; apply accepted_points_length). rewrite combine_length in L.
  rewrite Ec, app_length in St. lia.
Qed.
Lemma last_map {A B} (f : A -> B) l x d : last (f x :: map f l) d = f (last l x).
Proof.
  revert x. induction l as [|y l IH]; intros x; [reflexivity|]. cbn [map].
  change (last (f x :: f y :: map f l) d) with (last (f y :: map f l) d). rewrite IH. f_equal.
  destruct l as [|z l]; [reflexivity|]. change (last (y :: z :: l) x) with (last (z :: l) x). 
  clear IH. revert z. induction l as [|w l IH]; intros z; [reflexivity|]. change (last (w :: l) y = last (w :: l) x). apply IH.
Qed.
Lemma diffs_spec l g : In g (diffs l) <-> exists i, (S i < List.length l)%nat /\ g = (nth (S i) l 0 - nth i l 0)%Qc.
Proof.
  induction l as [|x [|y l] IH].
  - split; [intros []|intros (i & H & _); cbn in H; lia].
  - split; [intros []|intros (i & H & _); cbn in H; lia].
  - change (diffs (x :: y :: l)) with ((y - x)%Qc :: diffs (y :: l)). cbn [In]. rewrite IH. split.
    + intros [<-|(i & Hi & ->)]; [exists 0%nat; cbn; split; [lia|reflexivity]|]. exists (S i). cbn in Hi |- *. split; [lia|reflexivity].
    + intros ([|i] & Hi & ->); [now left|right]. exists i. cbn in Hi |- *. split; [lia|reflexivity].
Qed.
