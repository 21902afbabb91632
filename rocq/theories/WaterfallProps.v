(* Property theorems about the drawings of an array (C81, C88) and manual picking (C86). *)
From Verif Require Import WaterfallModel WaterfallSpec WaterfallProofs ArraySpec ArrayProofs ArrayMatrixProofs InteractSpec PyFacts NumFacts SeriesProofs.
From Coq Require Import Lia Sorted Permutation.
Local Open Scope string_scope.
Local Open Scope nat_scope.
Local Open Scope list_scope.

(** ** C81: the waterfall plot *)
(** One curve per sensor in the array's order, at the sensor's own times; its distance
    coordinate is the sensor's place plus the scaled, normalised record.  A record that is zero
    throughout gives a curve of NaN. *)
Theorem C81_waterfall : forall a given tax dtr scale pn, consistent a -> 2 <= List.length (sensors a) ->
  (forall s, In s (sensors a) -> amp (ser s) <> []) -> tax = "x" \/ tax = "y" ->
  exists m, waterfall a given tax dtr NormEach scale pn = (m, Ok (negb given)) /\
    Forall2 (fun s c => exists mx ds, largest_magnitude (plotted dtr s) mx /\ drawn tax (map Fin (time (ser s))) ds c /\
      ((0 < mx)%Qc -> ds = map (fun v => Fin (place pn a s + chosen_scale scale a * (v / mx))%Qc) (plotted dtr s)) /\
      (mx = 0%Qc -> ds = map (fun _ => NaN) (plotted dtr s)))
      (sensors a) (curves m).
Proof. exact waterfall_each. Qed.
Print Assumptions C81_waterfall.
(** The other normalisations: the rows of timeseriesmatrix (C22), scaled and moved to their place. *)
Theorem C81_any_normalisation : forall a given tax dtr norm scale pn rows, consistent a -> 2 <= List.length (sensors a) ->
  (forall s, In s (sensors a) -> amp (ser s) <> []) -> tax = "x" \/ tax = "y" ->
  timeseriesmatrix a dtr norm = Ok rows ->
  exists m, waterfall a given tax dtr norm scale pn = (m, Ok (negb given)) /\
    Forall2 (fun sr c => drawn tax (map Fin (time (ser (fst sr))))
        (map (fun v => fadd (fmul v (Fin (chosen_scale scale a))) (Fin (place pn a (fst sr)))) (snd sr)) c)
      (combine (sensors a) rows) (curves m).
Proof. exact waterfall_curves. Qed.
Print Assumptions C81_any_normalisation.
(** With the defaults no point is further from its sensor than half the average spacing, so on
    an evenly spaced array the curves of different sensors never cross. *)
Theorem C81_within_half_spacing : forall a given tax dtr pn, consistent a -> 2 <= List.length (sensors a) ->
  (forall s, In s (sensors a) -> amp (ser s) <> []) -> tax = "x" \/ tax = "y" ->
  exists m, waterfall a given tax dtr NormEach None pn = (m, Ok (negb given)) /\
    Forall2 (fun s c => exists ds, drawn tax (map Fin (time (ser s))) ds c /\
      forall d, In (Fin d) ds -> (Qcabs (d - place pn a s) <= half_spacing a)%Qc) (sensors a) (curves m).
Proof.
  intros a given tax dtr pn Hc H2 Hn T. destruct (waterfall_each a given tax dtr None pn Hc H2 Hn T) as (m & E & F).
  exists m. split; [exact E|]. eapply Forall2_impl; [|exact F]. cbv beta. intros s c (mx & ds & L & D & P & Z). exists ds. split; [exact D|].
  intros d Hd. destruct (Qcle_lt_or_eq 0 mx) as [Pm|Em].
  { destruct L as [(v & _ & <-) _]. apply Qcabs_nonneg. }
  - rewrite (P Pm) in Hd. apply in_map_iff in Hd. destruct Hd as (v & Ev & Iv). injection Ev as <-.
    assert (R : forall x y : Qc, (x + y - x = y)%Qc) by (intros; ring). rewrite R.
    apply scaled_bound; auto; [now apply half_spacing_nonneg|]. now apply L.
  - rewrite (Z (eq_sym Em)) in Hd. apply in_map_iff in Hd. destruct Hd as (v & Ev & _). discriminate.
Qed.
Print Assumptions C81_within_half_spacing.
(** The axes: time runs over the records (downwards when it is along y), distance over the array
    and one sensor gap beyond each end. *)
Theorem C81_axes : forall a given tax dtr norm scale pn m b, consistent a -> 2 <= List.length (sensors a) ->
  (forall s, In s (sensors a) -> amp (ser s) <> []) -> tax = "x" \/ tax = "y" ->
  waterfall a given tax dtr norm scale pn = (m, Ok b) ->
  exists s0 s1 rest first final, sensors a = s0 :: s1 :: rest /\
    In first (time (ser s0)) /\ In final (time (ser s0)) /\
    (forall t, In t (time (ser s0)) -> (first <= t /\ t <= final)%Qc) /\
    (if String.eqb tax "x" then interval m "x" first final else interval m "y" final first) /\
    interval m (other tax) (place pn a s0 - (sx s1 - sx s0))%Qc (place pn a (last rest s1) + (sx s1 - sx s0))%Qc /\
    In (Label tax "Time (s)") m /\ In (Label (other tax) "Distance (m)") m.
Proof.
  intros a given tax dtr norm scale pn m b Hc H2 Hn T E.
  destruct (timeseriesmatrix a dtr norm) as [rows|] eqn:Er.
  2: { exfalso. unfold waterfall in E. destruct (negb given && negb (has_axis tax)); [discriminate|].
       destruct (pyget (sensors a) 0); [|discriminate]. cbv zeta in E. rewrite Er in E. discriminate. }
  destruct (waterfall_ok a given tax dtr norm scale pn rows Hc H2 Hn T Er) as (s0 & s1 & rest & t0 & tr & Es & Et & E').
  cbv zeta in E'. rewrite E' in E. injection E as <- _. 
  exists s0, s1, rest, (lmin t0 tr), (lmax t0 tr). split; [exact Es|]. rewrite Et.
  destruct (lmin_spec tr t0) as (A & B & D). destruct (lmax_spec tr t0) as (A' & B' & D').
  split; [destruct D as [D|D]; [left; symmetry; exact D|right; exact D]|]. split; [destruct D' as [D'|D']; [left; symmetry; exact D'|right; exact D']|].
  split; [|split; [|split; [|split]]].
  - intros t [<-|It]; split; auto.
  - unfold interval. destruct T as [-> | ->]; apply in_or_app; right; left; reflexivity.
  - unfold interval. apply in_or_app. right. right. left.
    assert (G : (place pn a s1 - place pn a s0 = sx s1 - sx s0)%Qc) by (unfold place; destruct pn; ring).
    rewrite G, Es. cbn [map].
    change (last (place pn a s0 :: place pn a s1 :: map (place pn a) rest) 0%Qc) with (last (place pn a s1 :: map (place pn a) rest) 0%Qc).
    rewrite last_map. reflexivity.
  - apply in_or_app. right. right. right. right. left. reflexivity.
  - apply in_or_app. right. right. right. right. right. left. reflexivity.
Qed.
Print Assumptions C81_axes.
(** An unknown time axis: refused before anything is drawn, unless axes were supplied - then the
    curves are drawn and an AttributeError escapes. *)
Theorem C81_unknown_axis : forall a dtr norm scale pn tax, tax <> "x" -> tax <> "y" ->
  waterfall a false tax dtr norm scale pn = ([], Err ValueError) /\
  forall rows, (forall s, In s (sensors a) -> amp (ser s) <> []) -> timeseriesmatrix a dtr norm = Ok rows ->
    exists m, waterfall a true tax dtr norm scale pn = (m, Err AttributeError).
Proof. intros. split; [now apply waterfall_bad_axis|]. intros. eapply waterfall_bad_axis_given; eauto. Qed.
Print Assumptions C81_unknown_axis.
(** A single sensor cannot be plotted: the curve is drawn and then an IndexError raised. *)
Theorem C81_single_sensor_refuted : forall a s given tax dtr norm scale pn rows, sensors a = [s] -> amp (ser s) <> [] ->
  tax = "x" \/ tax = "y" -> timeseriesmatrix a dtr norm = Ok rows ->
  exists m, waterfall a given tax dtr norm scale pn = (m, Err IndexError) /\ List.length (curves m) = 1.
Proof. exact waterfall_single. Qed.
Print Assumptions C81_single_sensor_refuted.

Local Definition z (n : Z) : Qc := QcZ n.
Local Definition sen (x : Z) (l : list Z) : sensor := mkSensor (mkSeries (map z l) 1 1 0 1) (z x) 0 0.
Local Definition a81 : array := mkArray [sen 0 [0; 2; -4]%Z; sen 4 [1; 1; 0]%Z; sen 12 [0; 0; 0]%Z] (mkSource (z (-1)) 0 0).
Lemma a81_facts : consistent a81 /\ (forall s, In s (sensors a81) -> amp (ser s) <> []).
Proof.
  split.
  - split; [discriminate|]. split.
    + cbn. repeat constructor.
    + intros s t Hs Ht. cbn in Hs, Ht. unfold agree. intuition (subst; vm_compute; auto).
  - intros s [<-|[<-|[<-|[]]]]; discriminate.
Qed.
Local Definition show (f : flt) : option Q := match f with Fin q => Some (this q) | _ => None end.
Example C81_example :
  let r := waterfall a81 false "y" false NormEach None true in
  snd r = Ok true /\
  map (fun c => map show (fst c)) (curves (fst r)) =
    [[Some 0; Some (3 # 2); Some (-3)]; [Some 7; Some 7; Some 4]; [None; None; None]]%Q /\
  snd (waterfall (mkArray [sen 3 [1]%Z] (mkSource (z 9) 0 0)) true "x" false NormAll None false) = Err IndexError /\
  snd (waterfall a81 true "z" true NormEach None false) = Err AttributeError.
Proof. vm_compute. repeat split. Qed.

(** ** C88: the schematic *)
(** The sensors at their coordinates, their number, the source; a spacing is stated exactly when
    all gaps between neighbours agree to 1 cm, and is then within 1.5 cm of every gap. *)
Theorem C88_schematic : forall a given ylim, exists gap lo hi,
  schematic a given ylim =
    ([Curve (map (fun s => Fin (sx s)) (sensors a)) (map (fun s => Fin (sy s)) (sensors a));
      Summary (List.length (sensors a)) gap (round2 (src_x (src a)));
      Curve [Fin (src_x (src a))] [Fin (src_y (src a))]; Limits "y" lo hi; Label "x" "Distance (m)"], Ok (negb given)) /\
  (lo <= fst ylim /\ lo <= z (-2) /\ snd ylim <= hi /\ z 5 <= hi)%Qc /\
  (gap = None <-> List.length (sensors a) < 2 \/ exists i j, S i < List.length (sensors a) /\ S j < List.length (sensors a) /\
     (Q2Qc (1 # 100) <= (nth (S i) (position a) 0 - nth i (position a) 0) - (nth (S j) (position a) 0 - nth j (position a) 0))%Qc) /\
  forall g i, gap = Some g -> S i < List.length (sensors a) ->
    (Qcabs (nth (S i) (position a) 0 - nth i (position a) 0 - g) <= Q2Qc (15 # 1000))%Qc.
Proof.
  intros a given ylim.
  assert (Sp : forall e, spacing a = Err e -> e = ValueError).
  { intros e. unfold spacing. destruct (diffs (position a)) as [|d t]; [now injection 1|]. destruct (Qcltb _ _); [discriminate|now injection 1]. }
  exists (match spacing a with Ok d => Some d | Err _ => None end),
    (if Qcltb (QcZ (-2)) (fst ylim) then QcZ (-2) else fst ylim), (if Qcltb (snd ylim) (QcZ 5) then QcZ 5 else snd ylim).
  split; [|split; [|split]].
  - unfold schematic. destruct (spacing a) as [d|e]; [reflexivity|]. rewrite (Sp e eq_refl). reflexivity.
  - destruct (Qcltb_spec (QcZ (-2)) (fst ylim)) as [L|L], (Qcltb_spec (snd ylim) (QcZ 5)) as [M|M];
      repeat split; auto using Qclt_le_weak, Qcle_refl; apply Qcnot_lt_le; assumption.
  - pose proof (spacing_errors a) as S. assert (Len : List.length (position a) = List.length (sensors a)) by apply map_length.
    split.
    + intros N. assert (X : exists e, spacing a = Err e) by (destruct (spacing a) as [|e]; [discriminate|now exists e]).
      apply S in X. destruct X as [X|(x & y & Ix & Iy & L)]; [now left|right].
      apply diffs_spec in Ix, Iy. destruct Ix as (i & Hi & ->), Iy as (j & Hj & ->). exists i, j. rewrite Len in *. auto.
    + intros X. assert (Y : exists e, spacing a = Err e).
      { apply S. destruct X as [X|(i & j & Hi & Hj & L)]; [now left|right]. eexists _, _. split; [|split; [|exact L]]; apply diffs_spec; eexists; (split; [|reflexivity]); rewrite Len; auto. }
      destruct Y as (e & ->). reflexivity.
  - intros g i Eg Hi. destruct (spacing a) as [d|] eqn:Es; [|discriminate]. injection Eg as ->.
    apply (spacing_spec a g Es). apply diffs_spec. exists i. split; [|reflexivity]. unfold position. rewrite map_length. exact Hi.
Qed.
Print Assumptions C88_schematic.
Example C88_example :
  (match schematic a81 true (z 0, z 9) with (_ :: Summary n None _ :: _, Ok false) => n = 3 | _ => False end) /\
  (match schematic (mkArray [sen 0 []; sen 2 []] (mkSource (z 9) 0 0)) false (z 0, z 9) with
   | (_ :: Summary n (Some g) x :: _, Ok true) => n = 2 /\ this g = 2%Q /\ this x = 9%Q | _ => False end).
Proof. vm_compute. repeat split. Qed.

(** ** C86: picking first arrivals by hand *)
(** However the time axis is drawn, the picks are the accepted (distance, time) points, in order;
    the session goes on until the user ends it with a second key. *)
Theorem C86_picks : forall a tax dtr norm scale pn rows u r u', consistent a -> 2 <= List.length (sensors a) ->
  (forall s, In s (sensors a) -> amp (ser s) <> []) -> tax = "x" \/ tax = "y" ->
  timeseriesmatrix a dtr norm = Ok rows ->
  manual_pick a false tax dtr norm scale pn (clicking tax u) = Returned r u' ->
  exists ds ts rounds idle wd rest, r = Ok (ds, ts) /\ clicks u = rounds ++ rest /\
    waits u = (idle ++ [Some true]) ++ wd ++ waits u' /\ ~ In (Some true) idle /\
    combine ds ts = accepted_points rounds /\ List.length ds = List.length ts /\
    wait_log true (List.length ds) true wd.
Proof.
  intros a tax dtr norm scale pn rows u r u' Hc H2 Hn T Er E.
  rewrite (manual_pick_session a tax dtr norm scale pn rows u Hc H2 Hn T Er) in E.
  destruct (ginput_session _ _ _ u) as [|[ds ts] v] eqn:G; [discriminate|]. injection E as <- <-.
  destruct (endless_session u ds ts v G) as (rounds & idle & wd & H). exists ds, ts, rounds, idle, wd, (clicks v). split; [reflexivity|]. exact H.
Qed.
Print Assumptions C86_picks.
Theorem C86_orientation : forall a dtr norm scale pn rows u, consistent a -> 2 <= List.length (sensors a) ->
  (forall s, In s (sensors a) -> amp (ser s) <> []) -> timeseriesmatrix a dtr norm = Ok rows ->
  (manual_pick a false "x" dtr norm scale pn (clicking "x" u) = Waiting /\
   manual_pick a false "y" dtr norm scale pn (clicking "y" u) = Waiting) \/
  exists r v, manual_pick a false "x" dtr norm scale pn (clicking "x" u) = Returned r (clicking "x" v) /\
              manual_pick a false "y" dtr norm scale pn (clicking "y" u) = Returned r (clicking "y" v).
Proof.
  intros a dtr norm scale pn rows u Hc H2 Hn Er.
  rewrite (manual_pick_session a "x" dtr norm scale pn rows u Hc H2 Hn (or_introl eq_refl) Er).
  rewrite (manual_pick_session a "y" dtr norm scale pn rows u Hc H2 Hn (or_intror eq_refl) Er).
  destruct (ginput_session _ _ _ u) as [|p v]; [left; auto|right]. exists (Ok p), v. auto.
Qed.
Print Assumptions C86_orientation.
(** Axes of the user's own cannot be used: waterfall then returns None, which cannot be unpacked. *)
Theorem C86_own_axes_refuted : forall a tax dtr norm scale pn rows u, consistent a -> 2 <= List.length (sensors a) ->
  (forall s, In s (sensors a) -> amp (ser s) <> []) -> tax = "x" \/ tax = "y" ->
  timeseriesmatrix a dtr norm = Ok rows ->
  manual_pick a true tax dtr norm scale pn u = Returned (Err TypeError) u.
Proof.
  intros a tax dtr norm scale pn rows u Hc H2 Hn T Er. unfold manual_pick.
  destruct (waterfall_curves a true tax dtr norm scale pn rows Hc H2 Hn T Er) as (m & -> & _). reflexivity.
Qed.
Print Assumptions C86_own_axes_refuted.
(** Whatever stops the plot stops the picking before the user is asked for anything. *)
Theorem C86_plot_errors : forall a given tax dtr norm scale pn u m e, waterfall a given tax dtr norm scale pn = (m, Err e) ->
  manual_pick a given tax dtr norm scale pn u = Returned (Err e) u.
Proof. intros * E. unfold manual_pick. now rewrite E. Qed.
Print Assumptions C86_plot_errors.
Theorem C86_automatic_algorithms : forall a alg thr, alg <> "threshold" -> auto_pick a alg thr = Err NotImplementedError.
Proof. intros a alg thr N. unfold auto_pick. destruct (String.eqb_spec alg "threshold"); [contradiction|reflexivity]. Qed.
Print Assumptions C86_automatic_algorithms.
Example C86_example :
  match manual_pick a81 false "x" false NormNone None false (mkUser [[(z 2, z 4)]; []; [(z 1, z 1); (z 1, z 12)]] [None; Some true; Some true; None; Some true; Some true]) with
  | Returned (Ok (ds, ts)) _ => map this ds = [4; 12]%Q /\ map this ts = [2; 1]%Q
  | _ => False
  end.
Proof. vm_compute. repeat split. Qed.

(** The curve drawn before the error is made of NaN unless a scale was given: the mean distance of one sensor is NaN. *)
Theorem C81_single_trace : forall a s given tax dtr norm pn rows, sensors a = [s] -> amp (ser s) <> [] ->
  tax = "x" \/ tax = "y" -> timeseriesmatrix a dtr norm = Ok rows ->
  exists m ds, waterfall a given tax dtr norm None pn = (m, Err IndexError) /\
    (exists c, curves m = [c] /\ drawn tax (map Fin (time (ser s))) ds c) /\ forall d, In d ds -> d = NaN.
Proof.
  intros a s given tax dtr norm pn rows Es Na Ht M.
  assert (Hx : has_axis tax = true) by (destruct Ht as [-> | ->]; reflexivity).
  pose proof (timeseriesmatrix_length _ _ _ _ M) as L. rewrite Es in L. destruct rows as [|row [|? ?]]; try discriminate.
  assert (P : (if pn then position_normalized a else Ok (position a)) = Ok [place pn a s]).
  { pose proof (places_ok pn a) as Q. unfold places in Q. rewrite Q by (rewrite Es; discriminate). rewrite Es. reflexivity. }
  assert (T : exists t0 tr, time (ser s) = t0 :: tr).
  { unfold time, nsamples, range. destruct (amp (ser s)); [congruence|]. cbn. eauto. }
  destruct T as (t0 & tr & T).
  unfold waterfall. rewrite Hx, Bool.andb_false_r, Es. change (pyget [s] 0) with (Ok s). rewrite M, P.
  cbv zeta. cbn [combine map default_scale diffs fst snd app]. unfold decorate. rewrite T, Hx. cbv zeta.
  exists (trace_curve tax (t0 :: tr) (shifted NaN (place pn a s) row) :: [if String.eqb tax "x" then Limits tax (lmin t0 tr) (lmax t0 tr) else Limits tax (lmax t0 tr) (lmin t0 tr)]),
    (shifted NaN (place pn a s) row).
  split; [reflexivity|]. split.
  - exists (if String.eqb tax "x" then (map Fin (t0 :: tr), shifted NaN (place pn a s) row) else (shifted NaN (place pn a s) row, map Fin (t0 :: tr))).
    destruct Ht as [-> | ->]; (split; [reflexivity|]); [left|right]; split; reflexivity.
  - intros d Hd. unfold shifted in Hd. apply in_map_iff in Hd. destruct Hd as (v & <- & _). destruct v; reflexivity.
Qed.
Print Assumptions C81_single_trace.
