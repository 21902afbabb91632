(* Proofs: the processing of a sum of records. *)
From Verif Require Import NumFacts PyFacts SeriesProofs ArrayModel ArrayProofs TransformModel SpectrumModel BeamModel BeamProofs BeamArrayProofs GainSpec GainProofs GainImageProofs SumSpec.
From Coq Require Import Lra.
Local Open Scope nat_scope.
Local Open Scope list_scope.
Local Open Scope py_scope.

(** Two surveys as one of pairs; the operations of the code on pairs. *)
Definition pr : Type := (Qc * Qc)%type.
Definition p0 : pr := (0%Qc, 0%Qc).
Definition padd (x y : pr) : pr := ((fst x + fst y)%Qc, (snd x + snd y)%Qc).
Definition pmul (k : Qc) (x : pr) : pr := ((k * fst x)%Qc, (k * snd x)%Qc).
Definition psum (l : list pr) : pr := fold_right padd p0 l.
Definition both (x : pr) : Qc := (fst x + snd x)%Qc.
Definition p_interpolate (row : list pr) (delta : Qc) (cols : list Z) : result (list pr) :=
  mapM (fun c => do a <- pyget row c; do b <- pyget row (c + 1)%Z; Ok (padd (pmul (1 - delta) a) (pmul delta b))) cols.
Definition p_step (tm : list (list pr)) (diff pre : list Qc) (ntaus : nat) (cols : list (list Z)) (previous : list Z) (v : Qc) : result (list (list Z) * list Z * list pr) :=
  let fi := map (fun p => p / v)%Qc pre in
  let lower := map trunc fi in
  let delta := map2 (fun f l => f - QcZ l)%Qc fi lower in
  let cols' := map2 (fun cs d => map (fun c => c + d)%Z cs) cols (map2 Z.sub lower previous) in
  do amps <- mapM (fun x => p_interpolate (fst (fst x)) (snd (fst x)) (snd x)) (combine (combine tm delta) cols');
  let integral := map2 (fun d ab => map2 (fun x y => pmul (Q2Qc (1 # 2) * d) (padd x y)) (fst ab) (snd ab)) diff (combine (tl amps) amps) in
  Ok (cols', lower, map (fun t => psum (map (fun r => nth t r p0) integral)) (range ntaus)).
Fixpoint p_loop (tm : list (list pr)) (diff pre : list Qc) (ntaus : nat) (cols : list (list Z)) (previous : list Z) (vels : list Qc) : result (list (list pr)) :=
  match vels with
  | [] => Ok []
  | v :: t =>
      do r <- p_step tm diff pre ntaus cols previous v;
      let '(cols', lower, row) := r in
      do rest <- p_loop tm diff pre ntaus cols' lower t;
      Ok (row :: rest)
  end.
Definition p_stack (tm : list (list pr)) (position : list Qc) (dt : Qc) (vels : list Qc) : result (list (list pr)) :=
  do pm <- qmin position;
  let pos := map (fun x => x - pm)%Qc position in
  if existsb (fun v => Qceqb v 0%Qc) vels || Qceqb dt 0%Qc then Err OverflowError else
  do far <- qmax pos;
  do slow <- qmax (map (fun v => 1 / v)%Qc vels);
  let npts := List.length (nth 0 tm []) in
  let ntaus := (Z.of_nat npts - trunc (far * slow / dt)%Qc - 1)%Z in
  if (ntaus <? 0)%Z then Err ValueError else
  let nt := Z.to_nat ntaus in
  p_loop tm (diffs pos) (map (fun x => x / dt)%Qc pos) nt (map (fun _ => map Z.of_nat (range nt)) pos) (map (fun _ => 0%Z) pos) vels.

Section Linear.
  Variable h : pr -> Qc.
  Hypothesis h0 : h p0 = 0%Qc.
  Hypothesis hadd : forall x y, h (padd x y) = (h x + h y)%Qc.
  Hypothesis hmul : forall k x, h (pmul k x) = (k * h x)%Qc.
  Notation H := (map h).
  Lemma h_nth i l : nth i (H l) 0%Qc = h (nth i l p0).
  Proof. rewrite <- h0. apply map_nth. Qed.
  Lemma h_sum l : Qcsum (H l) = h (psum l).
  Proof. induction l as [|x l IH]; [symmetry; exact h0|]. cbn [map psum fold_right]. change (Qcsum (h x :: H l)) with (h x + Qcsum (H l))%Qc. rewrite IH, hadd. reflexivity. Qed.
  Lemma h_get l i : pyget (H l) i = outcome_map h (pyget l i).
  Proof. unfold pyget. rewrite map_length. destruct (_ <? _)%Z; [reflexivity|]. rewrite nth_error_map. destruct (nth_error l _); reflexivity. Qed.
  Lemma h_interpolate row d cols : interpolate (H row) d cols = outcome_map H (p_interpolate row d cols).
  Proof.
    unfold interpolate, p_interpolate. apply mapM_outcome. intros k. rewrite !h_get. destruct (pyget row k) as [x|]; [|reflexivity]. cbn [outcome_map bind]. destruct (pyget row (k + 1)%Z) as [y|]; [|reflexivity].
    cbn [outcome_map bind]. f_equal. rewrite hadd, !hmul. ring.
  Qed.
  Lemma h_amps tm d cols : mapM (fun x => interpolate (fst (fst x)) (snd (fst x)) (snd x)) (combine (combine (map H tm) d) cols) =
    outcome_map (map H) (mapM (fun x => p_interpolate (fst (fst x)) (snd (fst x)) (snd x)) (combine (combine tm d) cols)).
  Proof.
    revert d cols. induction tm as [|r tm IH]; intros [|x d] [|k cols]; try reflexivity. cbn [map combine mapM fst snd]. rewrite h_interpolate, IH.
    destruct (p_interpolate r x k); [|reflexivity]. cbn [outcome_map bind]. destruct (mapM _ (combine (combine tm d) cols)); reflexivity.
  Qed.
  Lemma h_panel d l : forall m, map2 (fun x y => Q2Qc (1 # 2) * d * (x + y))%Qc (H l) (H m) = H (map2 (fun x y => pmul (Q2Qc (1 # 2) * d) (padd x y)) l m).
  Proof. induction l as [|x l IH]; intros [|y m]; try reflexivity. cbn [map map2]. rewrite IH, hmul, hadd. reflexivity. Qed.
  Lemma h_panels diff l : forall m, map2 (fun d ab => map2 (fun x y => Q2Qc (1 # 2) * d * (x + y))%Qc (fst ab) (snd ab)) diff (combine (map H l) (map H m)) =
    map H (map2 (fun d ab => map2 (fun x y => pmul (Q2Qc (1 # 2) * d) (padd x y)) (fst ab) (snd ab)) diff (combine l m)).
  Proof. revert l. induction diff as [|d diff IH]; intros [|x l] [|y m]; try reflexivity. cbn [map combine map2 fst snd]. now rewrite h_panel, IH. Qed.
  Lemma h_step tm diff pre nt cols prev v : slant_step (map H tm) diff pre nt cols prev v = outcome_map (fun r => (fst r, H (snd r))) (p_step tm diff pre nt cols prev v).
  Proof.
    unfold slant_step, p_step. rewrite h_amps. destruct (mapM _ _) as [amps|]; [|reflexivity]. cbn [outcome_map bind fst snd]. do 2 f_equal. rewrite tl_map, h_panels, map_map. apply map_ext. intros t.
    rewrite <- h_sum. f_equal. rewrite !map_map. apply map_ext. intros r. apply h_nth.
  Qed.
  Lemma h_loop tm diff pre nt vels : forall cols prev, slant_loop (map H tm) diff pre nt cols prev vels = outcome_map (map H) (p_loop tm diff pre nt cols prev vels).
  Proof.
    induction vels as [|v vels IH]; intros cols prev; [reflexivity|]. cbn [slant_loop p_loop]. rewrite h_step. destruct (p_step tm diff pre nt cols prev v) as [[[cols' lower] row]|]; [|reflexivity].
    cbn [outcome_map bind fst snd]. rewrite IH. destruct (p_loop tm diff pre nt cols' lower vels); reflexivity.
  Qed.
  Lemma h_stack tm offs d vels : slant_stack_of (map H tm) offs d vels = outcome_map (map H) (p_stack tm offs d vels).
  Proof.
    unfold slant_stack_of, p_stack. destruct (qmin offs) as [pm|]; [|reflexivity]. cbn [bind]. destruct (_ || _); [reflexivity|].
    destruct (qmax (map _ offs)) as [far|]; [|reflexivity]. cbn [bind]. destruct (qmax (map _ vels)) as [slow|]; [|reflexivity]. cbn [bind].
    replace (List.length (nth 0 (map H tm) [])) with (List.length (nth 0 tm [])) by (destruct tm; [reflexivity|symmetry; apply map_length]). destruct (_ <? 0)%Z; [reflexivity|]. apply h_loop.
  Qed.
End Linear.

Lemma sum_rows l : map2 (map2 Qcplus) (map (map fst) l) (map (map snd) l) = map (map both) l.
Proof. induction l as [|r l IH]; [reflexivity|]. cbn [map map2]. rewrite IH. f_equal. clear. induction r as [|x r IH]; [reflexivity|]. cbn [map map2]. now rewrite IH. Qed.
Lemma pairs_of (l m : list Qc) : List.length l = List.length m -> map fst (combine l m) = l /\ map snd (combine l m) = m /\ map both (combine l m) = map2 Qcplus l m.
Proof. revert m. induction l as [|x l IH]; intros [|y m] E; try discriminate; [repeat split|]. injection E as E. destruct (IH m E) as (A & B & C). cbn [combine map map2 fst snd]. rewrite A, B, C. repeat split. Qed.

(** What the transforms are given. *)
Definition pairs (a b : array) : list (list pr) := map2 (fun s t => combine (amp (ser s)) (amp (ser t))) (sensors a) (sensors b).
Definition p_flipped (a b : array) : list (list pr) := if flip_required a then rev (pairs a b) else pairs a b.
Lemma layout_rows a b : same_layout a b ->
  map (fun s => amp (ser s)) (sensors a) = map (map fst) (pairs a b) /\ map (fun s => amp (ser s)) (sensors b) = map (map snd) (pairs a b) /\
  map (fun s => amp (ser s)) (sensors (added a b)) = map (map both) (pairs a b) /\ position b = position a /\ position (added a b) = position a.
Proof.
  intros [L _]. unfold pairs, position, added. cbn [sensors]. induction L as [|s t l m (E & _ & _ & _ & X) L IH]; [repeat split|]. destruct IH as (A & B & C & D & F).
  cbn [map map2]. destruct (pairs_of _ _ E) as (E1 & E2 & E3). rewrite A, B, C, D, F, E1, E2, E3, X. repeat split; cbn [added_sensor sx]; now rewrite X.
Qed.
Lemma layout_offsets a b : same_layout a b -> offsets b = offsets a /\ offsets (added a b) = offsets a.
Proof.
  intros Y. destruct (layout_rows a b Y) as (_ & _ & _ & D & F). destruct Y as [_ E].
  assert (O : forall x, offsets x = map (fun z => Qcabs (src_x (src x) - z)) (position x)) by (intros x; unfold offsets, position; now rewrite map_map).
  rewrite !O, D, F. rewrite <- E. split; reflexivity.
Qed.
Lemma layout_flipped a b : same_layout a b ->
  flipped a = (map (map fst) (p_flipped a b), snd (flipped a)) /\ flipped b = (map (map snd) (p_flipped a b), snd (flipped a)) /\ flipped (added a b) = (map (map both) (p_flipped a b), snd (flipped a)).
Proof.
  intros Y. destruct (layout_rows a b Y) as (A & B & C & D & F). destruct (layout_offsets a b Y) as [O1 O2]. destruct Y as [_ E].
  assert (G1 : flip_required b = flip_required a) by (unfold flip_required, last_x; now rewrite D, E).
  assert (G2 : flip_required (added a b) = flip_required a) by (unfold flip_required, last_x; now rewrite F).
  unfold flipped, p_flipped. rewrite G1, G2, O1, O2, A, B, C. destruct (flip_required a); cbn [snd]; rewrite ?map_rev; repeat split.
Qed.
Lemma slant_three a b vels : same_layout a b -> sensors a <> [] -> exists r,
  slant_stack a vels = outcome_map (map (map fst)) r /\ slant_stack b vels = outcome_map (map (map snd)) r /\ slant_stack (added a b) vels = outcome_map (map (map both)) r.
Proof.
  intros Y N. destruct (layout_flipped a b Y) as (F1 & F2 & F3). destruct Y as [L _]. unfold slant_stack. rewrite F1, F2, F3. generalize (p_flipped a b) (snd (flipped a)). intros q offs.
  cbn [added sensors]. destruct L as [|s t l m (_ & D & _) L]; [congruence|]. cbn [map2 added_sensor ser dt]. exists (p_stack q offs (dt (ser s)) vels). rewrite <- D.
  repeat split; apply h_stack; try reflexivity; intros; unfold both, padd, pmul; cbn [fst snd]; ring.
Qed.
Lemma slant_added a b vels ra rb : same_layout a b -> slant_stack a vels = Ok ra -> slant_stack b vels = Ok rb -> slant_stack (added a b) vels = Ok (map2 (map2 Qcplus) ra rb).
Proof.
  intros Y A B. assert (N : sensors a <> []) by (intros E; unfold slant_stack in A; rewrite E in A; discriminate). destruct (slant_three a b vels Y N) as ([r|] & R1 & R2 & R3); rewrite R1 in A; [|discriminate]. rewrite R2 in B.
  injection A as <-. injection B as <-. rewrite R3. cbn [outcome_map]. now rewrite sum_rows.
Qed.
Lemma slant_refused a b vels e : same_layout a b -> slant_stack a vels = Err e -> slant_stack b vels = Err e /\ slant_stack (added a b) vels = Err e.
Proof.
  intros Y A. destruct (sensors a) as [|s l] eqn:S.
  - destruct Y as [L _]. rewrite S in L. inversion L as [E|]. unfold slant_stack in *. cbn [added sensors]. rewrite <- H. rewrite S in *. cbn [map2]. split; assumption.
  - destruct (slant_three a b vels Y) as ([r|] & R1 & R2 & R3); [rewrite S; discriminate|rewrite R1 in A; discriminate|]. rewrite R1 in A. injection A as ->. split; assumption.
Qed.

(** * Single records *)
Lemma sum_added l : forall m, List.length l = List.length m -> Qcsum (map2 Qcplus l m) = (Qcsum l + Qcsum m)%Qc.
Proof. induction l as [|x l IH]; intros [|y m] E; try discriminate; [cbn; ring|]. injection E as E. cbn [map2]. change (Qcsum ((x + y)%Qc :: map2 Qcplus l m)) with (x + y + Qcsum (map2 Qcplus l m))%Qc. rewrite IH by exact E. change (Qcsum (x :: l)) with (x + Qcsum l)%Qc. change (Qcsum (y :: m)) with (y + Qcsum m)%Qc. ring. Qed.
Lemma length_added (l : list Qc) : forall m, List.length l = List.length m -> List.length (map2 Qcplus l m) = List.length l.
Proof. induction l as [|x l IH]; intros [|y m] E; try discriminate; [reflexivity|]. injection E as E. cbn [map2 List.length]. now rewrite IH. Qed.
Lemma dot_added r : forall l m, List.length l = List.length m -> dot r (map2 Qcplus l m) = (dot r l + dot r m)%Qc.
Proof.
  unfold dot. induction r as [|x r IH]; intros [|y l] [|z m] E; try discriminate; try (cbn; ring). injection E as E. cbn [map2].
  change (Qcsum ((x * (y + z))%Qc :: map2 Qcmult r (map2 Qcplus l m))) with (x * (y + z) + Qcsum (map2 Qcmult r (map2 Qcplus l m)))%Qc. rewrite IH by exact E.
  change (Qcsum ((x * y)%Qc :: map2 Qcmult r l)) with (x * y + Qcsum (map2 Qcmult r l))%Qc. change (Qcsum ((x * z)%Qc :: map2 Qcmult r m)) with (x * z + Qcsum (map2 Qcmult r m))%Qc. ring.
Qed.
Lemma detrend_added l m : List.length l = List.length m -> detrend (map2 Qcplus l m) = map2 Qcplus (detrend l) (detrend m).
Proof.
  intros E. unfold detrend, mean, slope. rewrite !length_added, sum_added, dot_added, <- E by exact E. generalize (ramp (List.length l)) as r. intros r. set (d := dot r r). set (n := QcN (List.length l)).
  replace ((Qcsum l + Qcsum m) / n)%Qc with (Qcsum l / n + Qcsum m / n)%Qc by (unfold Qcdiv; ring).
  replace (if Qceqb d 0 then 0%Qc else ((dot r l + dot r m) / d)%Qc) with ((if Qceqb d 0 then 0 else dot r l / d) + (if Qceqb d 0 then 0 else dot r m / d))%Qc by (destruct (Qceqb d 0); unfold Qcdiv; ring).
  generalize (Qcsum l / n)%Qc (Qcsum m / n)%Qc (if Qceqb d 0 then 0 else dot r l / d)%Qc (if Qceqb d 0 then 0 else dot r m / d)%Qc. intros a b c e. clear n d.
  revert l m E. induction r as [|x r IH]; intros [|y l] [|z m] E; try discriminate; try reflexivity. injection E as E. cbn [map2]. rewrite IH by exact E. f_equal. ring.
Qed.
Lemma nth_added l : forall m i, List.length l = List.length m -> nth i (map2 Qcplus l m) 0%Qc = (nth i l 0 + nth i m 0)%Qc.
Proof. induction l as [|x l IH]; intros [|y m] [|i] E; try discriminate; try reflexivity; cbn [map2 nth]; try ring. injection E as E. now apply IH. Qed.
Lemma map_added {A} (f g : A -> Qc) ks : map (fun k => (f k + g k)%Qc) ks = map2 Qcplus (map f ks) (map g ks).
Proof. induction ks as [|k ks IH]; [reflexivity|]. cbn [map map2]. now rewrite IH. Qed.
Lemma correlate_added l m w : List.length l = List.length m -> correlate (map2 Qcplus l m) w = map2 Qcplus (correlate l w) (correlate m w).
Proof.
  intros E. destruct w as [|z w]; [unfold correlate; destruct l, m; reflexivity|]. assert (G : forall q, q <> [] -> correlate q (z :: w) = map (fun k => Qcsum (map (fun i => nth i q 0 * sample (z :: w) (Z.of_nat i - Z.of_nat k + Z.of_nat (List.length (z :: w)) - 1))%Qc (range (List.length q)))) (range (List.length q + List.length (z :: w) - 1))) by (intros [|? ?] N; [congruence|reflexivity]).
  destruct (list_eq_dec Qc_eq_dec l []) as [->|N]; [destruct m; [reflexivity|discriminate]|]. assert (N' : m <> []) by (intros ->; now destruct l).
  rewrite (G l N), (G m N'), G; [|intros Z; apply (f_equal (@List.length Qc)) in Z; rewrite length_added in Z by exact E; now destruct l].
  rewrite length_added, <- E, <- map_added by exact E. apply map_ext. intros k. rewrite <- Qcsum_plus. f_equal. apply map_ext. intros i. rewrite nth_added by exact E. ring.
Qed.
Lemma dft_added l m k : List.length l = List.length m -> dft (map2 Qcplus l m) k = Cadd (dft l k) (dft m k).
Proof. intros E. unfold dft. rewrite length_added, <- E, <- Csum_map_add by exact E. f_equal. apply map_ext. intros i. rewrite nth_added, toR_add by exact E. unfold RtoC, Cadd, Cmul. cbn [fst snd]. f_equal; ring. Qed.

(** * Images *)
Lemma both_map q : map both q = map2 Qcplus (map fst q) (map snd q).
Proof. induction q as [|x q IH]; [reflexivity|]. cbn [map map2]. now rewrite IH. Qed.
Lemma padded_map (h : pr -> Qc) n r : h p0 = 0%Qc -> firstn n (map h r) ++ repeat 0%Qc (n - List.length (map h r)) = map h (firstn n r ++ repeat p0 (n - List.length r)).
Proof. intros Z. rewrite map_app, <- firstn_map, map_length. f_equal. generalize (n - List.length r). intros k. induction k as [|k IH]; [reflexivity|]. cbn [repeat map]. now rewrite IH, Z. Qed.
Lemma fft_both r n k : fft_n (map both r) n k = Cadd (fft_n (map fst r) n k) (fft_n (map snd r) n k).
Proof. unfold fft_n. rewrite !padded_map by (unfold both, p0; cbn [fst snd]; ring). rewrite both_map. apply dft_added. now rewrite !map_length. Qed.
Lemma image_rows n ids l : map (fun r => map (fun i => fft_n r n (Z.to_nat i)) ids) (map (map both) l) =
  map2 (map2 Cadd) (map (fun r => map (fun i => fft_n r n (Z.to_nat i)) ids) (map (map fst) l)) (map (fun r => map (fun i => fft_n r n (Z.to_nat i)) ids) (map (map snd) l)).
Proof.
  induction l as [|r l IH]; [reflexivity|]. cbn [map map2]. rewrite IH. f_equal. clear IH. induction ids as [|i ids IH]; [reflexivity|]. cbn [map map2]. rewrite IH. f_equal. apply fft_both.
Qed.
Lemma image_added a b vels lo hi fa fb ra rb : same_layout a b -> slant_transform a vels lo hi = Ok (fa, ra) -> slant_transform b vels lo hi = Ok (fb, rb) ->
  fb = fa /\ slant_transform (added a b) vels lo hi = Ok (fa, map2 (map2 Cadd) ra rb).
Proof.
  intros Y A B. assert (N : sensors a <> []) by (intros E; unfold slant_transform in A; rewrite E in A; discriminate). destruct (slant_three a b vels Y N) as (r & R1 & R2 & R3). destruct Y as [L _].
  unfold slant_transform in *. rewrite R1 in A. rewrite R2 in B. rewrite R3. clear R1 R2 R3 N. cbn [added sensors] in *. destruct L as [|s t l m (E & D & _ & M & _) L]; [discriminate|]. cbn [map2 added_sensor ser multiple] in *.
  destruct r as [r|]; [|discriminate]. cbn [outcome_map bind] in *. unfold internal_df, nsamples in *. cbn [amp dt] in *. rewrite <- E, <- D, <- M in B. rewrite length_added by exact E.
  destruct (if Qceqb _ _ then _ else _) as [df|]; [|discriminate]. cbn [bind] in *. destruct (frequency_keep_ids _ lo hi _) as [ids|]; [|discriminate]. cbn [bind] in *. destruct (take _ ids) as [fs|]; [|discriminate]. cbn [bind] in *.
  injection A as <- <-. injection B as <- <-. split; [reflexivity|]. now rewrite image_rows.
Qed.

(** * Whole arrays *)
Lemma array_detrend_added a b : same_layout a b -> array_detrend (added a b) = added (array_detrend a) (array_detrend b).
Proof.
  intros [L _]. unfold array_detrend, added, set_sensors. cbn [sensors src]. f_equal. induction L as [|s t l m (E & _) L IH]; [reflexivity|]. cbn [map map2]. rewrite IH. f_equal.
  unfold detrend_sensor, added_sensor, set_ser, set_amp. cbn [ser amp dt nstacks delay multiple sx sy sz]. now rewrite detrend_added.
Qed.
Lemma slice_added lo hi (l m : list Qc) : List.length l = List.length m -> pyslice lo hi (map2 Qcplus l m) = map2 Qcplus (pyslice lo hi l) (pyslice lo hi m).
Proof.
  intros E. destruct (pairs_of l m E) as (A & B & C). rewrite <- C. rewrite <- A at 2. rewrite <- B at 3. generalize (combine l m). intros q. unfold pyslice. rewrite !map_length, !firstn_map, !skipn_map. apply both_map.
Qed.
Lemma correlate_length_eq (l m w : list Qc) : List.length l = List.length m -> List.length (correlate l w) = List.length (correlate m w).
Proof. intros E. unfold correlate. destruct l, m; try discriminate; [reflexivity|]. destruct w; [reflexivity|]. rewrite !map_length. now rewrite E. Qed.
Lemma xcorrelate_added a b w d vmin vmax a' b' : same_layout a b -> xcorrelate a w d vmin vmax = (a', Ok tt) -> xcorrelate b w d vmin vmax = (b', Ok tt) -> xcorrelate (added a b) w d vmin vmax = (added a' b', Ok tt).
Proof.
  intros Y A B. destruct (layout_offsets a b Y) as [O1 O2]. destruct Y as [L S]. unfold xcorrelate in *. rewrite O2. rewrite O1 in B. destruct (offsets a) as [|o os]; [discriminate|]. destruct (xcorr_bounds _ _ _ _ _ _) as [[lo hi]|]; [|discriminate].
  set (f := fun s => new_sensor _ _ _ _ _ _ _) in *. destruct (mapM f (sensors a)) as [la|] eqn:EA; [|discriminate]. destruct (mapM f (sensors b)) as [lb|] eqn:EB; [|discriminate]. injection A as <-. injection B as <-.
  assert (G : mapM f (sensors (added a b)) = Ok (map2 added_sensor la lb)).
  { unfold added. cbn [sensors]. clear O1 O2 S. revert la lb EA EB. induction L as [|s t l m (E & D & _ & _ & X) L IH]; intros la lb EA EB; cbn [mapM map2] in *; [injection EA as <-; reflexivity|].
    destruct (f s) as [s'|] eqn:Fs; [|discriminate]. destruct (f t) as [t'|] eqn:Ft; [|discriminate]. cbn [bind] in *. destruct (mapM f l) as [la'|]; [|discriminate]. destruct (mapM f m) as [lb'|]; [|discriminate]. injection EA as <-. injection EB as <-.
    rewrite (IH _ _ eq_refl eq_refl). unfold f, new_sensor, new_series in *. cbn [added_sensor ser amp dt nstacks sx sy sz] in *. destruct (nstacks (ser s) <=? 0)%Z; [discriminate|]. destruct (nstacks (ser t) <=? 0)%Z; [discriminate|].
    destruct (Qcltb 0 0); [discriminate|]. cbn [bind] in *. injection Fs as <-. injection Ft as <-. rewrite correlate_added, slice_added by (try apply correlate_length_eq; exact E). reflexivity. }
  rewrite G. reflexivity.
Qed.
Lemma shape_added a b vels ra rb : same_layout a b -> slant_stack a vels = Ok ra -> slant_stack b vels = Ok rb -> map (@List.length Qc) ra = map (@List.length Qc) rb.
Proof.
  intros Y A B. assert (N : sensors a <> []) by (intros E; unfold slant_stack in A; rewrite E in A; discriminate). destruct (slant_three a b vels Y N) as ([r|] & R1 & R2 & _); rewrite R1 in A; [|discriminate]. rewrite R2 in B.
  injection A as <-. injection B as <-. rewrite !map_map. apply map_ext. intros x. now rewrite !map_length.
Qed.
