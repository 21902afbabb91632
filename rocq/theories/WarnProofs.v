From Coq Require Import Permutation.
From Verif Require Import PyFacts NumFacts SeriesModel SeriesSpec SeriesProofs ArrayModel ArrayProofs HeaderModel WarnModel WarnSpec.
Local Open Scope list_scope.

Lemma snd_wbind {A B} (x : warned A) (f : A -> warned B) : snd (wbind x f) = bind (snd x) (fun a => snd (f a)).
Proof. unfold wbind. destruct (snd x); reflexivity. Qed.
Lemma fst_wbind {A B} (x : warned A) (f : A -> warned B) a : snd x = Ok a -> fst (wbind x f) = fst x ++ fst (f a).
Proof. unfold wbind. intros ->. reflexivity. Qed.
Lemma bind_same {A B} (x y : result A) (f g : A -> result B) : x = y -> (forall a, f a = g a) -> bind x f = bind y g.
Proof. intros -> E. destruct y; cbn [bind]; auto. Qed.

(** * The values are those of the model without warnings. *)
Lemma safely_get_same {A} n (f : field A) d : snd (safely_get_w n f d) = Ok (safely_get f d).
Proof. destruct f; reflexivity. Qed.
Lemma nonzero_same w n : snd (nonzero_w w n) = Ok (if (n =? 0)%Z then 1%Z else n).
Proof. unfold nonzero_w. destruct (n =? 0)%Z; reflexivity. Qed.
Lemma from_trace_same t mx my : snd (from_trace_w t mx my) = from_trace t mx my.
Proof.
  unfold from_trace_w, from_trace. destruct (t_header t) as [h|h|h| |]; try reflexivity.
  - unfold from_trace_seg2_w, from_trace_seg2. repeat (rewrite snd_wbind, safely_get_same; cbn [bind]). reflexivity.
  - unfold from_trace_su_w, from_trace_su. cbv zeta.
    repeat (rewrite snd_wbind; rewrite ?safely_get_same, ?nonzero_same; cbn [bind]).
    apply bind_same; [reflexivity|]. intros x. repeat (rewrite snd_wbind; rewrite ?safely_get_same; cbn [bind]).
    apply bind_same; [reflexivity|]. intros y. rewrite snd_wbind, safely_get_same. reflexivity.
  - unfold from_trace_su_w, from_trace_su. cbv zeta.
    repeat (rewrite snd_wbind; rewrite ?safely_get_same, ?nonzero_same; cbn [bind]).
    apply bind_same; [reflexivity|]. intros x. repeat (rewrite snd_wbind; rewrite ?safely_get_same; cbn [bind]).
    apply bind_same; [reflexivity|]. intros y. rewrite snd_wbind, safely_get_same. reflexivity.
Qed.
Lemma units_same h : snd (check_units_w h) = check_units h.
Proof. unfold check_units_w, check_units. destruct (h_units h) as [| |u]; try reflexivity. destruct (u =? 0)%Z, (u =? 1)%Z; reflexivity. Qed.
Lemma parse_source_same f mx my t : snd (parse_source_w f mx my t) = parse_source f mx my t.
Proof.
  unfold parse_source_w, parse_source. destruct f, (t_header t) as [h|h|h| |]; try reflexivity.
  - rewrite snd_wbind. apply bind_same; reflexivity.
  - rewrite snd_wbind. apply bind_same; [apply units_same|intros _].
    rewrite snd_wbind. apply bind_same; [reflexivity|intros sc0].
    rewrite snd_wbind, nonzero_same. cbn [bind].
    do 4 (rewrite snd_wbind; apply bind_same; [reflexivity|intros ?]). reflexivity.
  - rewrite snd_wbind. apply bind_same; [apply units_same|intros _].
    do 5 (rewrite snd_wbind; apply bind_same; [reflexivity|intros ?]). reflexivity.
Qed.
Lemma from_traces_same ts mx my : snd (from_traces_w ts mx my) = mapM (fun t => from_trace t mx my) ts.
Proof.
  induction ts as [|t ts IH]; [reflexivity|]. cbn [from_traces_w mapM]. rewrite snd_wbind.
  apply bind_same; [apply from_trace_same|intros s]. rewrite snd_wbind. apply bind_same; [exact IH|reflexivity].
Qed.
Lemma stack_traces_same : forall ts l, snd (stack_traces_w l ts) = stack_traces l ts.
Proof.
  induction ts as [|t ts IH]; intros [|s l]; try reflexivity. cbn [stack_traces_w stack_traces]. rewrite snd_wbind.
  apply bind_same; [apply from_trace_same|intros n]. destruct (sensor_stack_append s (ObjSensor n)) as [s' [u|e]]; [|reflexivity].
  rewrite snd_wbind. apply bind_same; [apply IH|reflexivity].
Qed.
Lemma stack_file_same f mx my a st : snd (stack_file_w f mx my a st) = stack_file f mx my a st.
Proof.
  destruct st as [|t0 st]; [reflexivity|]. unfold stack_file_w, stack_file. rewrite snd_wbind.
  apply bind_same; [apply parse_source_same|intros ns]. destruct (negb _); [reflexivity|].
  rewrite snd_wbind. apply bind_same; [apply stack_traces_same|reflexivity].
Qed.
Section FromFiles.
  Context {F K : Type} (read : option K -> F -> result (list trace)).
  Lemma stack_files_same f mx my : forall fs a, snd (stack_files_w read f mx my a fs) = stack_files read f mx my a fs.
  Proof.
    induction fs as [|x fs IH]; intros a; [reflexivity|]. cbn [stack_files_w stack_files].
    rewrite snd_wbind. apply bind_same; [reflexivity|intros st]. rewrite snd_wbind.
    apply bind_same; [apply stack_file_same|exact IH].
  Qed.
  Lemma from_files_same mx my kw fs : snd (from_files_w read mx my kw fs) = from_files read mx my kw fs.
  Proof.
    destruct fs as [|f0 rest]; [reflexivity|]. unfold from_files_w, from_files.
    rewrite snd_wbind. apply bind_same; [reflexivity|intros st]. rewrite snd_wbind.
    apply bind_same; [apply from_traces_same|intros ss]. destruct (rev st) as [|tl r]; [reflexivity|].
    destruct (fmt_of _) as [f|]; [|reflexivity]. rewrite snd_wbind.
    apply bind_same; [apply parse_source_same|intros s]. rewrite snd_wbind.
    apply bind_same; [reflexivity|intros a]. apply stack_files_same.
  Qed.
End FromFiles.

(** * The warnings *)
Lemma safely_get_fst {A} n (f : field A) d : fst (safely_get_w n f d) = unread n f.
Proof. destruct f; reflexivity. Qed.
Lemma scaled_nonzero i j s : s <> 0%Z -> exists x, scaled i j s = Ok x.
Proof. intros H. unfold scaled. apply Z.eqb_neq in H. rewrite H. eauto. Qed.
Lemma nonzero_fst w f d : d <> 0%Z -> fst (nonzero_w w (safely_get f d)) = zero w f.
Proof.
  intros H. unfold nonzero_w, zero. destruct f as [| |n]; cbn [safely_get].
  - apply Z.eqb_neq in H. rewrite H. reflexivity.
  - apply Z.eqb_neq in H. rewrite H. reflexivity.
  - destruct (n =? 0)%Z; reflexivity.
Qed.
Lemma from_trace_notes t mx my : fst (from_trace_w t mx my) = receiver_notes (t_header t).
Proof.
  assert (SU : forall h, fst (from_trace_su_w t h mx my) = receiver_notes (Su h)).
  { intros h. unfold from_trace_su_w.
    rewrite (fst_wbind _ _ _ (safely_get_same _ _ _)), safely_get_fst.
    rewrite (fst_wbind _ _ _ (nonzero_same _ _)), nonzero_fst by discriminate.
    rewrite (fst_wbind _ _ _ (safely_get_same _ _ _)), safely_get_fst.
    rewrite (fst_wbind _ _ _ (nonzero_same _ _)), nonzero_fst by discriminate.
    rewrite (fst_wbind _ _ _ (safely_get_same _ _ _)), safely_get_fst.
    set (sc := if (safely_get (h_scale h) 1 =? 0)%Z then 1%Z else safely_get (h_scale h) 1%Z).
    assert (Z : sc <> 0%Z) by (unfold sc; destruct (Z.eqb_spec (safely_get (h_scale h) 1%Z) 0); [discriminate|assumption]).
    destruct (scaled_nonzero (safely_get (h_gx h) 0%Z) (safely_get (h_gx h) 0%Z) sc Z) as [x X].
    rewrite (fst_wbind _ _ x) by exact X.
    rewrite (fst_wbind _ _ _ (safely_get_same _ _ _)), safely_get_fst.
    destruct (scaled_nonzero (safely_get (h_gy h) 0%Z) (safely_get (h_gx h) 0%Z) sc Z) as [y Y].
    rewrite (fst_wbind _ _ y) by exact Y.
    rewrite (fst_wbind _ _ _ (safely_get_same _ _ _)), safely_get_fst.
    cbn [fst quiet app receiver_notes]. rewrite !app_nil_r. reflexivity. }
  unfold from_trace_w. destruct (t_header t) as [h|h|h| |]; try reflexivity; [|apply SU|apply (SU h)].
  unfold from_trace_seg2_w. do 3 (rewrite (fst_wbind _ _ _ (safely_get_same _ _ _)), safely_get_fst).
  cbn [fst quiet receiver_notes]. rewrite !app_nil_r. reflexivity.
Qed.
Lemma units_notes h : snd (check_units_w h) = Ok tt -> fst (check_units_w h) = zero UnitsUnset (h_units h).
Proof.
  unfold check_units_w, zero. destruct (h_units h) as [| |u]; try discriminate. destruct (u =? 0)%Z; [reflexivity|].
  destruct (u =? 1)%Z; [reflexivity|discriminate].
Qed.
Lemma bind_inv {A B} (r : result A) (f : A -> result B) b : bind r f = Ok b -> exists a, r = Ok a /\ f a = Ok b.
Proof. destruct r; cbn [bind]; [eauto|discriminate]. Qed.
Lemma wbind_inv {A B} (x : warned A) (f : A -> warned B) b : snd (wbind x f) = Ok b ->
  exists a, snd x = Ok a /\ snd (f a) = Ok b /\ fst (wbind x f) = fst x ++ fst (f a).
Proof.
  intros H. rewrite snd_wbind in H. apply bind_inv in H as (a & E & H). exists a. split; [exact E|]. split; [exact H|].
  apply fst_wbind. exact E.
Qed.
Ltac opens H a E Nt := apply wbind_inv in H as (a & E & H & N); rewrite N; clear N; cbn [fst snd quiet] in E |- *.
Lemma parse_source_notes f mx my t s : snd (parse_source_w f mx my t) = Ok s ->
  fst (parse_source_w f mx my t) = source_notes (t_header t).
Proof.
  unfold parse_source_w. destruct f, (t_header t) as [h|h|h| |]; try discriminate; intros H; cbn [source_notes].
  - opens H x E Nt. reflexivity.
  - opens H u E Nt. destruct u. rewrite (units_notes h E). opens H sc0 E1 Nt.
    assert (Z : fst (nonzero_w ScaleReset sc0) = zero ScaleReset (h_scale h)).
    { unfold item_get in E1. destruct (h_scale h) as [| |n]; try discriminate. injection E1 as <-. unfold nonzero_w, zero. destruct (n =? 0)%Z; reflexivity. }
    opens H sc E2 Nt. rewrite Z. opens H ix E3 Nt. opens H x E4 Nt. opens H iy E5 Nt. opens H y E6 Nt.
    cbn [app]. rewrite ?app_nil_r. reflexivity.
  - opens H u E Nt. destruct u. rewrite (units_notes h E). opens H sc E1 Nt.
    opens H ix E3 Nt. opens H x E4 Nt. opens H iy E5 Nt. opens H y E6 Nt. cbn [app]. rewrite ?app_nil_r. reflexivity.
Qed.
Lemma from_traces_notes mx my : forall ts l, snd (from_traces_w ts mx my) = Ok l ->
  fst (from_traces_w ts mx my) = List.concat (map (fun t => receiver_notes (t_header t)) ts).
Proof.
  induction ts as [|t ts IH]; intros l H; [reflexivity|]. cbn [from_traces_w] in *. opens H s E Nt.
  rewrite from_trace_notes. opens H l' E2 N. rewrite (IH l' E2). cbn [map List.concat]. rewrite app_nil_r. reflexivity.
Qed.
Lemma stack_traces_notes : forall ts l l', snd (stack_traces_w l ts) = Ok l' ->
  fst (stack_traces_w l ts) = List.concat (map (fun t => receiver_notes (t_header t)) (firstn (List.length l) ts))
  /\ List.length l' = List.length l.
Proof.
  induction ts as [|t ts IH]; intros [|s l] l' H; cbn [stack_traces_w] in *; try (cbn in H; injection H as <-; split; reflexivity).
  opens H n E Nt. rewrite from_trace_notes. destruct (sensor_stack_append s (ObjSensor n)) as [s' [u|e]]; [|discriminate].
  opens H r E2 Nt. destruct (IH l r E2) as [-> L]. cbn in H. injection H as <-. cbn [List.length firstn map List.concat].
  rewrite app_nil_r. split; [reflexivity|]. now rewrite L.
Qed.
Lemma stack_file_notes f mx my a st a' : snd (stack_file_w f mx my a st) = Ok a' ->
  fst (stack_file_w f mx my a st) = further_notes (List.length (sensors a)) st /\ List.length (sensors a') = List.length (sensors a).
Proof.
  destruct st as [|t0 st]; [discriminate|]. unfold stack_file_w. intros H. opens H ns E Nt.
  rewrite (parse_source_notes _ _ _ _ _ E). destruct (negb _); [discriminate|]. opens H l E2 Nt.
  destruct (stack_traces_notes _ _ _ E2) as [-> L]. cbn in H. injection H as <-. unfold further_notes. cbn [firstn map List.concat sensors].
  rewrite !app_nil_r. split; [reflexivity|exact L].
Qed.
Section FromFilesNotes.
  Context {F K : Type} (read : option K -> F -> result (list trace)).
  Lemma stack_files_notes f mx my : forall fs a a', snd (stack_files_w read f mx my a fs) = Ok a' ->
    exists streams, mapM (read None) fs = Ok streams
      /\ fst (stack_files_w read f mx my a fs) = List.concat (map (further_notes (List.length (sensors a))) streams).
  Proof.
    induction fs as [|x fs IH]; intros a a' H; cbn [stack_files_w] in *.
    - exists []. split; reflexivity.
    - opens H st E Nt. opens H a1 E2 Nt. destruct (stack_file_notes _ _ _ _ _ _ E2) as [-> L].
      destruct (IH a1 a' H) as (sts & R & ->). exists (st :: sts). cbn [mapM]. rewrite E. cbn [bind]. rewrite R. cbn [bind].
      split; [reflexivity|]. cbn [map List.concat]. rewrite L. reflexivity.
  Qed.
  Lemma from_files_notes mx my kw f0 rest a : snd (from_files_w read mx my kw (f0 :: rest)) = Ok a ->
    exists first streams lead last, read kw f0 = Ok first /\ mapM (read None) rest = Ok streams /\ first = lead ++ [last]
      /\ fst (from_files_w read mx my kw (f0 :: rest))
         = List.concat (map (fun t => receiver_notes (t_header t)) first) ++ source_notes (t_header last)
           ++ List.concat (map (further_notes (List.length first)) streams).
  Proof.
    unfold from_files_w. intros H. opens H st E Nt. opens H ss E1 Nt. rewrite (from_traces_notes _ _ _ _ E1).
    destruct (rev st) as [|tl r] eqn:R; [discriminate|]. destruct (fmt_of _) as [f|]; [|discriminate].
    opens H s E2 Nt. rewrite (parse_source_notes _ _ _ _ _ E2). opens H a1 E3 Nt.
    destruct (stack_files_notes f mx my rest a1 a H) as (sts & Rd & ->).
    exists st, sts, (rev r), tl. split; [exact E|]. split; [exact Rd|].
    split; [rewrite <- (rev_involutive st), R; reflexivity|].
    assert (L : List.length (sensors a1) = List.length st).
    { rewrite from_traces_same in E1. assert (L1 : List.length ss = List.length st).
      { clear -E1. revert ss E1. induction st as [|t st IH]; intros ss H; cbn [mapM] in H; [injection H as <-; reflexivity|].
        apply bind_inv in H as (b & _ & H). apply bind_inv in H as (bs & E & H). injection H as <-. cbn. now rewrite (IH bs E). }
      rewrite <- L1. unfold new_array in E3. destruct ss as [|e t]; [discriminate|]. apply bind_inv in E3 as (u & _ & E3). injection E3 as <-.
      cbn [sensors]. apply Permutation_length, (sort_perm (e :: t)). }
    rewrite L. reflexivity.
  Qed.
End FromFilesNotes.

(** * Silence *)
Lemma unread_none {A} n (f : field A) : unread n f = [] -> exists a, f = Value a.
Proof. destruct f; try discriminate. eauto. Qed.
Lemma zero_none w n : zero w (Value n) = [] -> n <> 0%Z.
Proof. cbn [zero]. destruct (Z.eqb_spec n 0); [discriminate|auto]. Qed.
Lemma new_sensor_fields amp dt x y z ns de s : new_sensor amp dt x y z ns de = Ok s ->
  SeriesModel.amp (ser s) = amp /\ SeriesModel.dt (ser s) = dt /\ nstacks (ser s) = ns /\ delay (ser s) = de /\ sx s = x.
Proof. unfold new_sensor. intros H. apply bind_inv in H as (sr & E & H). injection H as <-. unfold new_series in E.
  destruct (ns <=? 0)%Z; [discriminate|]. destruct (Qcltb 0%Qc de); [discriminate|]. injection E as <-. repeat split. Qed.
Lemma silent_su t h mx my s : from_trace_su t h mx my = Ok s -> receiver_notes (Su h) = [] ->
  amp (ser s) = t_data t /\ dt (ser s) = t_delta t /\ given (h_nstack h) (nstacks (ser s))
  /\ (exists d, given (h_delay h) d /\ delay (ser s) = (QcZ d / QcZ 1000)%Qc)
  /\ exists i c x, given (h_gx h) i /\ given (h_scale h) c /\ c <> 0%Z /\ scaled i i c = Ok x /\ sx s = mx x.
Proof.
  intros H E. cbn [receiver_notes] in E.
  apply app_eq_nil in E as [E1 E]. apply app_eq_nil in E as [E2 E]. apply app_eq_nil in E as [E3 E].
  apply app_eq_nil in E as [E4 E]. apply app_eq_nil in E as [E5 E]. apply app_eq_nil in E as [E6 E7].
  destruct (unread_none _ _ E1) as [n V1]. destruct (unread_none _ _ E3) as [c V3]. destruct (unread_none _ _ E5) as [i V5].
  destruct (unread_none _ _ E6) as [j V6]. destruct (unread_none _ _ E7) as [d V7]. rewrite V1 in E2. rewrite V3 in E4.
  apply zero_none in E2. apply zero_none in E4. unfold from_trace_su in H. rewrite V1, V3, V5, V6, V7 in H. cbn [safely_get] in H.
  pose proof E2 as N2. pose proof E4 as N4. apply Z.eqb_neq in N2. apply Z.eqb_neq in N4. rewrite N2, N4 in H. cbv zeta in H.
  apply bind_inv in H as (x & X & H). apply bind_inv in H as (y & Y & H).
  destruct (new_sensor_fields _ _ _ _ _ _ _ _ H) as (A & B & C & D & G).
  split; [exact A|]. split; [exact B|]. split; [unfold given; rewrite V1, C; reflexivity|].
  split; [exists d; split; [exact V7|exact D]|]. exists i, c, x. repeat split; assumption.
Qed.
Lemma silent_trace t mx my s : from_trace_w t mx my = ([], Ok s) -> as_recorded t mx s.
Proof.
  intros H. pose proof (from_trace_notes t mx my) as W. pose proof (from_trace_same t mx my) as V. rewrite H in W, V. cbn [fst snd] in W, V.
  symmetry in W, V. unfold from_trace in V. unfold as_recorded. destruct (t_header t) as [h|h|h| |]; try discriminate.
  - cbn [receiver_notes] in W. apply app_eq_nil in W as [W1 W]. apply app_eq_nil in W as [W2 W3].
    destruct (unread_none _ _ W1) as [n V1]. destruct (unread_none _ _ W2) as [d V2]. destruct (unread_none _ _ W3) as [x V3].
    unfold from_trace_seg2 in V. rewrite V1, V2, V3 in V. cbn [safely_get] in V.
    destruct (new_sensor_fields _ _ _ _ _ _ _ _ V) as (A & B & C & D & G).
    split; [exact A|]. split; [exact B|]. unfold given. rewrite C, D. split; [exact V1|]. split; [exact V2|]. exists x. split; [exact V3|exact G].
  - apply (silent_su t h mx my s V W).
  - apply (silent_su t h mx my s V W).
Qed.

(** * Padding *)
Lemma pad_same s df : snd (zero_pad_w s df) = zero_pad s df.
Proof. reflexivity. Qed.
Lemma pad_notes s df : (0 < dt s)%Qc -> (0 < df)%Qc -> (df * dt s < Q2Qc 2)%Qc ->
  exists s', zero_pad_w s df = ((if Qc_eq_dec (1 / (df * dt s)) (QcZ (pad_target s df)) then [] else [Approximate]), (s', Ok tt))
    /\ (fst (zero_pad_w s df) = [] <-> user_df s' = Ok df).
Proof.
  intros Hdt Hdf Hb. destruct (zero_pad_grid s df Hdt Hdf Hb) as (s' & M & E & HM & Hnear & _ & _ & _ & HU & HX).
  assert (P : (0 < df * dt s)%Qc) by (apply prod_pos; assumption).
  assert (W : fst (zero_pad_w s df) = if Qc_eq_dec (1 / (df * dt s)) (QcZ (pad_target s df)) then [] else [Approximate]).
  { unfold zero_pad_w. cbn [fst]. fold (pad_target s df).
    destruct (Qcleb_spec df 0) as [L|_]; [exfalso; qclra|].
    destruct (Qceqb_spec (df * dt s)%Qc 0) as [Z|_]; [exfalso; rewrite Z in P; qclra|].
    destruct (Qceqb_spec (1 / (df * dt s))%Qc (QcZ (pad_target s df))), (Qc_eq_dec (1 / (df * dt s)) (QcZ (pad_target s df))); try reflexivity; contradiction. }
  exists s'. split.
  - rewrite <- W. unfold zero_pad_w. cbn [fst]. rewrite E. reflexivity.
  - rewrite W. destruct (Qc_eq_dec (1 / (df * dt s)) (QcZ (pad_target s df))) as [Q|Q].
    + split; [intros _|reflexivity]. apply (HX (pad_target s df)); [|exact Q]. apply pad_target_pos; assumption.
    + split; [discriminate|]. intros U. exfalso. apply Q. rewrite HU in U. injection U as U.
      assert (M0 : QcZ M <> 0%Qc) by (apply Qcpos_neq0; rewrite <- QcZ_0; apply QcZ_lt; lia).
      assert (D0 : dt s <> 0%Qc) by (apply Qcpos_neq0; exact Hdt).
      assert (F : (1 / (df * dt s))%Qc = QcZ M) by (rewrite <- U; field; repeat split; auto; discriminate).
      unfold pad_target. rewrite F, round_half_even_QcZ. reflexivity.
Qed.
Lemma pad_refused s df : (df <= 0)%Qc -> zero_pad_w s df = ([], (set_multiple s 1, Err ValueError)).
Proof. intros H. unfold zero_pad_w, zero_pad. destruct (Qcleb_spec df 0); [reflexivity|contradiction]. Qed.
