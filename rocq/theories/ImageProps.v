(* C84: dispersion images; C34 (second part): the velocities of a transform object. *)
From Verif Require Import PyFacts NumFacts TransformSpec TransformProofs TransformNormProofs TransformProps ImageModel ImageSpec ImageProofs.
Local Open Scope string_scope.
Local Open Scope nat_scope.
Local Open Scope list_scope.

(** Whatever normalisations came before: the image shows the power normalised as asked, with all of
    it between the first and the last colour level; the peaks are, at each frequency, the velocity
    of the first greatest power of the original data. *)
Theorem C84_picture : forall nr nc m fs vs hist norm w a fig ax xlim,
  drawable_image nr nc m fs vs -> wfrq w = fs -> wvel w = vs -> after m hist w ->
  (forall s, In s hist -> valid_name s) -> valid_name norm -> loud (hist ++ [norm]) nc m -> (ax = true -> fig = true) ->
  exists w' p levels ps,
    transform_plot w a fig ax norm "frequency-maximum" None xlim
      = (w', [Filled fs vs (fin p) levels; Points fs ps; Labels], Ok (negb ax)) /\
    normalised norm nr nc m p /\ spans levels p /\ nonneg p /\
    List.length ps = nc /\ (forall j, j < nc -> exists i, first_greatest (column m j) i /\ nth j ps 0%Qc = nth i vs 0%Qc) /\
    wfrq w' = fs /\ wvel w' = vs /\ after m (hist ++ [norm]) w'.
Proof.
  intros nr nc m fs vs hist norm w a fig ax xlim D Ef Ev A V Vn L Hax.
  destruct (image_ok nr nc m fs vs hist norm w D Ef Ev A V Vn L) as (w' & p & lv & E & Nm & P & F' & V' & A' & Im & Sp & Np).
  destruct D as (R & Hnr & Hnc & N & Lf & Lv & _). assert (Hm : m <> []) by (intros ->; destruct R as [R _]; cbn in R; lia).
  assert (Hp : exists ps, find_peak_real w' "frequency-maximum" = Ok ps /\ List.length ps = nc /\
            forall j, j < nc -> exists i, first_greatest (column m j) i /\ nth j ps 0%Qc = nth i vs 0%Qc).
  { destruct A' as (w0 & T0 & P0 & Ew). 
    assert (Q0 : restored fabs fmul m w0) by (apply (restored_fresh fabs fmul (fun x => x) real_laws m w0 T0); rewrite P0; now apply fabs_m).
    assert (Vall : forall s, In s (hist ++ [norm]) -> valid_name s) by (intros s I; apply in_app_or in I; destruct I as [I|[<-|[]]]; auto).
    destruct (normalize_all_spec fabs fmul (fun x => x) real_laws nr nc m R Hm ltac:(lia) N (hist ++ [norm]) w0 Q0 Vall L) as (_ & _ & _ & Vw & _); [now destruct hist|].
    rewrite <- Ew, V' in Vw. rewrite Ew, (C27_unaffected w0 nr nc m _ T0 P0 R Hm ltac:(lia) N); auto; [|rewrite <- Vw; exact Lv].
    destruct (C27_first_greatest w0 nr nc m P0 R Hm) as (ps & Ep & Lp & Hj); [rewrite <- Vw; exact Lv|]. exists ps. rewrite Vw. auto. }
  destruct Hp as (ps & Ep & Lp & Hj). exists w', p, lv, ps. split.
  - unfold transform_plot. destruct (ax && negb fig) eqn:B.
    + apply andb_true_iff in B. destruct B as [-> B]. rewrite Hax in B by reflexivity. discriminate.
    + rewrite E, Im. unfold plot_peaks. cbn [String.eqb Ascii.eqb Bool.eqb]. rewrite Ep. cbn [bind plot_near app]. now rewrite F'.
  - auto 10.
Qed.
Print Assumptions C84_picture.
(** Plotting again, in between other normalisations or not, draws the same picture. *)
Theorem C84_again : forall nr nc m fs vs h1 h2 norm w1 w2 a1 a2 fig ax x1 x2,
  drawable_image nr nc m fs vs -> wfrq w1 = fs -> wvel w1 = vs -> wfrq w2 = fs -> wvel w2 = vs -> after m h1 w1 -> after m h2 w2 ->
  (forall s, In s (h1 ++ h2) -> valid_name s) -> valid_name norm -> loud (h1 ++ [norm]) nc m -> loud (h2 ++ [norm]) nc m -> (ax = true -> fig = true) ->
  snd (fst (transform_plot w1 a1 fig ax norm "frequency-maximum" None x1)) = snd (fst (transform_plot w2 a2 fig ax norm "frequency-maximum" None x2)).
Proof.
  intros nr nc m fs vs h1 h2 norm w1 w2 a1 a2 fig ax x1 x2 D F1 V1 F2 V2 A1 A2 V Vn L1 L2 Hax.
  destruct (C84_picture nr nc m fs vs h1 norm w1 a1 fig ax x1 D F1 V1 A1) as (w1' & p1 & l1 & ps1 & -> & N1 & S1 & _ & Lp1 & J1 & _); auto.
  { intros s I. apply V, in_or_app. now left. }
  destruct (C84_picture nr nc m fs vs h2 norm w2 a2 fig ax x2 D F2 V2 A2) as (w2' & p2 & l2 & ps2 & -> & N2 & S2 & _ & Lp2 & J2 & _); auto.
  { intros s I. apply V, in_or_app. now right. }
  cbn [fst snd]. pose proof (normalised_unique norm nr nc m p1 p2 Vn N1 N2) as <-.
  assert (E : l1 = l2).
  { destruct S1 as (t1 & G1 & _ & Ll1 & H1), S2 as (t2 & G2 & _ & Ll2 & H2). rewrite <- (greatest_unique _ _ _ G1 G2) in H2.
    apply (nth_ext _ _ NaN NaN); [congruence|]. intros k Hk. rewrite Ll1 in Hk. rewrite H1, H2 by lia. reflexivity. }
  assert (E' : ps1 = ps2).
  { apply (nth_ext _ _ 0%Qc 0%Qc); [congruence|]. intros j Hj. rewrite Lp1 in Hj. destruct (J1 j Hj) as (i & [Hi [Hi1 Hi2]] & ->), (J2 j Hj) as (i' & [Hi' [Hi1' Hi2']] & ->).
    assert (i = i'); [|now subst]. destruct (Nat.lt_trichotomy i i') as [H|[H|H]]; [|exact H|].
    - exfalso. apply (Qclt_not_le _ _ (Hi2' i H)). now apply Hi1.
    - exfalso. apply (Qclt_not_le _ _ (Hi2 i' H)). now apply Hi1'. }
  now subst.
Qed.
Print Assumptions C84_again.
Local Definition z (k : Z) : Qc := QcZ k.
Definition m84 : list (list Qc) := [[z 1; z 8]; [z 4; z 2]].
Definition w84 : transform flt := new_transform [z 1; z 2] [z 10; z 20] (fin m84).
Lemma m84_nonneg : nonneg m84.
Proof. intros r x [<-|[<-|[]]]; (intros [<-|[<-|[]]]; apply Qcleb_le; vm_compute; reflexivity). Qed.
Example C84_example : drawable_image 2 2 m84 [z 1; z 2] [z 10; z 20] /\ after m84 [] w84 /\ loud ["frequency-maximum"; "none"; "absolute-maximum"] 2 m84
  /\ valid_name "frequency-maximum"
  /\ match transform_plot w84 None false false "frequency-maximum" "frequency-maximum" None (z 0, z 1) with
     | (_, [Filled _ _ p lv; Points _ ps; Labels], Ok true) =>
         (map (map show_flt) p, show_flt (nth 20 lv NaN), map this ps) = ([[ShFin (1 # 4); ShFin 1]; [ShFin 1; ShFin (1 # 4)]], ShFin 1, [20; 10]%Q)
     | _ => False
     end.
Proof.
  assert (P : forall x, In x [z 1; z 8; z 4; z 2] -> (0 < x)%Qc) by (intros x [<-|[<-|[<-|[<-|[]]]]]; apply Qcltb_lt; vm_compute; reflexivity).
  split; [|split; [|split; [|split]]].
  - split; [split; [reflexivity|intros r [<-|[<-|[]]]; reflexivity]|]. split; [lia|]. split; [lia|]. split; [exact m84_nonneg|]. split; [reflexivity|]. split; [reflexivity|].
    exists [z 1; z 8], (z 1). split; [now left|]. split; [now left|]. apply P. now left.
  - exists w84. auto.
  - split; intros _.
    + exists [z 1; z 8], (z 1). split; [now left|]. split; [now left|]. apply P. now left.
    + intros [|[|j]] Hj; [exists (z 1)|exists (z 8)|lia]; (split; [now left|apply P; cbn; auto]).
  - right; right. reflexivity.
  - vm_compute. reflexivity.
Qed.

(** The near-field line: 30 points over the x axis; along it the distance from the source to the
    centre of the array is [n] wavelengths. *)
Theorem C84_nearfield : forall nr nc m fs vs hist norm w a fig ax xlim n,
  drawable_image nr nc m fs vs -> wfrq w = fs -> wvel w = vs -> after m hist w ->
  (forall s, In s hist -> valid_name s) -> valid_name norm -> loud (hist ++ [norm]) nc m -> (ax = true -> fig = true) -> n <> 0%Qc ->
  exists w' img xs ys,
    transform_plot w (Some a) fig ax norm "none" (Some n) xlim = (w', [img; Line xs ys; Labels], Ok (negb ax)) /\
    List.length xs = 30 /\ List.length ys = 30 /\ nth 0 xs 0%Qc = fst xlim /\ nth 29 xs 0%Qc = snd xlim /\
    forall k wavelength, k < 30 -> nth k ys 0%Qc = (nth k xs 0 * wavelength)%Qc -> nth k xs 0%Qc <> 0%Qc ->
      Qcsum (offsets a) = (n * wavelength * QcN (List.length (offsets a)))%Qc \/ offsets a = [].
Proof.
  intros nr nc m fs vs hist norm w a fig ax xlim n D Ef Ev A V Vn L Hax Hn.
  destruct (image_ok nr nc m fs vs hist norm w D Ef Ev A V Vn L) as (w' & p & lv & E & Nm & P & F' & V' & A' & Im & Sp & Np).
  destruct (linspace_spec (fst xlim) (snd xlim) 30 ltac:(lia)) as (xs & El & Ll & X0 & X1 & _).
  eexists w', _, xs, (map (fun f => (f * (array_center_distance a / n))%Qc) xs). split; [|split; [exact Ll|split; [now rewrite map_length|split; [exact X0|split; [exact X1|]]]]].
  - unfold transform_plot. destruct (ax && negb fig) eqn:B.
    { apply andb_true_iff in B. destruct B as [-> B]. rewrite Hax in B by reflexivity. discriminate. }
    rewrite E, Im. unfold plot_peaks. cbn [String.eqb Ascii.eqb Bool.eqb plot_near]. change 30%Z with (Z.of_nat 30). rewrite El. cbn [bind app]. reflexivity.
  - intros k wl Hk Ew Nx. rewrite (nth_map_lt _ xs k 0%Qc 0%Qc) in Ew by lia.
    destruct (offsets a) as [|o os] eqn:Eo; [now right|left]. rewrite <- Eo.
    assert (W : wl = (array_center_distance a / n)%Qc).
    { set (x := nth k xs 0%Qc) in *. set (d := (array_center_distance a / n)%Qc) in *.
      assert (Q : (x * (wl - d) = 0)%Qc) by (transitivity (x * wl - x * d)%Qc; [ring|]; rewrite <- Ew; ring).
      apply Qcmult_integral in Q. destruct Q as [Q|Q]; [contradiction|]. transitivity (wl - d + d)%Qc; [ring|]. rewrite Q. ring. }
    rewrite W. unfold array_center_distance. assert (NN : QcN (List.length (offsets a)) <> 0%Qc) by (apply Qcpos_neq0, QcN_pos; rewrite Eo; cbn; lia). field. auto.
Qed.
Print Assumptions C84_nearfield.

(** Refusals, and how far the drawing got. *)
Theorem C84_refusals : forall w a norm peaks near xlim fig ax,
  transform_plot w a false true norm peaks near xlim = (w, [], Err ValueError) /\
  (to_abs w = Scalar f1 -> ~ valid_name norm -> (ax = true -> fig = true) ->
     transform_plot w a fig ax norm peaks near xlim = (w, [], Err KeyError)).
Proof.
  intros w a norm peaks near xlim fig ax. split; [reflexivity|]. intros T V H. unfold transform_plot.
  destruct (ax && negb fig) eqn:B.
  { apply andb_true_iff in B. destruct B as [-> B]. rewrite H in B by reflexivity. discriminate. }
  unfold normalize_real. now rewrite (C26_refused_partial flt fabs fmul (fun x => x) w norm real_laws T V).
Qed.
Print Assumptions C84_refusals.
Theorem C84_late_refusals : forall nr nc m fs vs hist norm w fig ax xlim,
  drawable_image nr nc m fs vs -> wfrq w = fs -> wvel w = vs -> after m hist w ->
  (forall s, In s hist -> valid_name s) -> valid_name norm -> loud (hist ++ [norm]) nc m -> (ax = true -> fig = true) ->
  (forall a peaks near, peaks <> "none" -> peaks <> "frequency-maximum" ->
     exists w' img, transform_plot w a fig ax norm peaks near xlim = (w', [img], Err NotImplementedError)) /\
  (forall n, exists w' img, transform_plot w None fig ax norm "none" (Some n) xlim = (w', [img], Err AttributeError)).
Proof.
  intros nr nc m fs vs hist norm w fig ax xlim D Ef Ev A V Vn L Hax.
  destruct (image_ok nr nc m fs vs hist norm w D Ef Ev A V Vn L) as (w' & p & lv & E & Nm & P & F' & V' & A' & Im & Sp & Np).
  assert (B : ax && negb fig = false) by (destruct ax; [rewrite Hax by reflexivity|]; reflexivity).
  split.
  - intros a peaks near N1 N2. do 2 eexists. unfold transform_plot. rewrite B, E, Im. unfold plot_peaks.
    destruct (String.eqb_spec peaks "none"); [contradiction|]. rewrite (C27_other_refused w' peaks N2). reflexivity.
  - intros n. do 2 eexists. unfold transform_plot. rewrite B, E, Im. reflexivity.
Qed.
Print Assumptions C84_late_refusals.
(** A transform with a single frequency or a single velocity cannot be plotted. *)
Theorem C84_single : forall m hist norm w nr nc a fig ax peaks near xlim,
  rect nr nc m -> 0 < nr -> 0 < nc -> nr < 2 \/ nc < 2 -> nonneg m -> after m hist w ->
  (forall s, In s hist -> valid_name s) -> valid_name norm -> loud (hist ++ [norm]) nc m -> (ax = true -> fig = true) ->
  snd (transform_plot w a fig ax norm peaks near xlim) = Err TypeError.
Proof.
  intros m hist norm w nr nc a fig ax peaks near xlim R Hnr Hnc Hs N A V Vn L Hax. apply loud_app in L. destruct L as [L1 L2].
  assert (Hm : m <> []) by (intros ->; destruct R as [R _]; cbn in R; lia).
  pose proof (after_restored nr nc m hist w R Hm Hnc N V L1 A) as Re.
  destruct (normalize_step fabs fmul (fun x => x) real_laws nr nc m R Hm Hnc N w norm Re Vn L2) as (w' & E & P & _).
  assert (Nm : normalised norm nr nc m (norm_fn nc m norm)) by (apply norm_fn_normalised; auto). set (p := norm_fn nc m norm) in *.
  rewrite reals_id in P. destruct Nm as [Rp _].
  assert (B : ax && negb fig = false) by (destruct ax; [rewrite Hax by reflexivity|]; reflexivity).
  assert (Cp : List.concat p <> []). { intros Q. destruct (entry_in nr nc p 0 0 Rp Hnr Hnc) as [I _]. rewrite Q in I. destruct I. }
  unfold transform_plot. rewrite B. unfold normalize_real. rewrite E, P, concat_fin, (fmax_top _ Cp). cbn [bind].
  destruct Rp as [Lp Rp]. destruct p as [|r0 [|r1 p']]; [cbn in Lp; lia|reflexivity|]. cbn [fin map contourf].
  cbn [List.length] in Lp. rewrite map_length, (Rp r0) by now left. destruct (Nat.leb_spec 2 nc); [lia|reflexivity].
Qed.
Print Assumptions C84_single.
(** Nor can one without any power, unless it is normalised (and then nothing is visible). *)
Theorem C84_silent_refuted : exists w : transform flt,
  power w = fin [[z 0; z 0]; [z 0; z 0]] /\ snd (transform_plot w None false false "none" "none" None (z 0, z 1)) = Err ValueError.
Proof. exists (new_transform [z 1; z 2] [z 10; z 20] (fin [[z 0; z 0]; [z 0; z 0]])). split; reflexivity. Qed.
Print Assumptions C84_silent_refuted.
(** Drawing is not free of side effects: the object's power is the normalised one afterwards ... *)
Theorem C84_changes_object_refuted : exists w : transform flt,
  snd (transform_plot w None false false "frequency-maximum" "frequency-maximum" None (z 0, z 1)) = Ok true /\
  map (map show_flt) (power w) = [[ShFin 1; ShFin 8]; [ShFin 4; ShFin 2]] /\
  map (map show_flt) (power (fst (fst (transform_plot w None false false "frequency-maximum" "frequency-maximum" None (z 0, z 1)))))
    = [[ShFin (1 # 4); ShFin 1]; [ShFin 1; ShFin (1 # 4)]].
Proof. exists w84. split; [vm_compute; reflexivity|]. split; vm_compute; reflexivity. Qed.
Print Assumptions C84_changes_object_refuted.
(** ... so a transform looked at before stacking gives another stack. *)
Theorem C84_stack_refuted : exists (e w : transform flt),
  let seen := fst (fst (transform_plot w None false false "absolute-maximum" "none" None (z 0, z 1))) in
  map (map show_flt) (power (fst (stack e (of_transform w)))) = [[ShFin 1; ShFin 8]; [ShFin 4; ShFin 2]] /\
  map (map show_flt) (power (fst (stack e (of_transform seen)))) = [[ShFin (1 # 8); ShFin 1]; [ShFin (1 # 2); ShFin (1 # 4)]].
Proof. exists (new_empty [z 1; z 2] [z 10; z 20] (fin [[z 0; z 0]; [z 0; z 0]])), w84. split; vm_compute; reflexivity. Qed.
Print Assumptions C84_stack_refuted.
(** Without a signal-to-noise ratio there is only a warning; otherwise its values over its own frequencies. *)
Theorem C84_snr : forall snr frqs,
  (snr = None -> plot_snr snr frqs = Ok None) /\
  (forall s, snr = Some s -> List.length frqs = List.length s -> plot_snr snr frqs = Ok (Some (frqs, s))) /\
  (forall s, snr = Some s -> List.length frqs <> List.length s -> plot_snr snr frqs = Err ValueError).
Proof.
  intros snr frqs. split; [intros ->; reflexivity|]. split; intros s -> H; unfold plot_snr.
  - now rewrite H, Nat.eqb_refl.
  - apply Nat.eqb_neq in H. now rewrite H.
Qed.
Print Assumptions C84_snr.

(** ** C34: a transform object carries the trial velocities of the settings *)
Theorem C34_object : forall A K geomspace (run : A -> list Qc -> result (list Qc * list (list K))) a st n,
  (s_vspace st = "linear" \/ s_vspace st = "lin") -> s_nvel st = Z.of_nat n -> 2 <= n ->
  exists vels, List.length vels = n /\ nth 0 vels 0%Qc = s_vmin st /\ nth (n - 1) vels 0%Qc = s_vmax st /\
    (forall f p, run a vels = Ok (f, p) -> exists w, from_array geomspace run a st = Ok w /\ wvel w = vels /\ wfrq w = f /\ power w = p /\ wn w = 1%Z /\ to_abs w = Scalar f1) /\
    (forall e, run a vels = Err e -> from_array geomspace run a st = Err e).
Proof.
  intros A K geom run a st n Hs Hn H2. destruct (C34_linear geom (s_vmin st) (s_vmax st) n (s_vspace st) Hs H2) as (l & E & L & L0 & L1 & _).
  exists l. split; [exact L|]. split; [exact L0|]. split; [exact L1|]. unfold from_array. rewrite Hn, E. cbn [bind]. split.
  - intros f p ->. eexists. split; [reflexivity|]. repeat split.
  - intros e ->. reflexivity.
Qed.
Print Assumptions C34_object.
