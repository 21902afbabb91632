(* Properties of Peaks objects: C35 - C41, C43, C52 (dictionary part). *)
From Verif Require Import PyFacts NumFacts PeaksModel PeaksSpec PeaksProofs PeaksJsonProofs.
Local Open Scope string_scope.
Local Open Scope nat_scope.
Local Open Scope list_scope.

(** Two picks per frequency, three frequencies; the second pick of the last
    frequency is missing. *)
Definition q (n d : Z) : flt := Fin (Q2Qc (n # Z.to_pos d)).
Definition z (n : Z) : flt := q n 1.
Definition grid (l : list flt) : nd flt := ND (S2 2 3) l.
Definition sample : peaks :=
  mkPeaks "w1"
    [("frequency", grid [z 5; z 10; z 20; z 5; z 10; NaN]);
     ("velocity", grid [z 200; z 150; z 100; z 250; z 300; NaN]);
     ("power", grid [q 1 2; q 3 4; q 1 4; q 1 2; q 7 8; NaN])]
    (ND (S2 2 3) [true; true; true; true; true; false]).
Example sample_new :
  new_peaks (grid [z 5; z 10; z 20; z 5; z 10; NaN])
            (grid [z 200; z 150; z 100; z 250; z 300; NaN]) "w1"
            [("power", grid [q 1 2; q 3 4; q 1 4; q 1 2; q 7 8; NaN])] = Ok sample.
Proof. reflexivity. Qed.
Example sample_wf : well_formed (S2 2 3) sample.
Proof.
  eapply new_peaks_wf; [| | | | | | |exact sample_new];
    try reflexivity; repeat constructor; cbn; intuition discriminate.
Qed.

(** ** C35: reject_limits_outside *)
Theorem C35_limits : forall s p attr lo hi, well_formed s p -> has_attr p attr ->
  exists p', reject_limits p attr lo hi = (p', Ok tt)
    /\ fields p' = fields p /\ identifier p' = identifier p
    /\ forall i, is_valid p' i
                 = is_valid p i && negb (outside lo hi (value p attr i)).
Proof.
  intros s p k lo hi W H. destruct (do_reject_ok s p (Limits k lo hi) W H)
    as (p' & E & _ & F & I & _ & V). exists p'. auto.
Qed.
Print Assumptions C35_limits.
Theorem C35_unknown_attribute : forall s p attr lo hi, well_formed s p -> ~ has_attr p attr ->
  reject_limits p attr lo hi = (p, Err AttributeError).
Proof. intros s p k lo hi W H. exact (do_reject_err s p (Limits k lo hi) W H). Qed.
Print Assumptions C35_unknown_attribute.
(* wavelengths 40 15 5 50 30 NaN; on the limits: 15 and 40 *)
Example C35_example :
  has_attr sample "wavelength"
  /\ map (is_valid (fst (reject_limits sample "wavelength" (Some (z 15)) (Some (z 40))))) (seq 0 6)
     = [true; true; false; false; true; false]
  /\ map (is_valid (fst (reject_limits sample "wavelength" None None))) (seq 0 6)
     = map (is_valid sample) (seq 0 6)
  /\ ~ has_attr sample "azimuth".
Proof.
  split; [left; unfold derived; auto|]. split; [vm_compute; reflexivity|].
  split; [vm_compute; reflexivity|].
  intros [[|[|]]|H]; try discriminate. cbn in H. intuition discriminate.
Qed.

(** ** C36: reject_box_inside *)
Theorem C36_box : forall s p xt xl yt yl, well_formed s p -> has_attr p xt -> has_attr p yt ->
  exists p', reject_box p xt xl yt yl = (p', Ok tt)
    /\ fields p' = fields p /\ identifier p' = identifier p
    /\ forall i, is_valid p' i
                 = is_valid p i && negb (strictly_between xl (value p xt i) && strictly_between yl (value p yt i)).
Proof.
  intros s p xt xl yt yl W Hx Hy.
  destruct (do_reject_ok s p (Box xt xl yt yl) W (conj Hx Hy))
    as (p' & E & _ & F & I & _ & V). exists p'. auto.
Qed.
Print Assumptions C36_box.
Theorem C36_corner_order : forall s p xt a b yt c d, well_formed s p ->
  has_attr p xt -> has_attr p yt ->
  reject_box p xt (a, b) yt (c, d) = reject_box p xt (b, a) yt (d, c)
  /\ reject_box p xt (a, b) yt (c, d) = reject_box p xt (b, a) yt (c, d).
Proof.
  assert (B : forall a b x, strictly_between (a, b) x = strictly_between (b, a) x).
  { intros a b x. unfold strictly_between; cbn [fst snd]. apply orb_comm. }
  intros s p xt a b yt c d W Hx Hy.
  assert (G : forall xl yl xl' yl', (forall x, strictly_between xl x = strictly_between xl' x) ->
             (forall x, strictly_between yl x = strictly_between yl' x) ->
             reject_box p xt xl yt yl = reject_box p xt xl' yt yl').
  { intros xl yl xl' yl' Bx By.
    destruct (do_reject_ok s p (Box xt xl yt yl) W (conj Hx Hy)) as (p1 & E1 & W1 & F1 & I1 & _ & V1).
    destruct (do_reject_ok s p (Box xt xl' yt yl') W (conj Hx Hy)) as (p2 & E2 & W2 & F2 & I2 & _ & V2).
    cbn [do_reject] in E1, E2. rewrite E1, E2. f_equal.
    apply (peaks_ext s); auto; try congruence. intros i. rewrite V1, V2. cbn [matches].
    rewrite Bx, By. reflexivity. }
  split; apply G; auto.
Qed.
Print Assumptions C36_corner_order.
(* points on an edge stay *)
Example C36_example :
  has_attr sample "frequency" /\ has_attr sample "velocity"
  /\ map (is_valid (fst (reject_box sample "frequency" (z 15, z 5) "velocity" (z 100, z 400)))) (seq 0 6)
     = [true; false; true; true; false; false].
Proof. split; [right; cbn; auto|]. split; [right; cbn; auto|]. vm_compute; reflexivity. Qed.

(** ** C37: histories of rejections *)
Theorem C37_history : forall s p rs, well_formed s p ->
  fields (run_rejects p rs) = fields p
  /\ identifier (run_rejects p rs) = identifier p
  /\ forall i, is_valid (run_rejects p rs) i = true
       <-> is_valid p i = true
           /\ forall r, In r rs -> applicable p r -> matches p r i = false.
Proof.
  intros s p rs W. destruct (run_rejects_ok s rs p W) as (_ & F & I & _ & V). auto.
Qed.
Print Assumptions C37_history.
Theorem C37_order_and_repetition : forall s p rs rs', well_formed s p ->
  (forall r, In r rs <-> In r rs') -> run_rejects p rs = run_rejects p rs'.
Proof. exact (fun s p rs rs' => run_rejects_same_set s rs rs' p). Qed.
Print Assumptions C37_order_and_repetition.
Theorem C37_irreversible : forall s p rs i, well_formed s p ->
  is_valid (run_rejects p rs) i = true -> is_valid p i = true.
Proof.
  intros s p rs i W H. destruct (run_rejects_ok s rs p W) as (_ & _ & _ & _ & V).
  apply V in H. tauto.
Qed.
Print Assumptions C37_irreversible.
Definition history : list rejection :=
  [Limits "frequency" (Some (z 6)) None; Limits "azimuth" None (Some (z 0));
   Box "wavelength" (z 0, z 20) "velocity" (z 120, z 160)].
Example C37_example :
  map (is_valid (run_rejects sample history)) (seq 0 6)
  = [false; false; true; false; true; false]
  /\ applicable sample (Limits "frequency" (Some (z 6)) None)
  /\ ~ applicable sample (Limits "azimuth" None (Some (z 0))).
Proof.
  split; [vm_compute; reflexivity|]. split; [right; cbn; auto|].
  intros [[|[|]]|H]; try discriminate. cbn in H. intuition discriminate.
Qed.

(** ** C38: alignment of the attributes *)
Theorem C38_aligned : forall s p, well_formed s p ->
  StronglySorted lt (valid_positions p)
  /\ (forall i, In i (valid_positions p) <-> is_valid p i = true)
  /\ (forall k, readable p k -> public p k = Ok (map (value p k) (valid_positions p)))
  /\ (forall k, ~ readable p k -> public p k = Err AttributeError).
Proof.
  intros s p W. split; [apply valid_positions_sorted|]. split; [apply valid_positions_In|].
  split; [intros k; apply (public_ok s p k W)|intros k; apply (public_err p k)].
Qed.
Print Assumptions C38_aligned.
(** The derived attributes, read through the public interface. *)
Theorem C38_physics : forall s p f v, well_formed s p ->
  public p "frequency" = Ok f -> public p "velocity" = Ok v ->
  exists sl wl wn, public p "slowness" = Ok sl /\ public p "wavelength" = Ok wl
    /\ public p "wavenumber" = Ok wn
    /\ List.length f = List.length v /\ List.length sl = List.length v
    /\ List.length wl = List.length v /\ List.length wn = List.length v
    /\ forall i a b, nth_error f i = Some (Fin a) -> nth_error v i = Some (Fin b) ->
         a <> 0%Qc -> b <> 0%Qc ->
         nth_error wl i = Some (Fin (b / a)%Qc)
         /\ nth_error sl i = Some (Fin (1 / b)%Qc)
         /\ nth_error wn i
            = Some (Fin (Q2Qc 2 * Q2Qc (884279719003555 # 281474976710656) * a / b)%Qc).
Proof.
  intros s p f v W Pf Pv.
  rewrite (public_ok s p _ W) in Pf
    by (right; split; [cbn; auto|apply (wf_base s p W); auto]).
  rewrite (public_ok s p _ W) in Pv
    by (right; split; [cbn; auto|apply (wf_base s p W); auto]).
  injection Pf as <-. injection Pv as <-.
  rewrite !(public_ok s p _ W) by (left; unfold derived; auto).
  eexists _, _, _. split; [reflexivity|]. split; [reflexivity|]. split; [reflexivity|].
  rewrite !map_length. do 4 (split; [reflexivity|]).
  intros i a b. rewrite !nth_error_map.
  destruct (nth_error (valid_positions p) i) as [n|]; [|discriminate]. cbn [option_map].
  unfold value at 1 2; cbn [String.eqb Ascii.eqb Bool.eqb]. unfold value.
  cbn [String.eqb Ascii.eqb Bool.eqb]. unfold frq, vel.
  intros [= Ef] [= Ev] Ha Hb. rewrite Ef, Ev.
  cbn [fdiv fmul f1 f2 np_pi].
  destruct (Qceqb_spec a 0); [contradiction|]. destruct (Qceqb_spec b 0); [contradiction|].
  auto.
Qed.
Print Assumptions C38_physics.
(** This holds after any rejections, since they keep the object well formed. *)
Theorem C38_after_history : forall s p rs, well_formed s p -> well_formed s (run_rejects p rs).
Proof. intros s p rs W. exact (proj1 (run_rejects_ok s rs p W)). Qed.
Print Assumptions C38_after_history.
(** Objects come into being well formed. *)
Theorem C38_constructor : forall s f v ident kw p,
  shp f = s -> List.length (dat f) = size s -> shp v = s -> List.length (dat v) = size s ->
  Forall (fun kv => shp (snd kv) = s /\ List.length (dat (snd kv)) = size s) kw ->
  NoDup ("frequency" :: "velocity" :: map fst kw) ->
  Forall (fun k => k <> "valid" /\ k <> "identifier" /\ k <> "self") (map fst kw) ->
  new_peaks f v ident kw = Ok p ->
  well_formed s p /\ forall i, i < size s ->
     (is_valid p i = true <-> vel p i <> NaN).
Proof.
  intros s f v ident kw p Sf Lf Sv Lv F ND FN E.
  split; [exact (new_peaks_wf s f v ident kw p Sf Lf Sv Lv F ND FN E)|]. intros i Hi.
  unfold new_peaks in E. destruct (existsb _ kw); [discriminate|]. injection E as <-.
  unfold is_valid, vel, raw; cbn [valid nd_map dat fields raw_of String.eqb Ascii.eqb Bool.eqb].
  erewrite nth_map_lt with (d' := NaN) by lia.
  destruct (nth i (dat v) NaN); cbn; intuition congruence.
Qed.
Print Assumptions C38_constructor.
Example C38_example :
  valid_positions (run_rejects sample history) = [2; 4]
  /\ option_map (map show_flt)
       (match public (run_rejects sample history) "wavelength" with Ok l => Some l | _ => None end)
     = Some [ShFin 5; ShFin 30].
Proof. split; vm_compute; reflexivity. Qed.

(** ** C39: simplify_mpeaks *)
Theorem C39_multi : forall r c p, well_formed (S2 r c) p ->
  exists sel : list (nat * nat),
    StronglySorted lt (map snd sel)
    /\ (forall i j, In (i, j) sel <-> strongest r c p i j)
    /\ (forall i j, i < r -> j < c -> usable p (i * c + j) -> exists i', In (i', j) sel)
    /\ (forall k, has_attr p k ->
          simplify_mpeaks p k = Ok (map (fun ij => value p k (fst ij * c + snd ij)) sel))
    /\ (forall k, ~ has_attr p k -> simplify_mpeaks p k = Err AttributeError).
Proof.
  intros r c p W. exists (selection r c p).
  split; [apply selection_sorted|]. split; [apply selection_In|]. split.
  { intros i j Hi Hj (U1 & U2 & U3).
    destruct (pick_nonempty r c (weight p) (is_valid p) j i Hi U1 U2 U3) as [m Hm].
    exists m. unfold selection. apply in_flat_map. exists j. split; [apply in_seq; lia|exact Hm]. }
  split; [intros k; apply simplify_2d; auto|intros k; eapply simplify_err; eauto].
Qed.
Print Assumptions C39_multi.
Theorem C39_single : forall n p k, well_formed (S1 n) p -> readable p k ->
  simplify_mpeaks p k = Ok (map (value p k) (valid_positions p)).
Proof.
  intros n p k W R. rewrite (simplify_1d n p k W), (public_ok _ p k W R); [reflexivity|].
  destruct R as [D|[_ R]]; [left|right]; auto.
Qed.
Print Assumptions C39_single.
(* tie in the first column: first row; second column: second row *)
Example C39_example :
  strongest 2 3 sample 0 0 /\ strongest 2 3 sample 1 1 /\ strongest 2 3 sample 0 2
  /\ option_map (map show_flt)
       (match simplify_mpeaks sample "velocity" with Ok l => Some l | _ => None end)
     = Some [ShFin 200; ShFin 300; ShFin 100]
  /\ option_map (map show_flt)
       (match simplify_mpeaks (run_rejects sample history) "velocity" with Ok l => Some l | _ => None end)
     = Some [ShFin 300; ShFin 100].
Proof.
  assert (S : forall i j, In (i, j) (selection 2 3 sample) -> strongest 2 3 sample i j)
    by (intros i j; apply selection_In).
  split; [apply S; vm_compute; auto|]. split; [apply S; vm_compute; auto|].
  split; [apply S; vm_compute; auto|]. split; vm_compute; reflexivity.
Qed.

(** ** C40: JSON round trip *)
(** Every stored value and the mask come back; so does the shape, except that an
    array with no rows at all is read back one-dimensional (and still empty). *)
Theorem C40_round_trip : forall s p before, well_formed s p ->
  exists q, from_json (final before (fst (to_json p false before))) = Ok q
    /\ same_content p q /\ ((forall c, s <> S2 0 c) -> q = p).
Proof. exact json_round_trip. Qed.
Print Assumptions C40_round_trip.
Example C40_example :
  from_json (final Absent (fst (to_json (run_rejects sample history) false Absent)))
  = Ok (run_rejects sample history).
Proof.
  destruct (C40_round_trip (S2 2 3) (run_rejects sample history) Absent) as (q' & E & _ & H).
  - apply C38_after_history. exact sample_wf.
  - rewrite E, H; [reflexivity|discriminate].
Qed.

(** ** C41: appending to a file *)
Theorem C41_append_ok : forall p old, ~ In (identifier p) (map fst old) ->
  snd (to_json p true (Doc (JObj old))) = Ok tt
  /\ final (Doc (JObj old)) (fst (to_json p true (Doc (JObj old))))
     = Doc (JObj (old ++ [(identifier p, JObj (to_dict p))])).
Proof.
  intros p old H. unfold to_json; cbn [json_load].
  destruct (has_key (identifier p) old) eqn:K; [apply has_key_In in K; contradiction|].
  cbn [fst snd]. rewrite dict_set_absent by exact K. split; reflexivity.
Qed.
Print Assumptions C41_append_ok.
Theorem C41_append_duplicate : forall p old, In (identifier p) (map fst old) ->
  to_json p true (Doc (JObj old)) = ([], Err KeyError).
Proof.
  intros p old H. unfold to_json; cbn [json_load].
  apply has_key_In in H. rewrite H. reflexivity.
Qed.
Print Assumptions C41_append_duplicate.
(** Any failing append leaves the file as it was: it goes through no state. *)
Theorem C41_append_failure : forall p f e,
  snd (to_json p true f) = Err e -> fst (to_json p true f) = [].
Proof.
  intros p f e. unfold to_json. destruct (json_load f) as [[| | | | |old]|]; cbn; auto.
  destruct (has_key (identifier p) old); cbn; [auto|discriminate].
Qed.
Print Assumptions C41_append_failure.
(** The crash clause is false: while the file is rewritten its old content is
    gone and the new one is not there yet. *)
Theorem C41_crash_refuted : exists p old crash,
  ~ In (identifier p) (map fst old)
  /\ In crash (fst (to_json p true (Doc (JObj old))))
  /\ crash <> Doc (JObj old)
  /\ crash <> Doc (JObj (old ++ [(identifier p, JObj (to_dict p))]))
  /\ json_load crash = Err ValueError.
Proof.
  exists sample, [("w0", JObj (to_dict sample))], Broken.
  split; [cbn; intuition discriminate|]. split; [vm_compute; auto|].
  split; [discriminate|]. split; [discriminate|reflexivity].
Qed.
Print Assumptions C41_crash_refuted.
Example C41_example : ~ In (identifier sample) (map fst [("w0", JNull)])
  /\ In (identifier sample) (map fst [("w0", JNull); ("w1", JNull)]).
Proof. split; cbn; intuition discriminate. Qed.

(** ** C43: equality *)
(** What equality does guarantee.  Missing: when exactly one of the objects has
    exactly one valid peak the numbers of peaks may differ. *)
Theorem C43_equal_data_partial : forall s t p q, well_formed s p -> well_formed t q ->
  peaks_eq p q = Ok true ->
  identifier p = identifier q
  /\ Permutation (attrs p) (attrs q)
  /\ (List.length (valid_positions p) = 1 <-> List.length (valid_positions q) = 1 ->
      forall k, In k (attrs p) ->
        Forall2 close_to (map (value p k) (valid_positions p))
                         (map (value q k) (valid_positions q))).
Proof.
  intros s t p q W W' E. destruct (peaks_eq_true s t p q W W' E) as (I & P & A).
  split; [auto|]. split; [auto|]. intros H k Hk.
  destruct (A k Hk) as [F|[(L & M & _)|(M & L & _)]]; [exact F| |];
    exfalso; rewrite map_length in L, M; intuition.
Qed.
Print Assumptions C43_equal_data_partial.
(** An object whose only peak was rejected still equals the original. *)
Definition one (ok : bool) : peaks :=
  mkPeaks "a" [("frequency", ND (S1 1) [z 5]); ("velocity", ND (S1 1) [z 200])] (ND (S1 1) [ok]).
Theorem C43_rejection_counts_refuted : exists p r,
  well_formed (S1 1) p /\ peaks_eq p (fst (do_reject p r)) = Ok true
  /\ is_valid p 0 = true /\ is_valid (fst (do_reject p r)) 0 = false.
Proof.
  exists (one true), (Limits "frequency" (Some (z 6)) None).
  split; [|vm_compute; auto].
  apply (new_peaks_wf _ (ND (S1 1) [z 5]) (ND (S1 1) [z 200]) "a" []); try reflexivity;
    repeat constructor; cbn; intuition discriminate.
Qed.
Print Assumptions C43_rejection_counts_refuted.
(** One peak equals three copies of it. *)
Theorem C43_count_refuted : exists p q,
  peaks_eq p q = Ok true /\ well_formed (S1 1) p /\ well_formed (S1 3) q
  /\ List.length (valid_positions p) = 1 /\ List.length (valid_positions q) = 3.
Proof.
  exists (one true), (mkPeaks "a" [("frequency", ND (S1 3) [z 5; z 5; z 5]);
                                   ("velocity", ND (S1 3) [z 200; z 200; z 200])]
                              (ND (S1 3) [true; true; true])).
  split; [vm_compute; reflexivity|]. split; [|split; [|vm_compute; auto]].
  - apply (new_peaks_wf _ (ND (S1 1) [z 5]) (ND (S1 1) [z 200]) "a" []); try reflexivity;
      repeat constructor; cbn; intuition discriminate.
  - apply (new_peaks_wf _ (ND (S1 3) [z 5; z 5; z 5]) (ND (S1 3) [z 200; z 200; z 200]) "a" []);
      try reflexivity; repeat constructor; cbn; intuition discriminate.
Qed.
Print Assumptions C43_count_refuted.
(** Reflexivity holds for the attributes the class knows by name. *)
Theorem C43_reflexive_partial : forall s p, well_formed s p ->
  (forall k, In k (attrs p) -> named k) -> peaks_eq p p = Ok true.
Proof. exact peaks_eq_refl. Qed.
Print Assumptions C43_reflexive_partial.
(** With any other keyword attribute an object differs from itself. *)
Theorem C43_reflexive_refuted : exists p,
  well_formed (S1 1) p /\ peaks_eq p p = Ok false.
Proof.
  exists (mkPeaks "a" [("frequency", ND (S1 1) [z 5]); ("velocity", ND (S1 1) [z 200]);
                       ("phase", ND (S1 1) [z 0])] (ND (S1 1) [true])).
  split; [|vm_compute; reflexivity].
  apply (new_peaks_wf _ (ND (S1 1) [z 5]) (ND (S1 1) [z 200]) "a" [("phase", ND (S1 1) [z 0])]);
    try reflexivity; repeat constructor; cbn; intuition discriminate.
Qed.
Print Assumptions C43_reflexive_refuted.
(** The tolerance is relative to the right-hand object only. *)
Theorem C43_symmetric_refuted : exists p q,
  well_formed (S1 2) p /\ well_formed (S1 2) q
  /\ peaks_eq p q = Ok true /\ peaks_eq q p = Ok false.
Proof.
  set (v := q 100001000005 1000000).
  exists (mkPeaks "a" [("frequency", ND (S1 2) [z 5; z 6]); ("velocity", ND (S1 2) [z 100000; z 300])]
                  (ND (S1 2) [true; true])),
         (mkPeaks "a" [("frequency", ND (S1 2) [z 5; z 6]); ("velocity", ND (S1 2) [v; z 300])]
                  (ND (S1 2) [true; true])).
  split; [|split; [|vm_compute; auto]].
  - apply (new_peaks_wf _ (ND (S1 2) [z 5; z 6]) (ND (S1 2) [z 100000; z 300]) "a" []);
      try reflexivity; repeat constructor; cbn; intuition discriminate.
  - apply (new_peaks_wf _ (ND (S1 2) [z 5; z 6]) (ND (S1 2) [v; z 300]) "a" []);
      try reflexivity; repeat constructor; cbn; intuition discriminate.
Qed.
Print Assumptions C43_symmetric_refuted.
Example C43_example : peaks_eq sample sample = Ok true
  /\ (forall k, In k (attrs sample) -> named k)
  /\ peaks_eq sample (run_rejects sample history) = Ok false.
Proof.
  split; [vm_compute; reflexivity|]. split; [|vm_compute; reflexivity].
  intros k. cbn. intuition.
Qed.

(** ** C52 (first part): the dictionary given to from_dict *)
Theorem C52_dict_partial : forall d ident, ~ In "valid" (map fst d) ->
  fst (from_dict d ident) = d.
Proof. intros d ident H. exact (dict_del_absent "valid" d H). Qed.
Print Assumptions C52_dict_partial.
(** A dictionary with a mask loses it: the second object built from the same
    dictionary has all its peaks valid again. *)
Theorem C52_dict_refuted : exists d p1 p2,
  snd (from_dict d "a") = Ok p1
  /\ snd (from_dict (fst (from_dict d "a")) "a") = Ok p2
  /\ fst (from_dict d "a") <> d
  /\ is_valid p1 0 = false /\ is_valid p2 0 = true.
Proof.
  exists (to_dict (one false)), (one false), (one true).
  split; [vm_compute; reflexivity|]. split; [vm_compute; reflexivity|].
  split; [|vm_compute; auto]. intros H. apply (f_equal (@List.length _)) in H.
  vm_compute in H. discriminate.
Qed.
Print Assumptions C52_dict_refuted.
Example C52_example : ~ In "valid" (map fst (written sample)) .
Proof. cbn. intuition discriminate. Qed.
