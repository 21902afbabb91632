(* Property theorems about wavefield transforms (C25-C29, C33, C34). *)
From Verif Require Import TransformModel TransformSpec PyFacts NumFacts ArraySpec ArrayProofs
  TransformProofs TransformNormProofs TransformSlantProofs.
From Coq Require Import Permutation.
Local Open Scope nat_scope.
Local Open Scope list_scope.
Local Definition z (n : Z) : Qc := QcZ n.
Local Definition q (a : Z) (b : positive) : Qc := Q2Qc (a # b).
(** np.geomspace is not needed in the examples *)
Local Definition nogeom (_ _ : Qc) (_ : Z) : result (list Qc) := Err ValueError.
Local Definition sen (x : Z) (l : list Z) (m : Z) : sensor :=
  mkSensor (mkSeries (map z l) (q 1 10) 1 0 m) (z x) 0 0.
Local Definition src0 (x : Z) : source := mkSource (z x) 0 0.

(** ** C25 *)
Theorem C25_frequencies : forall geomspace a st s rest vs df m,
  sensors a = s :: rest -> 0 < nsamples (ser s) -> multiple (ser s) = Z.of_nat m -> 0 < m ->
  internal_df (ser s) = Ok df ->
  create_vector geomspace (s_vmin st) (s_vmax st) (s_nvel st) (s_vspace st) = Ok vs ->
  exists w, empty_from_array geomspace a st = Ok w /\
    every_mth (nsamples (ser s)) df (s_fmin st) (s_fmax st) m (wfrq w) /\
    (* advancing by the user-facing step *)
    (forall k f g, nth_error (wfrq w) k = Some f -> nth_error (wfrq w) (S k) = Some g ->
       exists step, user_df (ser s) = Ok step /\ g = (f + step)%Qc) /\
    (* within half a grid step *)
    ((0 < df)%Qc -> (0 <= s_fmin st)%Qc -> (s_fmin st <= s_fmax st)%Qc ->
     (s_fmax st <= QcN (nsamples (ser s) - 1) * df)%Qc ->
     forall f, In f (wfrq w) ->
       (s_fmin st - df / Q2Qc 2 <= f)%Qc /\ (f <= s_fmax st + df / Q2Qc 2)%Qc).
Proof.
  intros geom a st s rest vs df m Hs Hn Em Hm Hdf Hv.
  destruct (empty_from_array_spec geom a st s rest vs df m Hs Hn Em Hm Hdf Hv) as (w & E & _ & _ & M & _).
  exists w. split; [exact E|split; [exact M|split]].
  - intros k f g F G. exists (df * QcZ (Z.of_nat m))%Qc. split.
    + unfold user_df. rewrite Hdf, Em. reflexivity.
    + eapply every_mth_step; eauto.
  - intros. eapply every_mth_within; eauto.
Qed.
Print Assumptions C25_frequencies.

(** The same choice is made by every transform from the frequencies it is given. *)
Theorem C25_selection : forall n df fl fh m, 0 < n -> 0 < m ->
  exists ids fs, frequency_keep_ids (frequency_vector n df) fl fh (Z.of_nat m) = Ok ids /\
    take (frequency_vector n df) ids = Ok fs /\ every_mth n df fl fh m fs.
Proof.
  intros n df fl fh m Hn Hm. destruct (kept_frequencies n df fl fh m Hn Hm) as (ids & fs & A & B & _ & _ & C).
  eauto.
Qed.
Print Assumptions C25_selection.

Theorem C25_errors :
  (forall df fl fh m, frequency_keep_ids (frequency_vector 0 df) fl fh m = Err ValueError) /\
  (forall n df fl fh, 0 < n -> frequency_keep_ids (frequency_vector n df) fl fh 0 = Err ValueError).
Proof. split; [exact keep_ids_empty|exact keep_ids_zero]. Qed.
Print Assumptions C25_errors.

Local Definition st25 : wt_settings := mkWt (z 1) (z 4) (z 100) (z 200) 3 "linear".
Local Definition a25 : array := mkArray [sen 0 [0; 0; 0; 0; 0; 0; 0; 0; 0; 0; 0; 0; 0; 0; 0; 0; 0; 0; 0; 0]%Z 3] (src0 (-5)).
Example C25_example :
  match empty_from_array nogeom a25 st25 with
  | Ok w => map this (wfrq w) = [1; 5 # 2; 4]%Q /\ map this (wvel w) = [100; 150; 200]%Q
            /\ List.length (power w) = 3
  | Err _ => False
  end.
Proof. vm_compute. auto. Qed.

(** ** C26 *)
(** Missing: silent frequencies and calls that raise (both refuted below). *)
Theorem C26_last_partial : forall K kabs kmul kreal (w : transform K) nr nc m l,
  entry_laws kabs kmul kreal ->
  to_abs w = Scalar f1 -> magnitudes kabs (power w) = fin m ->
  rect nr nc m -> m <> [] -> 0 < nc -> nonneg m ->
  l <> [] -> (forall s, In s l -> valid_name s) -> loud l nc m ->
  exists p, power (normalize_all kabs kmul kreal w l) = reals kreal (fin p) /\
            normalised (last l ""%string) nr nc m p /\
            wfrq (normalize_all kabs kmul kreal w l) = wfrq w /\
            wvel (normalize_all kabs kmul kreal w l) = wvel w.
Proof.
  intros K kabs kmul kreal w nr nc m l L Ht Hp Hr Hm Hc Hn Hl Hv Hd.
  destruct (normalize_all_spec kabs kmul kreal L nr nc m Hr Hm Hc Hn l w) as (A & _ & F & V & _); auto.
  - now apply (restored_fresh kabs kmul kreal L m w Ht).
  - exists (norm_fn nc m (last l ""%string)). split; [exact A|split; [|auto]].
    apply norm_fn_normalised; auto. apply Hv. destruct l; [congruence|]. clear.
    revert s. induction l as [|a l IH]; intros s; [now left|]. right. apply IH.
Qed.
Print Assumptions C26_last_partial.

(** A refused name has no effect as long as the power has not been divided. *)
Theorem C26_refused_partial : forall K kabs kmul kreal (w : transform K) s,
  entry_laws kabs kmul kreal -> to_abs w = Scalar f1 -> ~ valid_name s ->
  normalize kabs kmul kreal w s = (w, Err KeyError).
Proof. intros K kabs kmul kreal w s L. apply (bad_name_harmless kabs kmul kreal L). Qed.
Print Assumptions C26_refused_partial.

(** The hypotheses hold for real entries; normalising three times. *)
Local Definition w26 : transform flt := new_transform [z 1; z 2] [z 10; z 20]
  (fin [[z 1; z 8]; [z 4; z 2]]).
Example C26_example :
  entry_laws fabs fmul (fun x => x) /\
  magnitudes fabs (power w26) = fin [[z 1; z 8]; [z 4; z 2]] /\
  map (map show_flt) (power (normalize_all fabs fmul (fun x => x) w26
         ["frequency-maximum"; "absolute-maximum"; "frequency-maximum"]%string))
  = [[ShFin (1 # 4); ShFin 1]; [ShFin 1; ShFin (1 # 4)]].
Proof. split; [exact real_laws|]. split; vm_compute; reflexivity. Qed.

(** A silent frequency becomes NaN, and "none" cannot bring the power back. *)
(** Without velocities there is no maximum: ValueError, and nothing changes. *)
Theorem C26_no_velocities : forall K kabs kmul kreal (w : transform K) s,
  power w = [] -> wfrq w <> [] -> s = "absolute-maximum"%string \/ s = "frequency-maximum"%string ->
  normalize kabs kmul kreal w s = (w, Err ValueError).
Proof.
  intros K kabs kmul kreal [n f v p t] s H _ [-> | ->]; cbn in H; subst p; cbn; unfold set_power; cbn;
    destruct t; reflexivity.
Qed.
Print Assumptions C26_no_velocities.

Theorem C26_silent_refuted : exists w : transform flt,
  power w = fin [[z 0; z 8]; [z 0; z 2]] /\ to_abs w = Scalar f1 /\
  map (map show_flt) (power (normalize_all fabs fmul (fun x => x) w ["none"]%string))
    = [[ShFin 0; ShFin 8]; [ShFin 0; ShFin 2]] /\
  map (map show_flt) (power (normalize_all fabs fmul (fun x => x) w ["frequency-maximum"; "none"]%string))
    = [[ShNaN; ShFin 8]; [ShNaN; ShFin 2]].
Proof. exists (new_transform [] [] (fin [[z 0; z 8]; [z 0; z 2]])). vm_compute. auto. Qed.
Print Assumptions C26_silent_refuted.

(** A refused call after a division multiplies the power and keeps the factor. *)
Theorem C26_refused_call_refuted : exists (w : transform flt) s,
  to_abs w = Scalar f1 /\ power w = fin [[z 1; z 8]; [z 4; z 2]] /\
  (exists w1, normalize fabs fmul (fun x => x) w "absolute-maximum" = (w1, Ok tt) /\
     snd (normalize fabs fmul (fun x => x) w1 s) = Err KeyError) /\
  map (map show_flt) (power (normalize_all fabs fmul (fun x => x) w ["absolute-maximum"; s; "none"]%string))
    = [[ShFin 8; ShFin 64]; [ShFin 32; ShFin 16]].
Proof.
  exists w26, "frequency_maximum"%string. split; [reflexivity|split; [reflexivity|split]].
  - eexists. split; vm_compute; reflexivity.
  - vm_compute. reflexivity.
Qed.
Print Assumptions C26_refused_call_refuted.

(** ** C27 *)
Theorem C27_first_greatest : forall (w : transform flt) nr nc m,
  power w = fin m -> rect nr nc m -> m <> [] -> List.length (wvel w) = nr ->
  exists ps, find_peak_real w "frequency-maximum" = Ok ps /\ List.length ps = nc /\
    forall j, j < nc -> exists i, first_greatest (column m j) i /\ nth j ps 0%Qc = nth i (wvel w) 0%Qc.
Proof.
  intros [n frqs vels p f] nr nc m Hp Hr Hm Hv. cbn [power wvel] in *. subst p.
  destruct (find_peak_fin frqs f n nr nc m vels Hr Hm Hv) as (ps & E & L & S). exists ps.
  split; [exact E|split; [exact L|]]. intros j Hj. destruct (S j Hj) as (i & A & B). exists i. split; auto.
  now apply argmax_first.
Qed.
Print Assumptions C27_first_greatest.

Theorem C27_unaffected : forall (w : transform flt) nr nc m l,
  to_abs w = Scalar f1 -> power w = fin m -> rect nr nc m -> m <> [] -> 0 < nc -> nonneg m ->
  List.length (wvel w) = nr ->
  (forall s, In s l -> valid_name s) -> loud l nc m ->
  find_peak_real (normalize_all fabs fmul (fun x => x) w l) "frequency-maximum"
  = find_peak_real w "frequency-maximum".
Proof.
  intros w nr nc m l Ht Hp Hr Hm Hc Hn Hvl Hv Hd.
  destruct l as [|s0 l0]; [reflexivity|]. set (l := s0 :: l0) in *.
  assert (Hl : l <> []) by discriminate.
  assert (Hmag : magnitudes fabs (power w) = fin m) by (rewrite Hp; apply (fabs_m m Hn)).
  destruct (C26_last_partial flt fabs fmul (fun x => x) w nr nc m l real_laws Ht Hmag Hr Hm Hc Hn Hl Hv Hd)
    as (p & E & N & F & V).
  assert (Hlast : In (last l ""%string) l).
  { unfold l. clear. revert s0. induction l0 as [|a l IH]; intros s; [now left|]. right. apply IH. }
  assert (Hd1 : loud [last l ""%string] nc m).
  { destruct Hd as [D1 D2]. split; intros [E1|[]]; rewrite E1 in Hlast; auto. }
  replace (reals (fun x => x) (fin p)) with (fin p) in E.
  2:{ unfold reals. rewrite <- (map_id (fin p)) at 1. apply map_ext. intros. symmetry. apply map_id. }
  assert (Hrp : rect nr nc p) by apply N.
  assert (Hpn : p <> []) by (intros ->; destruct Hrp as [X _], Hr as [Y _]; destruct m; [congruence|simpl in *; lia]).
  destruct w as [n frqs vels pw f]. cbn [power wvel to_abs wfrq] in *. subst pw.
  destruct (normalize_all fabs fmul (fun x => x) (mkTransform n frqs vels (fin m) f) l) as [n' frqs' vels' pw' f'] eqn:En.
  cbn [power wvel wfrq] in *. subst pw' vels' frqs'.
  destruct (find_peak_fin frqs f n nr nc m vels Hr Hm Hvl) as (ps & E1 & L1 & S1).
  destruct (find_peak_fin frqs f' n' nr nc p vels Hrp Hpn Hvl) as (ps' & E2 & L2 & S2).
  rewrite E1, E2. f_equal. apply (nth_ext_len 0%Qc); [congruence|]. intros j Hj. rewrite L2 in Hj.
  destruct (S1 j Hj) as (i & A & B), (S2 j Hj) as (i' & A' & B').
  rewrite (normalised_argmax _ nr nc m p j N Hr Hj Hd1), A in A'. injection A' as <-. congruence.
Qed.
Print Assumptions C27_unaffected.

Theorem C27_other_refused : forall (w : transform flt) by_, by_ <> "frequency-maximum"%string ->
  find_peak_real w by_ = Err NotImplementedError.
Proof.
  intros w by_ H. unfold find_peak_real, find_peak_power.
  destruct (String.eqb_spec by_ "frequency-maximum"); [contradiction|reflexivity].
Qed.
Print Assumptions C27_other_refused.
(** Without velocities there is no peak. *)
Theorem C27_no_velocities : forall (w : transform flt), power w = [] -> wfrq w <> [] ->
  find_peak_real w "frequency-maximum" = Err ValueError.
Proof. intros w H _. unfold find_peak_real, find_peak_power. cbn [String.eqb Ascii.eqb Bool.eqb]. now rewrite H. Qed.
Print Assumptions C27_no_velocities.

Example C27_example :
  match find_peak_real w26 "frequency-maximum" with
  | Ok l => map this l = [20; 10]%Q
  | Err _ => False
  end /\ loud ["frequency-maximum"; "absolute-maximum"]%string 2 [[z 1; z 8]; [z 4; z 2]].
Proof.
  split; [vm_compute; auto|]. split.
  - intros _. exists [z 1; z 8], (z 1). repeat split; cbn; auto.
  - intros _ [|[|j]] Hj; [exists (z 1)|exists (z 8)|lia]; split; cbn; auto; reflexivity.
Qed.

(** The slant-stack transform stores complex power, which numpy orders by the real
    part: there the pick before normalisation is not the one of greatest power. *)
Local Definition complex : Type := Qc * Qc.
(** np.argmax on complex numbers (no NaN): lexicographic *)
Local Definition better_complex (x y : complex) : bool :=
  Qcltb (fst y) (fst x) || Qceqb (fst x) (fst y) && Qcltb (snd y) (snd x).
Theorem C27_complex_refuted : exists w : transform complex, exists v1 v2,
  find_peak_power better_complex w "frequency-maximum" = Ok [v1] /\
  (* whatever function computes the modulus *)
  (forall modulus : complex -> Qc,
     (forall c, 0 <= modulus c)%Qc ->
     (forall a b, modulus (a, b) * modulus (a, b) = a * a + b * b)%Qc ->
     find_peak_real (mkTransform (wn w) (wfrq w) (wvel w)
                      (map (map (fun c => Fin (modulus c))) (power w)) (Scalar f1)) "frequency-maximum"
     = Ok [v2]) /\
  v1 <> v2.
Proof.
  exists (new_transform [z 5] [z 100; z 200] [[(z 3, z 4)]; [(z 4, z 0)]]), (z 200), (z 100).
  split; [reflexivity|split; [|intros E; apply Qc_eq_Q in E; vm_compute in E; discriminate]].
  intros modulus Hn Hs.
  assert (U : forall x y : Qc, (0 <= x -> 0 <= y -> 0 < y -> x * x = y * y -> x = y)%Qc).
  { intros x y Hx Hy Hy0 E. assert (D : ((x - y) * (x + y) = 0)%Qc) by (ring_simplify; rewrite !Qcmult_assoc || idtac; clear - E; qcnra).
    destruct (Qcmult_integral _ _ D) as [A|A]; clear - A Hx Hy0; qclra. }
  assert (A : modulus (z 3, z 4) = z 5).
  { apply U; [apply Hn|vm_compute; discriminate|reflexivity|]. rewrite Hs. apply Qc_is_canon. reflexivity. }
  assert (B : modulus (z 4, z 0) = z 4).
  { apply U; [apply Hn|vm_compute; discriminate|reflexivity|]. rewrite Hs. apply Qc_is_canon. reflexivity. }
  cbn [new_transform wn wfrq wvel power map]. rewrite A, B. vm_compute. reflexivity.
Qed.
Print Assumptions C27_complex_refuted.

(** ** C28 *)
Theorem C28_mean : forall (w : transform flt) nr nc p l,
  power w = fin p -> rect nr nc p -> wn w = 0%Z ->
  l <> [] -> (forall k m, In (k, m) l -> (0 < k)%Z /\ rect nr nc m) ->
  exists w' p', stack_many w (others l) = (w', Ok tt) /\ power w' = fin p' /\ rect nr nc p' /\
    wn w' = total l /\ wfrq w' = wfrq w /\ wvel w' = wvel w /\
    forall i j, i < nr -> j < nc -> entry p' i j = mean_entry l i j.
Proof.
  intros w nr nc p l Hp Hr Hn Hl H.
  destruct (stack_many_fin nr nc l w p Hp Hr) as (w' & p' & A & B & C & D & F & V & _ & E).
  - lia.
  - intros k m I. destruct (H k m I). split; [lia|auto].
  - destruct l as [|[k m] l]; [congruence|]. destruct (H k m); [now left|]. lia.
  - exists w', p'. rewrite Hn in *. cbn [Z.add] in *. repeat (split; [assumption|]).
    intros i j Hi Hj. rewrite E by auto. rewrite QcZ_0. unfold mean_entry, wsum. f_equal. ring.
Qed.
Print Assumptions C28_mean.

(** Neither the order nor what the empty transform contained matters. *)
(** Transforms as they are constructed, each of one record, stack to the plain mean. *)
Theorem C28_fresh : forall (w : transform flt) nr nc p fs vs ms,
  power w = fin p -> rect nr nc p -> wn w = 0%Z -> ms <> [] -> (forall m, In m ms -> rect nr nc m) ->
  exists w' p', stack_many w (map (fun m => of_transform (new_transform fs vs (fin m))) ms) = (w', Ok tt) /\
    power w' = fin p' /\ wn w' = Z.of_nat (List.length ms) /\
    forall i j, i < nr -> j < nc -> entry p' i j = (Qcsum (map (fun m => entry m i j) ms) / QcN (List.length ms))%Qc.
Proof.
  intros w nr nc p fs vs ms Hp Hr Hn Hm Hs.
  assert (T : total (map (fun m => (1%Z, m)) ms) = Z.of_nat (List.length ms)).
  { unfold total. clear. induction ms as [|m ms IH]; [reflexivity|]. cbn [map fst fold_right List.length]. cbn [map fst] in IH. lia. }
  destruct (C28_mean w nr nc p (map (fun m => (1%Z, m)) ms) Hp Hr Hn) as (w' & p' & E & P & _ & N & _ & _ & V).
  - destruct ms; [congruence|discriminate].
  - intros k m I. apply in_map_iff in I. destruct I as (m0 & Q & I). injection Q as <- <-. split; [lia|now apply Hs].
  - exists w', p'. split; [|split; [exact P|split; [now rewrite N|]]].
    + rewrite <- E. f_equal. unfold others. rewrite map_map. reflexivity.
    + intros i j Hi Hj. rewrite V by assumption. unfold mean_entry. rewrite T, map_map. f_equal.
      f_equal. apply map_ext. intros m. cbn [fst snd]. change (QcZ 1) with 1%Qc. ring.
Qed.
Print Assumptions C28_fresh.
Example C28_fresh_nonvacuous : exists (w : transform flt) p (ms : list (list (list Qc))), power w = fin p /\ rect 1 2 p /\ wn w = 0%Z /\
  List.length ms = 2 /\ (forall m, In m ms -> rect 1 2 m).
Proof.
  exists (new_empty [] [] (fin [[z 0; z 0]])), [[z 0; z 0]], [[[z 1; z 2]]; [[z 3; z 8]]].
  split; [reflexivity|]. split; [split; [reflexivity|intros r [<-|[]]; reflexivity]|]. split; [reflexivity|]. split; [reflexivity|].
  intros m [<-|[<-|[]]]; (split; [reflexivity|intros r [<-|[]]; reflexivity]).
Qed.

Theorem C28_order : forall (w1 w2 : transform flt) nr nc p1 p2 l1 l2,
  power w1 = fin p1 -> rect nr nc p1 -> wn w1 = 0%Z ->
  power w2 = fin p2 -> rect nr nc p2 -> wn w2 = 0%Z ->
  l1 <> [] -> (forall k m, In (k, m) l1 -> (0 < k)%Z /\ rect nr nc m) -> Permutation l1 l2 ->
  power (fst (stack_many w1 (others l1))) = power (fst (stack_many w2 (others l2))) /\
  wn (fst (stack_many w1 (others l1))) = wn (fst (stack_many w2 (others l2))).
Proof.
  intros w1 w2 nr nc p1 p2 l1 l2 P1 R1 N1 P2 R2 N2 Hl H Pm.
  destruct (C28_mean w1 nr nc p1 l1 P1 R1 N1 Hl H) as (w1' & q1 & A1 & B1 & C1 & D1 & _ & _ & E1).
  destruct (C28_mean w2 nr nc p2 l2 P2 R2 N2) as (w2' & q2 & A2 & B2 & C2 & D2 & _ & _ & E2).
  - intros ->. apply Hl. now apply Permutation_nil, Permutation_sym.
  - intros k m I. apply (H k m). eapply Permutation_in; [apply Permutation_sym|]; eauto.
  - rewrite A1, A2. cbn [fst]. rewrite B1, B2, D1, D2. split; [|now apply total_perm].
    f_equal. apply (entry_ext nr nc); auto. intros i j Hi Hj. rewrite E1, E2 by auto. unfold mean_entry.
    change (wsum l1 i j / QcZ (total l1) = wsum l2 i j / QcZ (total l2))%Qc.
    now rewrite (total_perm l1 l2), (wsum_perm l1 l2).
Qed.
Print Assumptions C28_order.

(** Objects without power or number are refused, and so are images whose shapes cannot be broadcast together; the image
    stays as it was. *)
Theorem C28_refused : forall w o,
  (o_power o = None \/ o_n o = None -> stack w o = (w, Err AttributeError)) /\
  (forall nr nc nr' nc' m k, rect nr nc (power w) -> o_power o = Some m -> o_n o = Some k -> rect nr' nc' m ->
     nr <> 0 -> nr' <> 0 -> ~ (compatible nr nr' /\ compatible nc nc') -> stack w o = (w, Err ValueError)).
Proof.
  intros w [op on]. cbn [o_power o_n]. split.
  - intros [-> | ->]; unfold stack; cbn; [reflexivity|]. now destruct op.
  - intros nr nc nr' nc' m k R -> -> R' N N' H. unfold stack. cbn [o_power o_n]. cbn zeta.
    rewrite (width_rect nr nc), (width_rect nr' nc') by auto. rewrite (proj1 R), (proj1 R').
    apply Nat.eqb_neq in N as Nb, N' as Nb'. rewrite Nb, Nb'.
    destruct (spread_spec (common nr nr') (common nc nc') nr nc _ R N) as [_ A].
    destruct (spread_spec (common nr nr') (common nc nc') nr' nc' _ R' N') as [_ B]. unfold compatible, common in *.
    destruct (Nat.eqb_spec nr 1) as [E1|E1], (Nat.eqb_spec nc 1) as [E2|E2].
    + exfalso. apply H. auto.
    + rewrite B by (intros [_ [Q|Q]]; apply H; auto). now destruct (spread _ _ (power w)).
    + rewrite B by (intros [[Q|Q] _]; apply H; auto). now destruct (spread _ _ (power w)).
    + rewrite B by (intros [P Q]; apply H; destruct P, Q; auto). now destruct (spread _ _ (power w)).
Qed.
Print Assumptions C28_refused.
(** Otherwise the image takes the common shape, whatever its own was, and each entry is the weighted mean of the entries
    provided for it; an axis of length one provides its only entry everywhere.  Frequencies and velocities stay. *)
Theorem C28_broadcast : forall w o nr nc nr' nc' m k, rect nr nc (power w) -> o_power o = Some m -> o_n o = Some k -> rect nr' nc' m ->
  nr <> 0 -> nr' <> 0 -> compatible nr nr' -> compatible nc nc' ->
  exists w', stack w o = (w', Ok tt) /\ wn w' = (wn w + k)%Z /\ wfrq w' = wfrq w /\ wvel w' = wvel w /\ to_abs w' = to_abs w /\
    rect (joint nr nr') (joint nc nc') (power w') /\
    forall i j, i < joint nr nr' -> j < joint nc nc' -> nth j (nth i (power w') []) NaN =
      fdiv (fadd (fmul (provided (power w) nr nc i j) (Fin (QcZ (wn w)))) (fmul (provided m nr' nc' i j) (Fin (QcZ k))))
           (Fin (QcZ (wn w + k))).
Proof.
  intros w [op on] nr nc nr' nc' m k R Hp Hn R' N N' C1 C2. cbn [o_power o_n] in Hp, Hn. subst op on. unfold stack. cbn [o_power o_n]. cbn zeta.
  rewrite (width_rect nr nc), (width_rect nr' nc') by auto. rewrite (proj1 R), (proj1 R').
  apply Nat.eqb_neq in N as Nb, N' as Nb'. rewrite Nb, Nb'. change (common nr nr') with (joint nr nr'). change (common nc nc') with (joint nc nc').
  assert (J : forall a b, compatible a b -> (a = joint a b \/ a = 1) /\ (b = joint a b \/ b = 1)).
  { intros a b C. unfold joint, compatible in *. destruct (Nat.eqb_spec a 1); split; auto. destruct C as [C|[C|C]]; auto. lia. }
  destruct (J _ _ C1) as [J1 J2], (J _ _ C2) as [J3 J4].
  destruct (spread_spec (joint nr nr') (joint nc nc') nr nc _ R N) as [A _]. destruct (A J1 J3) as (p & -> & [Lp Cp] & Ep). clear A.
  destruct (spread_spec (joint nr nr') (joint nc nc') nr' nc' _ R' N') as [A _]. destruct (A J2 J4) as (q & -> & [Lq Cq] & Eq). clear A.
  eexists. split; [reflexivity|]. cbn [wn wfrq wvel to_abs power]. do 4 (split; [reflexivity|]). split.
  - split; [rewrite map_length, length_map2, !map_length; lia|]. intros r I. apply in_map_iff in I as (r1 & <- & I). rewrite map_length.
    apply (In_nth _ _ []) in I as (i & Hi & <-). rewrite length_map2, !map_length in Hi.
    rewrite (nth_map2 _ _ _ _ [] []) by (rewrite map_length; lia). rewrite length_map2, !(nth_map_lt _ _ i [] []), !map_length by lia.
    rewrite Cp, Cq by (apply nth_In; lia). lia.
  - intros i j Hi Hj. assert (Pi : List.length (nth i p []) = joint nc nc') by (apply Cp, nth_In; lia).
    assert (Qi : List.length (nth i q []) = joint nc nc') by (apply Cq, nth_In; lia).
    rewrite (nth_map_lt _ _ i [] []) by (rewrite length_map2, !map_length; lia).
    rewrite (nth_map2 _ _ _ _ [] []) by (rewrite map_length; lia). rewrite !(nth_map_lt _ _ i [] []) by lia.
    rewrite (nth_map_lt _ _ j NaN NaN) by (rewrite length_map2, !map_length; lia).
    rewrite (nth_map2 _ _ _ _ NaN NaN) by (rewrite map_length; lia). rewrite !(nth_map_lt _ _ j NaN NaN) by lia.
    now rewrite Ep, Eq by auto.
Qed.
Print Assumptions C28_broadcast.
(** So an image of one frequency accepts one of several: it then has more columns than frequencies, and likewise more rows
    than velocities, in which case the peaks may no longer be found. *)
Theorem C28_axes_refuted :
  (forall w o nr nc m k, rect nr 1 (power w) -> List.length (wfrq w) = 1 -> o_power o = Some m -> o_n o = Some k -> rect nr nc m ->
     nr <> 0 -> 1 < nc -> exists w', stack w o = (w', Ok tt) /\ List.length (wfrq w') = 1 /\ rect nr nc (power w')) /\
  (exists w o w', rect 1 1 (power w) /\ List.length (wvel w) = 1 /\ List.length (wfrq w) = 1 /\
     stack w (of_transform o) = (w', Ok tt) /\ rect 2 1 (power w') /\ find_peak_real w' "frequency-maximum" = Err IndexError).
Proof.
  split.
  - intros w o nr nc m k R F Hp Hn R' N1 N2. destruct (C28_broadcast w o nr 1 nr nc m k R Hp Hn R' N1 N1) as (w' & S & _ & Fw & _ & _ & Rw & _); unfold compatible; auto.
    exists w'. split; auto. split; [congruence|]. unfold joint in Rw. cbn [Nat.eqb] in Rw. destruct (Nat.eqb nr 1); exact Rw.
  - exists (new_transform [z 1] [z 2] (fin [[z 1]])), (new_transform [z 1] [z 2; z 3] (fin [[z 1]; [z 5]])).
    eexists. split; [split; [reflexivity|]; intros r [<-|[]]; reflexivity|]. do 2 (split; [reflexivity|]).
    split; [reflexivity|]. split; [split; [reflexivity|]; intros r [<-|[<-|[]]]; reflexivity|]. vm_compute. reflexivity.
Qed.
Print Assumptions C28_axes_refuted.
(* two and three rows are refused, one column and three are not *)
Example C28_refused_example :
  rect 2 1 (fin [[z 1]; [z 2]]) /\ rect 3 1 (fin [[z 1]; [z 2]; [z 4]]) /\ ~ (compatible 2 3 /\ compatible 1 1) /\
  compatible 2 2 /\ compatible 1 3 /\ rect 2 3 (fin [[z 1; z 2; z 3]; [z 2; z 5; z 7]]).
Proof.
  split; [split; [reflexivity|]; intros r [<-|[<-|[]]]; reflexivity|]. split; [split; [reflexivity|]; intros r [<-|[<-|[<-|[]]]]; reflexivity|].
  split; [intros [[Q|[Q|Q]] _]; discriminate|]. split; [now left|]. split; [right; now left|]. split; [reflexivity|]; intros r [<-|[<-|[]]]; reflexivity.
Qed.

(** An empty transform stacked onto an empty transform: 0/0. *)
Theorem C28_unused_refuted : exists w o,
  wn w = 0%Z /\ wn o = 0%Z /\ power w = fin [[z 0]] /\ power o = fin [[z 0]] /\
  map (map show_flt) (power (fst (stack w (of_transform o)))) = [[ShNaN]] /\
  (* and everything stacked afterwards is lost *)
  map (map show_flt) (power (fst (stack_many w [of_transform o;
        of_transform (new_transform [] [] (fin [[z 7]]))]))) = [[ShNaN]].
Proof.
  exists (new_empty [] [] (fin [[z 0]])), (new_empty [] [] (fin [[z 0]])). vm_compute. auto 10.
Qed.
Print Assumptions C28_unused_refuted.

Example C28_example :
  match stack_many (new_empty [z 1] [z 2; z 3] (fin [[z 9]; [z 9]]))
          (others [(1%Z, [[z 1]; [z 2]]); (2%Z, [[z 4]; [z 8]])]) with
  | (w, Ok _) => map (map show_flt) (power w) = [[ShFin 3]; [ShFin 6]] /\ wn w = 3%Z
  | _ => False
  end.
Proof. vm_compute. auto. Qed.

(** ** C29 *)
Theorem C29_slant_stack : forall tm xs x0 dt vels d npts,
  rect (List.length xs) npts tm -> least xs x0 -> (0 < dt)%Qc -> vels <> [] ->
  (forall v, In v vels -> (0 < v)%Qc) -> greatest_delay xs x0 dt vels d ->
  (Z.of_nat npts - 1 < Qcfloor d)%Z /\ slant_stack_of tm xs dt vels = Err ValueError \/
  (Qcfloor d <= Z.of_nat npts - 1)%Z /\
  exists out, slant_stack_of tm xs dt vels = Ok out /\
    rect (List.length vels) (Z.to_nat (Z.of_nat npts - 1 - Qcfloor d)) out /\
    forall i t, i < List.length vels -> (Z.of_nat t < Z.of_nat npts - 1 - Qcfloor d)%Z ->
      slanted_sum tm xs x0 dt (nth i vels 0%Qc) (QcN t * dt) (entry out i t).
Proof. exact slant_stack_of_spec. Qed.
Print Assumptions C29_slant_stack.

(** On an array: every sensor enters with its own record and its own distance to the source. *)
Theorem C29_array : forall a s rest x0 vels d,
  consistent a -> sensors a = s :: rest ->
  (src_x (src a) <= first_x a)%Qc \/ (last_x a < src_x (src a))%Qc ->
  (0 < dt (ser s))%Qc -> vels <> [] -> (forall v, In v vels -> (0 < v)%Qc) ->
  least (map (dist a) (sensors a)) x0 ->
  greatest_delay (map (dist a) (sensors a)) x0 (dt (ser s)) vels d ->
  (Qcfloor d <= Z.of_nat (nsamples (ser s)) - 1)%Z ->
  exists order out, Permutation order (sensors a) /\ increasing (map (dist a) order) /\
    slant_stack a vels = Ok out /\
    rect (List.length vels) (Z.to_nat (Z.of_nat (nsamples (ser s)) - 1 - Qcfloor d)) out /\
    forall i t, i < List.length vels -> (Z.of_nat t < Z.of_nat (nsamples (ser s)) - 1 - Qcfloor d)%Z ->
      slanted_sum (map (fun s => amp (ser s)) order) (map (dist a) order) x0 (dt (ser s))
        (nth i vels 0%Qc) (QcN t * dt (ser s)) (entry out i t).
Proof.
  intros a s rest x0 vels d Hc Hs Hsrc Hdt Hvn Hv Lx G Hd.
  destruct (flipped a) as [m offs] eqn:Ef.
  destruct (flipped_spec a m offs Hc Hsrc Ef) as (order & P & Em & Eo & I).
  unfold slant_stack. rewrite Hs, Ef. subst m offs.
  assert (Hp : forall x, In x (map (dist a) (sensors a)) <-> In x (map (dist a) order)).
  { intros x. split; apply Permutation_in; apply Permutation_map; [now apply Permutation_sym|auto]. }
  destruct (C29_slant_stack (map (fun s => amp (ser s)) order) (map (dist a) order) x0 (dt (ser s)) vels d
              (nsamples (ser s))) as [[A _] | [_ (out & E & R & V)]]; auto.
  - split; [now rewrite !map_length|]. intros r Hr. apply in_map_iff in Hr. destruct Hr as (t & <- & It).
    destruct Hc as (_ & _ & Hag).
    assert (It' : In t (sensors a)) by (eapply Permutation_in; eauto).
    assert (Is : In s (sensors a)) by (rewrite Hs; now left).
    destruct (Hag t s It' Is) as (_ & _ & _ & X). exact X.
  - destruct Lx as [L1 L2]. split; [now apply Hp|]. intros y Hy. apply L2. now apply Hp.
  - destruct G as [G1 (x & v & Ix & Iv & E)]. split.
    + intros x' v' Ix' Iv'. apply G1; auto. now apply Hp.
    + exists x, v. split; [now apply Hp|auto].
  - lia.
  - exists order, out. rewrite <- Hs. auto 6.
Qed.
Print Assumptions C29_array.

Theorem C29_zero_velocity : forall tm xs x0 dt vels, least xs x0 -> In 0%Qc vels ->
  slant_stack_of tm xs dt vels = Err OverflowError.
Proof. intros. eapply slant_zero_velocity; eauto. Qed.
Print Assumptions C29_zero_velocity.
(** Without receivers or without velocities there is nothing to stack: a ValueError. *)
Theorem C29_nothing : forall tm xs dt vels, xs = [] \/ vels = [] /\ dt <> 0%Qc -> slant_stack_of tm xs dt vels = Err ValueError.
Proof.
  intros tm xs dt vels [-> |[-> H]]; [reflexivity|]. unfold slant_stack_of. destruct xs as [|a xs]; [reflexivity|].
  cbn [qmin bind existsb orb]. destruct (Qceqb dt 0%Qc) eqn:E; [now apply Qceqb_eq in E|]. reflexivity.
Qed.
Print Assumptions C29_nothing.

(** Three receivers, velocities in no particular order. *)
Local Definition a29 : array :=
  mkArray [sen 0 [0; 1; 4; 9; 16; 25; 36; 49]%Z 1; sen 1 [1; 0; 2; 0; 3; 0; 4; 0]%Z 1;
           sen 3 [5; 5; 5; 5; 5; 5; 5; 6]%Z 1] (src0 (-2)).
Example C29_example :
  match slant_stack a29 [z 8; z 20; z 6] with
  | Ok out => map (map this) out = [[23 # 4; 31 # 4]; [23 # 4; 7]; [7; 13 # 2]]%Q
  | Err _ => False
  end /\
  (match slant_stack a29 [z 1; z 20] with Err ValueError => True | _ => False end).
Proof. vm_compute. auto. Qed.

(** ** C33 *)
(** Each reported frequency is [multiple] times the frequency of the spectral bin
    whose value it carries. *)
Theorem C33_values_partial : forall sp signal noise pad df signal' noise' fl fh s ss n ns step m,
  (* after the padding, if any *)
  (signal', noise') = fst (snr_from_arrays sp signal noise fl fh pad df) ->
  (pad = true -> snd (array_zero_pad_opt noise df) = Ok tt /\ snd (array_zero_pad_opt signal df) = Ok tt) ->
  sensors signal' = s :: ss -> sensors noise' = n :: ns ->
  nsamples (ser n) = nsamples (ser s) -> 0 < nsamples (ser n) ->
  internal_df (ser n) = Ok step -> multiple (ser n) = Z.of_nat m -> 0 < m ->
  (forall r, In r (rows_of signal') \/ In r (rows_of noise') -> List.length (sp r) = nsamples (ser n)) ->
  exists fs vals, snd (snr_from_arrays sp signal noise fl fh pad df) = Ok (fs, vals) /\
    every_mth (nsamples (ser n)) (step * QcZ (Z.of_nat m)) fl fh m fs /\
    List.length vals = List.length fs /\
    forall k f, nth_error fs k = Some f -> exists i, i < nsamples (ser n) /\
      (* bin i belongs to the frequency i * step *)
      f = (QcZ (Z.of_nat m) * (QcN i * step))%Qc /\
      nth_error vals k = Some (fdiv (Fin (mean_bin sp (rows_of signal') i)) (Fin (mean_bin sp (rows_of noise') i))).
Proof.
  intros sp signal noise pad df signal' noise' fl fh s ss n ns step m Hst Hpad Hs Hn Hl Hp Hdf Hm Hm0 Hsp.
  destruct (snr_core_spec sp signal' noise' fl fh s ss n ns step m Hs Hn Hl Hdf Hm Hm0 Hp Hsp)
    as (fs & vals & E & M & L & V).
  exists fs, vals. split; [|split; [exact M|split; [exact L|]]].
  - rewrite <- E. clear - Hst Hpad. unfold snr_from_arrays in *. destruct pad.
    + destruct (Hpad eq_refl) as [A B]. destruct (array_zero_pad_opt noise df) as [n1 [|]] eqn:E1; [|discriminate A].
      destruct (array_zero_pad_opt signal df) as [s1 [|]] eqn:E2; [|discriminate B].
      cbn [fst snd] in *. injection Hst as -> ->. reflexivity.
    + cbn [fst snd] in *. injection Hst as -> ->. reflexivity.
  - intros k f Hf. destruct (V k f Hf) as (i & A & -> & B). exists i. split; [exact A|split; [ring|exact B]].
Qed.
Print Assumptions C33_values_partial.

(** With a multiple of one (no padding, or a window shorter than 1/df) each value
    is reported at its own frequency, and the frequencies are the requested ones. *)
Theorem C33_unpadded_partial : forall sp signal noise fl fh s ss n ns step,
  sensors signal = s :: ss -> sensors noise = n :: ns ->
  nsamples (ser n) = nsamples (ser s) -> 0 < nsamples (ser n) ->
  internal_df (ser n) = Ok step -> multiple (ser n) = 1%Z ->
  (forall r, In r (rows_of signal) \/ In r (rows_of noise) -> List.length (sp r) = nsamples (ser n)) ->
  exists fs vals, snr_from_arrays sp signal noise fl fh false None = ((signal, noise), Ok (fs, vals)) /\
    every_mth (nsamples (ser n)) step fl fh 1 fs /\
    List.length vals = List.length fs /\
    forall k f, nth_error fs k = Some f -> exists i, i < nsamples (ser n) /\
      f = (QcN i * step)%Qc /\
      nth_error vals k = Some (fdiv (Fin (mean_bin sp (rows_of signal) i)) (Fin (mean_bin sp (rows_of noise) i))).
Proof.
  intros sp signal noise fl fh s ss n ns step Hs Hn Hl Hp Hdf Hm Hsp.
  destruct (snr_core_spec sp signal noise fl fh s ss n ns step 1 Hs Hn Hl Hdf Hm ltac:(lia) Hp Hsp)
    as (fs & vals & E & M & L & V).
  change (Z.of_nat 1) with 1%Z in *. rewrite QcZ_1, Qcmult_1_r in M.
  exists fs, vals. unfold snr_from_arrays. rewrite E. repeat (split; [auto|]).
  intros k f Hf. destruct (V k f Hf) as (i & A & B & C). exists i. rewrite QcZ_1, Qcmult_1_r in B. auto.
Qed.
Print Assumptions C33_unpadded_partial.

Theorem C33_unequal : forall sp signal noise fl fh s ss n ns,
  sensors signal = s :: ss -> sensors noise = n :: ns -> nsamples (ser n) <> nsamples (ser s) ->
  snr_from_arrays sp signal noise fl fh false None = ((signal, noise), Err IndexError).
Proof. exact snr_unequal. Qed.
Print Assumptions C33_unequal.

(** A spectrum with its energy in bin 2 (frequency 2 * step) is reported at twice
    that frequency when padding produced a multiple of 2. *)
Local Definition sp33 (r : list Qc) : list Qc :=
  map (fun i => if (i =? 2)%nat then Qcsum r else z 1) (range (List.length r)).
Local Definition sig33 : array := mkArray [sen 0 [5; 5; 5; 5; 0; 0; 0; 0]%Z 1] (src0 (-2)).
Local Definition noi33 : array := mkArray [sen 0 [1; 0; 0; 0; 0; 0; 0; 0]%Z 1] (src0 (-2)).
Theorem C33_padded_refuted : exists signal noise df signal' noise' fs vals,
  snr_from_arrays sp33 signal noise (z 1) (z 8) true (Some df) = ((signal', noise'), Ok (fs, vals)) /\
  map (fun n => multiple (ser n)) (sensors noise') = [2%Z] /\
  exists step, map (fun n => internal_df (ser n)) (sensors noise') = [Ok step] /\
  (* the ratio 20 of bin 2 appears at 4 * step *)
  mean_bin sp33 (rows_of signal') 2 = z 20 /\ mean_bin sp33 (rows_of noise') 2 = z 1 /\
  exists k f, option_map show_flt (nth_error vals k) = Some (ShFin 20) /\
              nth_error fs k = Some f /\ f = (QcN 4 * step)%Qc.
Proof.
  set (r := snr_from_arrays sp33 sig33 noi33 (z 1) (z 8) true (Some (z 2))).
  assert (E : match snd r with Ok _ => true | Err _ => false end = true) by (vm_compute; reflexivity).
  exists sig33, noi33, (z 2), (fst (fst r)), (snd (fst r)),
    (match snd r with Ok x => fst x | Err _ => [] end), (match snd r with Ok x => snd x | Err _ => [] end).
  split.
  - change (r = ((fst (fst r), snd (fst r)),
      Ok (match snd r with Ok x => fst x | Err _ => [] end, match snd r with Ok x => snd x | Err _ => [] end))).
    destruct r as [[s' n'] [[fs vals]|e]]; [reflexivity|discriminate E].
  - clear E. split; [vm_compute; reflexivity|].
    eexists. split; [vm_compute; reflexivity|].
    split; [apply Qceqb_eq; vm_compute; reflexivity|]. split; [apply Qceqb_eq; vm_compute; reflexivity|].
    exists 1. eexists. split; [vm_compute; reflexivity|]. split; [vm_compute; reflexivity|].
    apply Qceqb_eq. vm_compute. reflexivity.
Qed.
Print Assumptions C33_padded_refuted.

(** pad_snr=True with the default df_snr=None raises TypeError. *)
Theorem C33_pad_without_step : forall sp signal noise fl fh n ns,
  sensors noise = n :: ns ->
  snd (snr_from_arrays sp signal noise fl fh true None) = Err TypeError /\
  (* the signal is untouched, and the padding factor of the first noise record forgotten *)
  fst (fst (snr_from_arrays sp signal noise fl fh true None)) = signal /\
  exists n', sensors (snd (fst (snr_from_arrays sp signal noise fl fh true None))) = n' :: ns /\
    multiple (ser n') = 1%Z /\ amp (ser n') = amp (ser n) /\ dt (ser n') = dt (ser n) /\ sx n' = sx n.
Proof.
  intros sp signal noise fl fh n ns H. unfold snr_from_arrays, array_zero_pad_opt. rewrite H. split; [reflexivity|].
  split; [reflexivity|]. eexists. split; [reflexivity|]. repeat split.
Qed.
Print Assumptions C33_pad_without_step.

(** ** C34 *)
Theorem C34_linear : forall geomspace a b n s, s = "linear"%string \/ s = "lin"%string -> 2 <= n ->
  exists l, create_vector geomspace a b (Z.of_nat n) s = Ok l /\ List.length l = n /\
    nth 0 l 0%Qc = a /\ nth (n - 1) l 0%Qc = b /\
    (forall i, i < n -> nth i l 0%Qc = (a + QcN i * (b - a) / QcN (n - 1))%Qc) /\
    ((a < b)%Qc ->
     (forall i j, i < j -> j < n -> (nth i l 0 < nth j l 0)%Qc) /\
     (forall x, In x l -> (a <= x)%Qc /\ (x <= b)%Qc)).
Proof.
  intros geom a b n s Hs Hn. destruct (linspace_spec a b n Hn) as (l & E & L & A & B & C).
  exists l. split.
  - destruct Hs as [-> | ->]; exact E.
  - repeat (split; [assumption|]). intros Hab. exact (linspace_monotone a b n l Hn Hab E).
Qed.
Print Assumptions C34_linear.

(** Logarithmic spacing is np.geomspace's: the ends asked for and a constant ratio. *)
Definition geometric (a b : Qc) (n : nat) (l : list Qc) : Prop :=
  List.length l = n /\ nth 0 l 0%Qc = a /\ nth (n - 1) l 0%Qc = b /\
  exists r, forall i, S i < n -> nth (S i) l 0%Qc = (nth i l 0 * r)%Qc.
Theorem C34_logarithmic : forall geomspace a b n s, s = "log"%string \/ s = "logarithmic"%string ->
  (forall l, geomspace a b (Z.of_nat n) = Ok l -> geometric a b n l) ->
  create_vector geomspace a b (Z.of_nat n) s = geomspace a b (Z.of_nat n) /\
  (forall l, create_vector geomspace a b (Z.of_nat n) s = Ok l -> geometric a b n l).
Proof.
  intros geom a b n s Hs H. assert (E : create_vector geom a b (Z.of_nat n) s = geom a b (Z.of_nat n)) by (destruct Hs as [-> | ->]; reflexivity).
  split; [exact E|]. intros l Hl. apply H. now rewrite <- E.
Qed.
Print Assumptions C34_logarithmic.
Example C34_logarithmic_example : geometric (z 1) (z 8) 4 [z 1; z 2; z 4; z 8] /\ ~ geometric (z 1) (z 8) 4 [z 1; z 3; z 5; z 8].
Proof.
  split.
  - split; [reflexivity|]. split; [reflexivity|]. split; [reflexivity|]. exists (z 2). intros [|[|[|i]]] H; try (cbn in H; lia); apply Qceqb_eq; vm_compute; reflexivity.
  - intros (_ & _ & _ & r & H). pose proof (H 0 ltac:(lia)) as H0. pose proof (H 1 ltac:(lia)) as H1. cbn [nth] in H0, H1.
    assert (E : (z 5 * z 1 = z 3 * z 3)%Qc) by (rewrite H1, H0 at 1; rewrite H0; ring).
    revert E. intros E. apply Qceqb_eq in E. revert E. vm_compute. discriminate.
Qed.

Theorem C34_edge : forall geomspace a b,
  create_vector geomspace a b 1 "linear" = Ok [a] /\ create_vector geomspace a b 0 "linear" = Ok [] /\
  (forall n, (n < 0)%Z -> create_vector geomspace a b n "linear" = Err ValueError).
Proof.
  intros geom a b. repeat split. intros n Hn. unfold create_vector, linspace. cbn [String.eqb Ascii.eqb Bool.eqb orb].
  destruct (Z.ltb_spec n 0); [reflexivity|lia].
Qed.
Print Assumptions C34_edge.

Theorem C34_unknown : forall geomspace a b n s,
  ~ In s ["linear"; "lin"; "log"; "logarithmic"]%string ->
  create_vector geomspace a b n s = Err KeyError.
Proof.
  intros geom a b n s H. unfold create_vector.
  destruct (String.eqb_spec s "linear") as [->|]; [destruct H; cbn; auto|].
  destruct (String.eqb_spec s "lin") as [->|]; [destruct H; cbn; auto|].
  destruct (String.eqb_spec s "log") as [->|]; [destruct H; cbn; auto|].
  destruct (String.eqb_spec s "logarithmic") as [->|]; [destruct H; cbn; auto|]. reflexivity.
Qed.
Print Assumptions C34_unknown.

Example C34_example :
  match create_vector nogeom (z 100) (z 200) 5 "lin" with
  | Ok l => map this l = [100; 125; 150; 175; 200]%Q | Err _ => False end.
Proof. vm_compute. auto. Qed.
