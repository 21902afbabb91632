(* Proofs about surveys seen from the other side of the line. *)
From Coq Require Import Permutation Sorted.
From Verif Require Import NumFacts PyFacts SeriesProofs ArrayModel ArraySpec ArrayProofs ArrayMatrixProofs TransformModel MirrorSpec.
Local Open Scope nat_scope.
Local Open Scope list_scope.
Notation mi := mirrored_sensor.
Notation mm := mirrored.

Lemma ltb_opp x y : Qcltb (- x) (- y) = Qcltb y x.
Proof. destruct (Qcltb y x) eqn:H; [apply Qcltb_lt in H; apply Qcltb_lt; qclra|]. destruct (Qcltb (- x) (- y)) eqn:G; [|reflexivity]. apply Qcltb_lt in G. exfalso. assert (y < x)%Qc by qclra. apply Qcltb_lt in H0. congruence. Qed.
Lemma mirror_twice a : mm (mm a) = a.
Proof.
  destruct a as [l [x y z]]. unfold mirrored. cbn [sensors src mirrored_source src_x src_y src_z]. rewrite map_rev, rev_involutive, map_map. f_equal.
  - rewrite <- (map_id l) at 2. apply map_ext. intros [s a b c]. unfold mirrored_sensor. cbn. f_equal. ring.
  - unfold mirrored_source. cbn. f_equal. ring.
Qed.
Lemma position_mirror a : position (mm a) = rev (map Qcopp (position a)).
Proof. unfold position, mirrored. cbn [sensors]. rewrite map_rev, !map_map. reflexivity. Qed.
Lemma offset_mirror a s : offset_of (mm a) (mi s) = offset_of a s.
Proof. unfold offset_of. cbn. replace (- src_x (src a) - - sx s)%Qc with (- (src_x (src a) - sx s))%Qc by ring. apply Qcabs_opp. Qed.
Lemma offsets_mirror a : offsets (mm a) = rev (offsets a).
Proof. unfold offsets. change (sensors (mm a)) with (rev (map mi (sensors a))). rewrite map_rev, map_map. f_equal. apply map_ext. apply offset_mirror. Qed.
Lemma last_rev {A} (l : list A) d : last (rev l) d = hd d l.
Proof. destruct l as [|x l]; [reflexivity|]. cbn [rev hd]. apply last_last. Qed.
Lemma hd_rev {A} (l : list A) d : hd d (rev l) = last l d.
Proof. rewrite <- (rev_involutive l) at 2. now rewrite last_rev. Qed.
Lemma hd_opp l : hd 0%Qc (map Qcopp l) = (- hd 0%Qc l)%Qc.
Proof. destruct l; cbn; ring. Qed.
Lemma last_opp l : last (map Qcopp l) 0%Qc = (- last l 0%Qc)%Qc.
Proof. induction l as [|x [|y l] IH]; cbn [map last] in *; [ring|reflexivity|exact IH]. Qed.
Lemma first_mirror a : first_x (mm a) = (- last_x a)%Qc.
Proof. unfold first_x, last_x. now rewrite position_mirror, hd_rev, last_opp. Qed.
Lemma last_mirror a : last_x (mm a) = (- first_x a)%Qc.
Proof. unfold first_x, last_x. now rewrite position_mirror, last_rev, hd_opp. Qed.
Lemma inside_mirror a : source_inside (mm a) = source_inside a.
Proof. unfold source_inside. rewrite first_mirror, last_mirror. cbn [mirrored src mirrored_source src_x]. rewrite !ltb_opp. apply andb_comm. Qed.

Lemma diffs_app l x y : diffs (l ++ [x; y]) = diffs (l ++ [x]) ++ [(y - x)%Qc].
Proof. induction l as [|a [|b l] IH]; try reflexivity. cbn [app diffs] in *. now rewrite IH. Qed.
Lemma diffs_mirror l : diffs (rev (map Qcopp l)) = rev (diffs l).
Proof.
  induction l as [|a [|b l] IH]; try reflexivity. cbn [map rev diffs] in *. rewrite <- app_assoc. cbn [app]. rewrite diffs_app, IH. f_equal. f_equal. ring.
Qed.
Lemma lmin_perm a l b m : Permutation (a :: l) (b :: m) -> lmin a l = lmin b m.
Proof.
  intros P. destruct (lmin_spec l a) as (A1 & A2 & A3), (lmin_spec m b) as (B1 & B2 & B3). apply Qcle_antisym.
  - destruct B3 as [B3|B3]; [rewrite B3|]; [assert (I : In b (a :: l)) by (eapply Permutation_in; [symmetry; exact P|now left])|
      assert (I : In (lmin b m) (a :: l)) by (eapply Permutation_in; [symmetry; exact P|now right])]; destruct I as [<-|I]; auto.
  - destruct A3 as [A3|A3]; [rewrite A3|]; [assert (I : In a (b :: m)) by (eapply Permutation_in; [exact P|now left])|
      assert (I : In (lmin a l) (b :: m)) by (eapply Permutation_in; [exact P|now right])]; destruct I as [<-|I]; auto.
Qed.
Lemma lmax_perm a l b m : Permutation (a :: l) (b :: m) -> lmax a l = lmax b m.
Proof.
  intros P. destruct (lmax_spec l a) as (A1 & A2 & A3), (lmax_spec m b) as (B1 & B2 & B3). apply Qcle_antisym.
  - destruct A3 as [A3|A3]; [rewrite A3|]; [assert (I : In a (b :: m)) by (eapply Permutation_in; [exact P|now left])|
      assert (I : In (lmax a l) (b :: m)) by (eapply Permutation_in; [exact P|now right])]; destruct I as [<-|I]; auto.
  - destruct B3 as [B3|B3]; [rewrite B3|]; [assert (I : In b (a :: l)) by (eapply Permutation_in; [symmetry; exact P|now left])|
      assert (I : In (lmax b m) (a :: l)) by (eapply Permutation_in; [symmetry; exact P|now right])]; destruct I as [<-|I]; auto.
Qed.
Lemma spacing_mirror a : spacing (mm a) = spacing a.
Proof.
  unfold spacing. rewrite position_mirror, diffs_mirror. pose proof (Permutation_rev (diffs (position a))) as P. destruct (diffs (position a)) as [|x l]; [reflexivity|].
  destruct (rev (x :: l)) as [|y m] eqn:E; [apply (f_equal (@List.length Qc)) in E; rewrite rev_length in E; discriminate|].
  now rewrite (lmin_perm _ _ _ _ P), (lmax_perm _ _ _ _ P).
Qed.
Lemma flip_mirror a : sensors a <> [] -> off_end a -> flip_required (mm a) = negb (flip_required a).
Proof.
  intros N O. unfold flip_required. rewrite last_mirror. cbn [mirrored src mirrored_source src_x]. rewrite ltb_opp.
  assert (F : exists s, In s (sensors a) /\ first_x a = sx s). { unfold first_x, position. destruct (sensors a) as [|s l]; [congruence|]. exists s. split; [now left|reflexivity]. }
  assert (G : exists s, In s (sensors a) /\ last_x a = sx s).
  { unfold last_x, position. destruct (exists_last N) as (l & s & ->). exists s. split; [apply in_or_app; right; now left|]. rewrite map_app. apply last_last. }
  destruct F as (s & I & ->), G as (t & J & ->). destruct O as [O|O].
  - rewrite (proj2 (Qcltb_lt _ _) (O s I)). destruct (Qcltb (sx t) (src_x (src a))) eqn:H; [|reflexivity]. apply Qcltb_lt in H. specialize (O t J). exfalso; qclra.
  - rewrite (proj2 (Qcltb_lt _ _) (O t J)). destruct (Qcltb (src_x (src a)) (sx s)) eqn:H; [|reflexivity]. apply Qcltb_lt in H. specialize (O s I). exfalso; qclra.
Qed.
Lemma flipped_mirror a : sensors a <> [] -> off_end a -> flipped (mm a) = flipped a.
Proof.
  intros N O. unfold flipped. rewrite (flip_mirror a N O), offsets_mirror. change (sensors (mm a)) with (rev (map mi (sensors a))). rewrite map_rev, map_map. cbn [mirrored_sensor ser].
  destruct (flip_required a); cbn [negb]; now rewrite ?rev_involutive.
Qed.
(** At the end itself nothing is flipped, from either side. *)
Lemma slant_mirror a v : sensors a <> [] -> (forall s t, In s (sensors a) -> In t (sensors a) -> dt (ser s) = dt (ser t)) -> off_end a -> slant_stack (mm a) v = slant_stack a v.
Proof.
  intros N D O. unfold slant_stack. rewrite (flipped_mirror a N O). change (sensors (mm a)) with (rev (map mi (sensors a))).
  destruct (sensors a) as [|s l] eqn:S; [congruence|]. destruct (rev (map mi (s :: l))) as [|t m] eqn:R; [apply (f_equal (@List.length sensor)) in R; rewrite rev_length in R; discriminate|].
  assert (I : In t (map mi (s :: l))) by (apply in_rev; rewrite R; now left). apply in_map_iff in I as (u & <- & I). cbn [mirrored_sensor ser]. now rewrite (D u s I (or_introl eq_refl)).
Qed.

(** * Construction *)
Lemma sorted_mirror l : increasing l -> increasing (rev (map Qcopp l)).
Proof.
  unfold increasing. induction 1 as [|x l S IH F]; [constructor|]. cbn [map rev].
  assert (G : forall m, StronglySorted (fun a b => (a < b)%Qc) m -> Forall (fun y => (y < - x)%Qc) m -> StronglySorted (fun a b => (a < b)%Qc) (m ++ [(- x)%Qc])).
  { induction 1 as [|y m Sm IHm Fm]; intros Q; cbn [app]; [constructor; constructor|]. apply Forall_cons_iff in Q as [Q1 Q2]. constructor; [now apply IHm|].
    apply Forall_app. split; [exact Fm|]. now constructor. }
  apply G; [exact IH|]. apply Forall_rev. apply Forall_map. eapply Forall_impl; [|exact F]. intros y H. cbn in H. qclra.
Qed.
Lemma consistent_mirror a : consistent a -> consistent (mm a).
Proof.
  intros (N & S & G). split; [|split].
  - cbn [mirrored sensors]. intros H. apply (f_equal (@List.length sensor)) in H. rewrite rev_length, map_length in H. destruct (sensors a); [congruence|discriminate].
  - pose proof (position_mirror a) as P. unfold position in P. rewrite P. now apply sorted_mirror.
  - cbn [mirrored sensors]. intros s t Is It. apply in_rev in Is, It. apply in_map_iff in Is as (s' & <- & Is), It as (t' & <- & It). exact (G s' t' Is It).
Qed.
Lemma new_array_mirror_ok l s a : new_array l s = Ok a -> new_array (map mi l) (mirrored_source s) = Ok (mm a).
Proof.
  intros H. destruct (new_array_spec l s a H) as (C & P & <-). apply (new_array_order (sensors (mm a))).
  - cbn [mirrored sensors]. rewrite <- Permutation_rev. now apply Permutation_map.
  - exact (consistent_rebuild (mm a) (consistent_mirror a C)).
Qed.
Lemma new_array_mirror_err l s e : new_array l s = Err e -> new_array (map mi l) (mirrored_source s) = Err e.
Proof.
  intros H. assert (B : ~ buildable l) by (intros B; apply (new_array_ok l s) in B; congruence).
  assert (B' : ~ buildable (map mi l)).
  { intros B'. apply (new_array_ok _ (mirrored_source s)) in B'. apply new_array_mirror_ok in B'. rewrite map_map in B'.
    replace (map (fun x => mi (mi x)) l) with l in B'; [|rewrite <- (map_id l) at 1; apply map_ext; intros [u a b c]; unfold mirrored_sensor; cbn; f_equal; ring].
    apply B. apply new_array_iff with (s := mirrored_source (mirrored_source s)). eexists. exact B'. }
  rewrite (new_array_err _ _ B'). rewrite (new_array_err _ _ B) in H. rewrite <- H. now destruct l.
Qed.

(** * Methods *)
Lemma detrend_mirror a : array_detrend (mm a) = mm (array_detrend a).
Proof. unfold array_detrend, mirrored, set_sensors. cbn [sensors src]. f_equal. rewrite map_rev, !map_map. reflexivity. Qed.
Lemma for_each_rows (f : sensor -> sensor * result unit) l l' : for_each f l = (l', Ok tt) <-> Forall2 (fun s s' => f s = (s', Ok tt)) l l'.
Proof.
  revert l'. induction l as [|s l IH]; intros l'; cbn [for_each].
  - split; [intros H; injection H as <-; constructor|intros H; now inversion H].
  - destruct (f s) as [s1 [[]|e]] eqn:E.
    + destruct (for_each f l) as [l1 r] eqn:F. split.
      * intros H. injection H as <- ->. constructor; [exact E|]. now apply IH.
      * intros H. inversion H as [|? s2 ? l2 H1 H2]; subst. apply IH in H2. congruence.
    + split; [discriminate|]. intros H. inversion H; congruence.
Qed.
Lemma rows_rev {A B} (R : A -> B -> Prop) l m : Forall2 R l m -> Forall2 R (rev l) (rev m).
Proof. induction 1 as [|x y l m H F IH]; [constructor|]. cbn [rev]. apply Forall2_app; auto. Qed.
Lemma for_each_mirror (f : sensor -> sensor * result unit) l l' : (forall s, f (mi s) = (mi (fst (f s)), snd (f s))) ->
  for_each f l = (l', Ok tt) -> for_each f (rev (map mi l)) = (rev (map mi l'), Ok tt).
Proof.
  intros C H. apply for_each_rows in H. apply for_each_rows. apply rows_rev. induction H as [|s s' l l' E F IH]; cbn [map]; constructor; auto. rewrite C, E. reflexivity.
Qed.
Lemma trim_mirror b e a a' : array_trim a b e = (a', Ok tt) -> array_trim (mm a) b e = (mm a', Ok tt).
Proof.
  unfold array_trim. cbn [mirrored sensors]. destruct (for_each (sensor_trim b e) (sensors a)) as [l r] eqn:F. intros H. injection H as <- ->.
  rewrite (for_each_mirror _ _ l); [reflexivity| |exact F]. intros s. unfold sensor_trim. cbn [mirrored_sensor ser]. destruct (trim (ser s) b e); reflexivity.
Qed.
Lemma pad_mirror f a a' : array_zero_pad a f = (a', Ok tt) -> array_zero_pad (mm a) f = (mm a', Ok tt).
Proof.
  unfold array_zero_pad. cbn [mirrored sensors]. destruct (for_each (sensor_zero_pad f) (sensors a)) as [l r] eqn:F. intros H. injection H as <- ->.
  rewrite (for_each_mirror _ _ l); [reflexivity| |exact F]. intros s. unfold sensor_zero_pad. cbn [mirrored_sensor ser]. destruct (zero_pad (ser s) f); reflexivity.
Qed.
Lemma line_time_mirror l x : line_time (mirrored_line l) (- x) = line_time l x.
Proof. destruct l as [[x1 t1] [x2 t2]]. cbn. replace (- x2 - - x1)%Qc with (- (x2 - x1))%Qc by ring. replace (- x - - x1)%Qc with (- (x - x1))%Qc by ring.
  generalize (x2 - x1)%Qc (x - x1)%Qc. intros e f. f_equal. unfold Qcdiv. rewrite <- !Qcmult_assoc. f_equal. destruct (Qc_eq_dec e 0) as [->|H]; [change (- 0)%Qc with 0%Qc; change (/ 0)%Qc with 0%Qc; ring|].
  assert (K : (- e <> 0)%Qc) by (intros K; apply H; replace e with (- - e)%Qc by ring; rewrite K; reflexivity). field. auto. Qed.
Lemma indices_mirror l t n pos : line_indices (mirrored_line l) t n (rev (map Qcopp pos)) = match line_indices l t n pos with Ok i => Ok (rev i) | Err e => Err e end.
Proof.
  unfold line_indices. pose proof (line_time_mirror l) as L. destruct l as [[x1 t1] [x2 t2]]. cbn [mirrored_line] in *.
  replace (Qceqb (- x2 - - x1) 0) with (Qceqb (x2 - x1) 0).
  - destruct (Qceqb (x2 - x1) 0); [reflexivity|]. rewrite map_rev, map_map. do 2 f_equal. apply map_ext. intros x. now rewrite L.
  - destruct (Qceqb (x2 - x1) 0) eqn:H, (Qceqb (- x2 - - x1) 0) eqn:G; try reflexivity.
    + apply Qceqb_eq in H. assert (K : (- x2 - - x1 = 0)%Qc) by (replace (- x2 - - x1)%Qc with (- (x2 - x1))%Qc by ring; rewrite H; ring). apply Qceqb_eq in K. congruence.
    + apply Qceqb_eq in G. assert (K : (x2 - x1 = 0)%Qc) by (replace (x2 - x1)%Qc with (- (- x2 - - x1))%Qc by ring; rewrite G; ring). apply Qceqb_eq in K. congruence.
Qed.
Lemma combine_rev {A B} (l : list A) (m : list B) : List.length l = List.length m -> combine (rev l) (rev m) = rev (combine l m).
Proof.
  revert m. induction l as [|x l IH]; intros [|y m] H; try discriminate; [reflexivity|]. cbn [rev combine]. injection H as H. rewrite <- IH by exact H.
  assert (G : List.length (rev l) = List.length (rev m)) by now rewrite !rev_length. clear IH H. revert G. generalize (rev l) (rev m). intros u.
  induction u as [|a u IHu]; intros [|b v] G; try discriminate; [reflexivity|]. cbn [app combine]. f_equal. apply IHu. now injection G.
Qed.
Lemma mute_loop_rows taper n idx l l' : List.length idx = List.length l ->
  (mute_loop taper n idx l = (l', Ok tt) <-> Forall2 (fun p s' => mute_sensor taper n (fst (fst p)) (snd (fst p)) (snd p) = (s', Ok tt)) (combine idx l) l').
Proof.
  revert l l'. induction idx as [|[i j] idx IH]; intros [|s l] l' H; try discriminate; cbn [mute_loop combine].
  - split; [intros E; injection E as <-; constructor|intros E; now inversion E].
  - injection H as H. destruct (mute_sensor taper n i j s) as [s1 [[]|e]] eqn:E.
    + destruct (mute_loop taper n idx l) as [l1 r] eqn:F. split.
      * intros G. injection G as <- ->. constructor; [exact E|]. now apply (IH l l1 H).
      * intros G. inversion G as [|? s2 ? l2 H1 H2]; subst. cbn [fst snd] in H1. apply (IH l l2 H) in H2. congruence.
    + split; [discriminate|]. intros G. inversion G as [|? ? ? ? H1 H2]; subst. cbn [fst snd] in H1. congruence.
Qed.
Lemma indices_length l t n pos i : line_indices l t n pos = Ok i -> List.length i = List.length pos.
Proof. unfold line_indices. destruct l as [[x1 t1] [x2 t2]]. destruct (Qceqb _ _); [discriminate|]. intros H. injection H as <-. apply map_length. Qed.
Lemma const_rev {A B} (c : B) (l : list A) : map (fun _ => c) (rev (map (fun x => x) l)) = rev (map (fun _ => c) l).
Proof. now rewrite map_rev, map_map. Qed.
Lemma mute_mirror taper ss se a a' : consistent a -> mute a taper ss se = (a', Ok tt) ->
  mute (mm a) taper (option_map mirrored_line ss) (option_map mirrored_line se) = (mm a', Ok tt).
Proof.
  intros (N & _ & G) H. unfold mute in *. rewrite position_mirror. change (sensors (mm a)) with (rev (map mi (sensors a))).
  destruct (sensors a) as [|s0 l0] eqn:S; [congruence|]. destruct (rev (map mi (s0 :: l0))) as [|t0 m0] eqn:R; [apply (f_equal (@List.length sensor)) in R; rewrite rev_length in R; discriminate|].
  assert (I : In t0 (map mi (s0 :: l0))) by (apply in_rev; rewrite R; now left). apply in_map_iff in I as (u & <- & I).
  destruct (G u s0 I (or_introl eq_refl)) as (D & _ & De & Le). change (ser (mi u)) with (ser u). rewrite D, De. unfold nsamples in *. rewrite Le.
  destruct (Qceqb (dt (ser s0)) 0); [discriminate|]. set (nd := Qcabs (delay (ser s0) / dt (ser s0))%Qc) in *. set (pos := position a) in *.
  set (A := match ss with Some l => line_indices l (dt (ser s0)) nd pos | None => Ok (map (fun _ => 0%Z) pos) end) in *.
  set (B := match se with Some l => line_indices l (dt (ser s0)) nd pos | None => Ok (map (fun _ => (Z.of_nat (List.length (amp (ser s0))) - 1)%Z) pos) end) in *.
  set (A' := match option_map mirrored_line ss with Some _ => _ | None => _ end). set (B' := match option_map mirrored_line se with Some _ => _ | None => _ end).
  assert (QA : A' = match A with Ok i => Ok (rev i) | Err e => Err e end).
  { unfold A', A. destruct ss; cbn [option_map]; [apply indices_mirror|]. now rewrite map_rev, map_map. }
  assert (QB : B' = match B with Ok i => Ok (rev i) | Err e => Err e end).
  { unfold B', B. destruct se; cbn [option_map]; [apply indices_mirror|]. now rewrite map_rev, map_map. }
  rewrite QA, QB. assert (LA : forall i, A = Ok i -> List.length i = List.length pos).
  { unfold A. destruct ss; [apply indices_length|]. intros i E. injection E as <-. apply map_length. }
  assert (LB : forall i, B = Ok i -> List.length i = List.length pos).
  { unfold B. destruct se; [apply indices_length|]. intros i E. injection E as <-. apply map_length. }
  clear A' B' QA QB. destruct A as [i|]; [|discriminate]. destruct B as [j|]; [|discriminate]. cbn [bind] in *. specialize (LA i eq_refl). specialize (LB j eq_refl).
  assert (LP : List.length pos = List.length (s0 :: l0)) by (unfold pos, position; now rewrite map_length, S).
  rewrite combine_rev by congruence. assert (LC : List.length (combine i j) = List.length (s0 :: l0)) by (rewrite combine_length; lia).
  destruct (mute_loop taper _ (combine i j) (s0 :: l0)) as [l1 r] eqn:F. injection H as <- ->. apply mute_loop_rows in F; [|exact LC]. rewrite <- R.
  assert (M : mute_loop taper (List.length (amp (ser s0))) (rev (combine i j)) (rev (map mi (s0 :: l0))) = (rev (map mi l1), Ok tt)); [|now rewrite M].
  apply mute_loop_rows; [now rewrite !rev_length, map_length|]. rewrite combine_rev by (now rewrite map_length). apply rows_rev. clear - F LC. revert F LC. generalize (combine i j) (s0 :: l0). intros idx l.
  revert l l1. induction idx as [|[p q] idx IH]; intros [|s l] l1 F H; try discriminate; cbn [map combine] in *; inversion F as [|? s' ? l' F1 F2]; subst; cbn [map]; constructor.
  - cbn [fst snd] in *. unfold mute_sensor in *. change (ser (mi s)) with (ser s). destruct (bind _ _); [|discriminate]. injection F1 as <-. reflexivity.
  - apply IH; auto.
Qed.
