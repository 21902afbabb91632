(* Proofs: taking the records in the opposite order changes the sign of a slant stack. *)
From Coq Require Import Permutation.
From Verif Require Import NumFacts PyFacts SeriesProofs ArrayModel ArraySpec ArrayProofs TransformModel MirrorSpec MirrorProofs.
Local Open Scope nat_scope.
Local Open Scope list_scope.

Lemma map2_combine {A B C} (f : A -> B -> C) l m : map2 f l m = map (fun p => f (fst p) (snd p)) (combine l m).
Proof. revert m. induction l as [|a l IH]; intros [|b m]; try reflexivity. cbn. now rewrite IH. Qed.
Lemma map2_rev {A B C} (f : A -> B -> C) l m : List.length l = List.length m -> map2 f (rev l) (rev m) = rev (map2 f l m).
Proof. intros H. now rewrite !map2_combine, combine_rev, map_rev by exact H. Qed.
Lemma map2_len {A B C} (f : A -> B -> C) l m : List.length l = List.length m -> List.length (map2 f l m) = List.length l.
Proof. intros H. rewrite map2_combine, map_length, combine_length. lia. Qed.
Lemma mapM_rev {A B} (f : A -> result B) l l' : mapM f l = Ok l' -> mapM f (rev l) = Ok (rev l').
Proof. intros H. apply mapM_ok in H. apply mapM_ok. now apply rows_rev. Qed.
(** Neighbours in the opposite order. *)
Lemma neighbours_app {A} (l : list A) x y : combine (tl (l ++ [x; y])) (l ++ [x; y]) = combine (tl (l ++ [x])) (l ++ [x]) ++ [(y, x)].
Proof. induction l as [|a [|b l] IH]; try reflexivity. cbn [app tl combine] in *. now rewrite IH. Qed.
Lemma neighbours_rev {A} (l : list A) : combine (tl (rev l)) (rev l) = rev (map (fun p => (snd p, fst p)) (combine (tl l) l)).
Proof.
  induction l as [|a [|b l] IH]; try reflexivity. cbn [rev]. rewrite <- app_assoc. cbn [app]. rewrite neighbours_app. change (rev l ++ [b]) with (rev (b :: l)). rewrite IH. reflexivity.
Qed.
Lemma diffs_len l : List.length (diffs l) = List.length (tl l).
Proof. induction l as [|a [|b l] IH]; try reflexivity. cbn [diffs tl List.length] in *. now rewrite IH. Qed.
Lemma diffs_rev l : diffs (rev l) = rev (map Qcopp (diffs l)).
Proof.
  rewrite <- (map_id l) at 1. replace (map (fun x => x) l) with (map Qcopp (map Qcopp l)) by (rewrite map_map; apply map_ext; intros; ring). rewrite diffs_mirror. f_equal.
  induction l as [|a [|b l] IH]; try reflexivity. cbn [map diffs] in *. rewrite IH. f_equal. ring.
Qed.
Lemma nth_opp t r : nth t (map Qcopp r) 0%Qc = (- nth t r 0%Qc)%Qc.
Proof. replace 0%Qc with (- 0)%Qc at 1 by ring. apply (map_nth Qcopp). Qed.
Lemma sum_opp l : Qcsum (map Qcopp l) = (- Qcsum l)%Qc.
Proof. induction l as [|a l IH]; cbn [map Qcsum fold_right] in *; [ring|]. unfold Qcsum in IH. rewrite IH. ring. Qed.

Lemma step_rev tm diff pre nt cols prev v cols' lower row : List.length tm = List.length pre -> List.length cols = List.length pre -> List.length prev = List.length pre ->
  List.length diff = List.length (tl pre) -> slant_step tm diff pre nt cols prev v = Ok (cols', lower, row) ->
  slant_step (rev tm) (rev (map Qcopp diff)) (rev pre) nt (rev cols) (rev prev) v = Ok (rev cols', rev lower, map Qcopp row) /\
  List.length cols' = List.length pre /\ List.length lower = List.length pre.
Proof.
  intros LT LC LP LD. unfold slant_step. rewrite !map_rev. set (fi := map (fun p => (p / v)%Qc) pre). set (lo := map trunc fi).
  assert (LF : List.length fi = List.length pre) by apply map_length. assert (LL : List.length lo = List.length pre) by (unfold lo; now rewrite map_length).
  rewrite (map2_rev _ fi lo) by congruence. rewrite (map2_rev Z.sub lo prev) by congruence. set (de := map2 (fun f l => (f - QcZ l)%Qc) fi lo). set (sh := map2 Z.sub lo prev).
  assert (LDE : List.length de = List.length pre) by (unfold de; rewrite map2_len; congruence). assert (LSH : List.length sh = List.length pre) by (unfold sh; rewrite map2_len; congruence).
  rewrite (map2_rev _ cols sh) by congruence. set (co := map2 _ cols sh). assert (LCO : List.length co = List.length pre) by (unfold co; rewrite map2_len; congruence).
  rewrite (combine_rev tm de) by congruence. rewrite combine_rev by (rewrite combine_length; lia).
  destruct (mapM _ (combine (combine tm de) co)) as [amps|] eqn:M; [|discriminate]. cbn [bind]. intros H. injection H as <- <- <-. rewrite (mapM_rev _ _ _ M). cbn [bind].
  assert (LA : List.length amps = List.length pre). { apply mapM_ok in M. apply Forall2_length in M. rewrite !combine_length in M. lia. }
  split; [|auto]. do 2 f_equal. rewrite neighbours_rev.
  assert (LN : List.length (combine (tl amps) amps) = List.length diff).
  { rewrite combine_length. rewrite LD. destruct amps, pre; cbn [List.length tl] in *; lia. }
  rewrite map_map. apply map_ext. intros t.
  set (g := fun (d : Qc) (ab : list Qc * list Qc) => map2 (fun x y => (Q2Qc (1 # 2) * d * (x + y))%Qc) (fst ab) (snd ab)).
  assert (W : map2 g (rev (map Qcopp diff)) (rev (map (fun p => (snd p, fst p)) (combine (tl amps) amps))) = rev (map (map Qcopp) (map2 g diff (combine (tl amps) amps)))).
  { rewrite map2_rev by (now rewrite !map_length). f_equal. generalize (combine (tl amps) amps). clear. intros m.
    revert m. induction diff as [|d l IH]; intros [|[x y] m]; try reflexivity. cbn [map map2]. rewrite IH. f_equal. unfold g. cbn [fst snd].
    revert y. induction x as [|a x IHx]; intros [|b y]; try reflexivity. cbn [map2 map]. rewrite IHx. f_equal. ring. }
  rewrite W, map_rev, map_map. rewrite (Qcsum_perm _ _ (Permutation_sym (Permutation_rev _))).
  rewrite <- sum_opp, map_map. f_equal. apply map_ext. intros r. apply nth_opp.
Qed.
Lemma loop_rev tm diff pre nt vels : List.length tm = List.length pre -> List.length diff = List.length (tl pre) -> forall cols prev rows,
  List.length cols = List.length pre -> List.length prev = List.length pre -> slant_loop tm diff pre nt cols prev vels = Ok rows ->
  slant_loop (rev tm) (rev (map Qcopp diff)) (rev pre) nt (rev cols) (rev prev) vels = Ok (map (map Qcopp) rows).
Proof.
  intros LT LD. induction vels as [|v vels IH]; intros cols prev rows LC LP H; cbn [slant_loop] in *; [injection H as <-; reflexivity|].
  destruct (slant_step tm diff pre nt cols prev v) as [[[c l] row]|] eqn:E; [|discriminate]. cbn [bind] in H.
  destruct (step_rev _ _ _ _ _ _ _ _ _ _ LT LC LP LD E) as (-> & Lc & Ll). cbn [bind].
  destruct (slant_loop tm diff pre nt c l vels) as [rest|] eqn:R; [|discriminate]. injection H as <-. now rewrite (IH c l rest Lc Ll R).
Qed.
Lemma min_rev l : qmin (rev l) = qmin l.
Proof.
  pose proof (Permutation_rev l) as P. destruct l as [|a l]; [reflexivity|]. destruct (rev (a :: l)) as [|b m] eqn:E; [apply (f_equal (@List.length Qc)) in E; rewrite rev_length in E; discriminate|].
  cbn [qmin]. f_equal. symmetry. now apply lmin_perm.
Qed.
Lemma max_rev l : qmax (rev l) = qmax l.
Proof.
  pose proof (Permutation_rev l) as P. destruct l as [|a l]; [reflexivity|]. destruct (rev (a :: l)) as [|b m] eqn:E; [apply (f_equal (@List.length Qc)) in E; rewrite rev_length in E; discriminate|].
  cbn [qmax]. f_equal. symmetry. now apply lmax_perm.
Qed.
Lemma stack_rev tm pos dt vels rows : List.length tm = List.length pos -> (forall r s, In r tm -> In s tm -> List.length r = List.length s) ->
  slant_stack_of tm pos dt vels = Ok rows -> slant_stack_of (rev tm) (rev pos) dt vels = Ok (map (map Qcopp) rows).
Proof.
  intros LT E. unfold slant_stack_of. rewrite min_rev. destruct (qmin pos) as [pm|] eqn:Q; [|discriminate]. cbn [bind]. rewrite map_rev. set (p := map (fun x => (x - pm)%Qc) pos).
  assert (LP : List.length p = List.length pos) by apply map_length.
  destruct (_ || _); [discriminate|]. rewrite max_rev. destruct (qmax p) as [far|]; [|discriminate]. cbn [bind]. destruct (qmax (map _ vels)) as [slow|]; [|discriminate]. cbn [bind].
  assert (N : List.length (nth 0 (rev tm) []) = List.length (nth 0 tm [])).
  { destruct tm as [|r l]; [reflexivity|]. destruct (rev (r :: l)) as [|s m] eqn:R; [apply (f_equal (@List.length (list Qc))) in R; rewrite rev_length in R; discriminate|].
    cbn [nth]. apply E; [apply in_rev; rewrite R|]; now left. }
  rewrite N. destruct (_ <? 0)%Z; [discriminate|]. intros H. rewrite diffs_rev, !map_rev. apply loop_rev; try exact H; rewrite ?map_length, ?diffs_len; try congruence.
  destruct p; [reflexivity|]. cbn [map tl]. now rewrite map_length.
Qed.
(** Wherever the source stands. *)
Lemma ends_first a s : increasing (map sx (sensors a)) -> In s (sensors a) -> (first_x a <= sx s)%Qc.
Proof.
  unfold first_x, position, increasing. intros I J. apply (in_map sx) in J. destruct (map sx (sensors a)) as [|x l]; [destruct J|]. cbn [hd]. inversion I as [|? ? S F]; subst.
  destruct J as [<-|J]; [apply Qcle_refl|]. rewrite Forall_forall in F. now apply Qclt_le_weak, F.
Qed.
Lemma ends_last a s : increasing (map sx (sensors a)) -> In s (sensors a) -> (sx s <= last_x a)%Qc.
Proof.
  unfold last_x, position, increasing. intros I J. apply (in_map sx) in J. induction I as [|x l S IH F]; [destruct J|]. destruct l as [|y l].
  - destruct J as [<-|[]]. apply Qcle_refl.
  - change (last (x :: y :: l) 0%Qc) with (last (y :: l) 0%Qc). destruct J as [<-|J]; [|now apply IH]. apply Qclt_le_weak. rewrite Forall_forall in F. apply F.
    destruct (@exists_last _ (y :: l)) as (u & w & ->); [discriminate|]. rewrite last_last. apply in_or_app. right. now left.
Qed.
Lemma slant_any a v rows : consistent a -> slant_stack a v = Ok rows -> slant_stack (mm a) v = Ok rows \/ slant_stack (mm a) v = Ok (map (map Qcopp) rows).
Proof.
  intros (N & I & G) H. destruct (Qcltb (src_x (src a)) (first_x a)) eqn:F2; [|destruct (Qcltb (last_x a) (src_x (src a))) eqn:F1].
  - left. rewrite <- H. apply slant_mirror; [exact N| |left].
    + intros s t Is It. now destruct (G s t Is It).
    + intros s J. apply Qcltb_lt in F2. pose proof (ends_first a s I J). qclra.
  - left. rewrite <- H. apply slant_mirror; [exact N| |right].
    + intros s t Is It. now destruct (G s t Is It).
    + intros s J. apply Qcltb_lt in F1. pose proof (ends_last a s I J). qclra.
  - rename F1 into Fa. assert (F1 : flip_required a = false) by exact Fa. clear Fa. rename F2 into Fb.
    assert (F2 : flip_required (mm a) = false) by (unfold flip_required; rewrite last_mirror; cbn [mirrored src mirrored_source src_x]; now rewrite ltb_opp).
    right. unfold slant_stack, flipped in *. rewrite F1 in H. rewrite F2, offsets_mirror. change (sensors (mm a)) with (rev (map mi (sensors a))). rewrite map_rev, map_map. cbn [mirrored_sensor ser].
    destruct (sensors a) as [|s l] eqn:S; [congruence|]. destruct (rev (map mi (s :: l))) as [|t m] eqn:R; [apply (f_equal (@List.length sensor)) in R; rewrite rev_length in R; discriminate|].
    assert (J : In t (map mi (s :: l))) by (apply in_rev; rewrite R; now left). apply in_map_iff in J as (u & <- & J). cbn [mirrored_sensor ser].
    destruct (G u s J (or_introl eq_refl)) as (-> & _). apply stack_rev; [|  |exact H].
    + unfold offsets. now rewrite S, !map_length.
    + intros x y Hx Hy. apply in_map_iff in Hx as (x' & <- & Hx), Hy as (y' & <- & Hy). now destruct (G x' y' Hx Hy) as (_ & _ & _ & L).
Qed.
