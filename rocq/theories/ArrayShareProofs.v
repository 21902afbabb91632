(* Proofs about arrays that refer to sensor objects. *)
From Verif Require Import PyFacts NumFacts SeriesModel SeriesSpec SeriesProofs.
From Verif Require Import ArrayModel ArraySpec DetrendProofs ArrayProofs ArrayShareModel ArrayShareSpec.

(** ** Lists of cells *)
Lemma replace_length {A} (a : A) : forall l n, length (replace_at n a l) = length l.
Proof. induction l as [|b l IH]; intros [|n]; cbn; auto. Qed.
Lemma replace_same {A} (a d : A) : forall l n, n < length l -> nth n (replace_at n a l) d = a.
Proof. induction l as [|b l IH]; intros [|n] H; cbn in *; try lia; auto. apply IH. lia. Qed.
Lemma replace_other {A} (a d : A) : forall l n m, m <> n -> nth m (replace_at n a l) d = nth m l d.
Proof. induction l as [|b l IH]; intros [|n] [|m] H; cbn; auto; try congruence. Qed.

Lemma store_length : forall rs vs l, length (store_all rs vs l) = length l.
Proof. induction rs as [|r rs IH]; intros [|v vs] l; cbn; auto. rewrite IH. apply replace_length. Qed.
Lemma store_other d : forall rs vs l r, ~ In r rs -> nth r (store_all rs vs l) d = nth r l d.
Proof.
  induction rs as [|t rs IH]; intros [|v vs] l r H; cbn; auto. cbn in H.
  rewrite IH by tauto. apply replace_other. intros ->. tauto.
Qed.
Lemma store_map d : forall rs vs l, NoDup rs -> length vs = length rs ->
  (forall r, In r rs -> r < length l) -> map (fun r => nth r (store_all rs vs l) d) rs = vs.
Proof.
  induction rs as [|r rs IH]; intros [|v vs] l N L B; cbn [length] in L; try discriminate; [reflexivity|].
  inversion N as [|? ? N1 N2]; subst. cbn [store_all map]. f_equal.
  - rewrite store_other by exact N1. apply replace_same. apply B. now left.
  - apply IH; auto. intros x Hx. rewrite replace_length. apply B. now right.
Qed.

(** ** Sorting *)
Lemma insert_ref_map (w : memory) r l :
  map (cell w) (insert_ref (fun r => sx (cell w r)) r l) = insert_sensor (cell w r) (map (cell w) l).
Proof. induction l as [|t l IH]; cbn; [reflexivity|]. destruct (Qcltb _ _); cbn; congruence. Qed.
Lemma sort_refs_map w l : map (cell w) (sort_refs (fun r => sx (cell w r)) l) = sort_sensors (map (cell w) l).
Proof.
  induction l as [|r l IH]; [reflexivity|]. cbn [map]. unfold sort_refs, sort_sensors in *. cbn [fold_right].
  rewrite insert_ref_map, IH. reflexivity.
Qed.
Lemma insert_ref_perm x r l : Permutation (insert_ref x r l) (r :: l).
Proof.
  induction l as [|t l IH]; cbn; auto. destruct (Qcltb _ _); auto.
  rewrite IH. constructor.
Qed.
Lemma sort_refs_perm x l : Permutation (sort_refs x l) l.
Proof. induction l as [|r l IH]; [constructor|]. unfold sort_refs in *. cbn [fold_right]. rewrite insert_ref_perm. now constructor. Qed.

(** ** The methods that work in place keep the sensors in their places *)
Lemma for_each_keeps {S B} (g : S -> B) (f : S -> S * result unit) : (forall s, g (fst (f s)) = g s) ->
  forall l, map g (fst (for_each f l)) = map g l.
Proof.
  intros H l. induction l as [|s l IH]; cbn [for_each]; [reflexivity|]. specialize (H s).
  destruct (f s) as [s' [u|e]]; cbn [fst] in *; [|cbn; now rewrite H].
  destruct (for_each f l) as [t r]. cbn [fst map] in *. now rewrite H, IH.
Qed.
Lemma mute_loop_sx taper n : forall idx l, map sx (fst (mute_loop taper n idx l)) = map sx l.
Proof.
  induction idx as [|[i j] idx IH]; intros [|s l]; cbn [mute_loop]; try reflexivity.
  unfold mute_sensor. destruct (bind _ _) as [v|e]; [|reflexivity].
  specialize (IH l). destruct (mute_loop taper n idx l) as [t r]. cbn [fst map] in *. cbn. now rewrite IH.
Qed.
Lemma call_positions a m : in_place m ->
  map sx (sensors (fst (call a m))) = map sx (sensors a) /\ src (fst (call a m)) = src a.
Proof.
  destruct m as [st en|df|taper ss se| |mn mx|sa sd vmin vmax]; cbn [in_place call]; intros H; try contradiction.
  - unfold array_trim. pose proof (for_each_keeps sx (sensor_trim st en) (fun s => proj1 (sensor_trim_sx st en s)) (sensors a)) as K.
    destruct (for_each _ _) as [l r]. auto.
  - unfold array_zero_pad. pose proof (for_each_keeps sx (sensor_zero_pad df) (fun s => proj1 (sensor_pad_sx df s)) (sensors a)) as K.
    destruct (for_each _ _) as [l r]. auto.
  - unfold mute. destruct (sensors a) as [|s0 l] eqn:E; [cbn; now rewrite E|].
    destruct (Qceqb _ _); [cbn; now rewrite E|]. cbv zeta.
    destruct (bind _ _) as [idx|e]; [|cbn; now rewrite E].
    pose proof (mute_loop_sx taper (nsamples (ser s0)) idx (s0 :: l)) as K.
    destruct (mute_loop _ _ _ _) as [l' r]. auto.
  - cbn. rewrite map_map. auto.
Qed.
Lemma call_places a m : in_place m -> length (sensors (fst (call a m))) = length (sensors a).
Proof. intros H. rewrite <- (map_length sx), (proj1 (call_positions a m H)). apply map_length. Qed.

(** ** One method call *)
Lemma seen_sensors w i : sensors (seen w i) = map (cell w) (held (array_at w i)).
Proof. reflexivity. Qed.
Lemma in_place_call w i m : in_place m ->
  call_method w i m =
  (mkMemory (store_all (held (array_at w i)) (sensors (fst (call (seen w i) m))) (cells w)) (arrays w), snd (call (seen w i) m)).
Proof. destruct m; cbn [in_place call_method]; intros H; try contradiction; destruct (call (seen w i) _); reflexivity. Qed.

Lemma place_call w i m k r : in_place m -> orderly w i -> nth_error (held (array_at w i)) k = Some r ->
  nth_error (sensors (fst (call (seen w i) m))) k = Some (cell (fst (call_method w i m)) r).
Proof.
  intros M (_ & N & B & _) K. rewrite in_place_call by exact M. cbn [fst].
  assert (L : length (sensors (fst (call (seen w i) m))) = length (held (array_at w i)))
    by (rewrite call_places, seen_sensors, map_length by exact M; reflexivity).
  pose proof (store_map no_sensor _ _ (cells w) N L B) as S.
  pose proof (map_nth_error (fun r => nth r (store_all (held (array_at w i)) (sensors (fst (call (seen w i) m))) (cells w)) no_sensor) k _ K) as X.
  rewrite S in X. exact X.
Qed.
Lemma other_cell w i m r : ~ In r (held (array_at w i)) -> r < length (cells w) ->
  cell (fst (call_method w i m)) r = cell w r.
Proof.
  intros H L. assert (P : forall m, in_place m -> cell (fst (call_method w i m)) r = cell w r).
  { intros m' M. rewrite in_place_call by exact M. apply store_other. exact H. }
  destruct m as [st en|df|taper ss se| |mn mx|sa sd vmin vmax]; try (apply P; exact I).
  - cbn [call_method]. destruct (trim_offsets_loop _ _ _); reflexivity.
  - cbn [call_method]. destruct (call _ _) as [a' [u|e]]; [|reflexivity].
    unfold cell. cbn. apply app_nth1. exact L.
Qed.

Lemma replace_array w i l j : i < length (arrays w) ->
  array_at (set_held w i l) j = if Nat.eqb j i then mkArrayObj l (held_source (array_at w i)) else array_at w j.
Proof.
  intros H. unfold array_at, set_held. cbn [arrays]. destruct (Nat.eqb_spec j i) as [->|E].
  - apply replace_same. exact H.
  - apply replace_other. exact E.
Qed.
Lemma combine_map_r {A B C} (f : B -> C) : forall (l : list A) (m : list B),
  combine l (map f m) = map (fun p => (fst p, f (snd p))) (combine l m).
Proof. induction l as [|a l IH]; intros [|b m]; cbn; [reflexivity..|]. now rewrite IH. Qed.
Lemma loop_map {A B} (f : A -> B) mn mx (l : list (Qc * A)) :
  trim_offsets_loop mn mx (map (fun p => (fst p, f (snd p))) l) = map f (trim_offsets_loop mn mx l).
Proof.
  induction l as [|[o a] l IH]; cbn; [reflexivity|]. rewrite IH.
  destruct (Qcltb mx o), (Qcltb mn o && Qcltb o mx); reflexivity.
Qed.
Lemma offsets_refs w i mn mx : trim_offsets_loop mn mx (combine (offsets (seen w i)) (sensors (seen w i)))
  = map (cell w) (trim_offsets_loop mn mx (combine (offsets (seen w i)) (held (array_at w i)))).
Proof. rewrite seen_sensors, combine_map_r, loop_map. reflexivity. Qed.
Lemma offsets_part w i mn mx : exists keep, trim_offsets_loop mn mx (combine (offsets (seen w i)) (held (array_at w i)))
  = select keep (held (array_at w i)).
Proof.
  destruct (trim_offsets_loop_sub mn mx (combine (offsets (seen w i)) (held (array_at w i)))) as (keep & L & E).
  exists keep. rewrite E. f_equal. unfold offsets. rewrite seen_sensors, map_map.
  apply (map_snd_combine (fun r => offset_of (seen w i) (cell w r))).
Qed.

Lemma cells_grow w i m : length (cells w) <= length (cells (fst (call_method w i m))).
Proof.
  assert (P : forall m, in_place m -> length (cells w) <= length (cells (fst (call_method w i m)))).
  { intros m' M. rewrite in_place_call by exact M. cbn. rewrite store_length. lia. }
  destruct m as [st en|df|taper ss se| |mn mx|sa sd vmin vmax]; try (apply P; exact I).
  - cbn [call_method]. destruct (trim_offsets_loop _ _ _); cbn; lia.
  - cbn [call_method]. destruct (call _ _) as [a' [u|e]]; cbn; [rewrite app_length|]; lia.
Qed.

Lemma correlate_cases a sa sd vmin vmax :
  (exists l, xcorrelate a sa sd vmin vmax = (set_sensors a l, Ok tt)) \/
  (exists e, xcorrelate a sa sd vmin vmax = (a, Err e)).
Proof.
  unfold xcorrelate. destruct (offsets a); [right; eauto|].
  destruct (xcorr_bounds _ _ _ _ _ _) as [[lo hi]|]; [|right; eauto].
  destruct (mapM _ _); [left|right]; eauto.
Qed.
Lemma correlate_call w i sa sd vmin vmax l : i < length (arrays w) ->
  call (seen w i) (Correlate sa sd vmin vmax) = (set_sensors (seen w i) l, Ok tt) ->
  call_method w i (Correlate sa sd vmin vmax)
  = (set_held (add_cells w l) i (seq (length (cells w)) (length l)), Ok tt)
  /\ seen (fst (call_method w i (Correlate sa sd vmin vmax))) i = set_sensors (seen w i) l.
Proof.
  intros H E. cbn [call_method]. rewrite E. split; [reflexivity|]. cbn [fst sensors set_sensors].
  unfold seen at 1. rewrite replace_array by exact H. rewrite Nat.eqb_refl. cbn [held held_source].
  unfold set_sensors. cbn [src seen]. f_equal. unfold cell. cbn [cells set_held add_cells].
  apply nth_ext with (d := no_sensor) (d' := no_sensor); [rewrite map_length, seq_length; reflexivity|].
  intros k Hk. rewrite map_length, seq_length in Hk.
  rewrite (nth_map_lt _ _ k no_sensor 0) by (rewrite seq_length; exact Hk).
  rewrite seq_nth by exact Hk. rewrite app_nth2 by lia. f_equal. lia.
Qed.

(** The array that is called does what its method says. *)
Lemma called w i m : orderly w i -> i < length (arrays w) ->
  seen (fst (call_method w i m)) i = fst (call (seen w i) m) /\ snd (call_method w i m) = snd (call (seen w i) m).
Proof.
  intros O H. assert (P : forall m, in_place m -> seen (fst (call_method w i m)) i = fst (call (seen w i) m)
    /\ snd (call_method w i m) = snd (call (seen w i) m)).
  { intros m' M. rewrite in_place_call by exact M. split; [|reflexivity]. cbn [fst].
    destruct O as (_ & N & B & _). pose proof (call_places (seen w i) m' M) as L.
    pose proof (proj2 (call_positions (seen w i) m' M)) as S.
    destruct (fst (call (seen w i) m')) as [vs s]. cbn [sensors src] in *. unfold seen at 1. cbn [array_at arrays].
    unfold array_at at 1 3. cbn [arrays]. fold (array_at w i). rewrite S. f_equal.
    unfold cell. cbn [cells]. apply store_map; auto. rewrite L, seen_sensors, map_length. reflexivity. }
  destruct m as [st en|df|taper ss se| |mn mx|sa sd vmin vmax]; try (apply P; exact I).
  - cbn [call_method call]. unfold trim_offsets. rewrite offsets_refs.
    destruct (trim_offsets_loop _ _ (combine _ (held _))) as [|r l] eqn:E; cbn [map]; [auto|].
    cbn [fst snd]. split; [|reflexivity]. unfold seen at 1. rewrite replace_array, Nat.eqb_refl by exact H. reflexivity.
  - destruct (correlate_cases (seen w i) sa sd vmin vmax) as [(l & E)|(e & E)].
    + destruct (correlate_call w i sa sd vmin vmax l H E) as [E1 E2]. rewrite E2, E1. cbn [call]. rewrite E. auto.
    + cbn [call_method call]. rewrite E. auto.
Qed.

(** ** What the other arrays keep *)
Lemma held_after w i m : i < length (arrays w) ->
  length (arrays (fst (call_method w i m))) = length (arrays w) /\
  (forall j, j <> i -> array_at (fst (call_method w i m)) j = array_at w j) /\
  (forall r, In r (held (array_at (fst (call_method w i m)) i)) ->
     In r (held (array_at w i)) \/ length (cells w) <= r).
Proof.
  intros H. assert (P : forall m, in_place m -> length (arrays (fst (call_method w i m))) = length (arrays w) /\
    (forall j, j <> i -> array_at (fst (call_method w i m)) j = array_at w j) /\
    (forall r, In r (held (array_at (fst (call_method w i m)) i)) -> In r (held (array_at w i)) \/ length (cells w) <= r)).
  { intros m' M. rewrite in_place_call by exact M. repeat split; auto. }
  assert (Q : forall w' l, arrays w' = arrays w -> length (cells w) <= length (cells w') ->
    (forall r, In r l -> In r (held (array_at w i)) \/ length (cells w) <= r) ->
    length (arrays (set_held w' i l)) = length (arrays w) /\
    (forall j, j <> i -> array_at (set_held w' i l) j = array_at w j) /\
    (forall r, In r (held (array_at (set_held w' i l) i)) -> In r (held (array_at w i)) \/ length (cells w) <= r)).
  { intros w' l E L S. split; [cbn; rewrite replace_length, E; reflexivity|]. split.
    - intros j Hj. rewrite replace_array by (rewrite E; exact H). rewrite (proj2 (Nat.eqb_neq j i)) by exact Hj.
      unfold array_at. now rewrite E.
    - rewrite replace_array by (rewrite E; exact H). rewrite Nat.eqb_refl. exact S. }
  destruct m as [st en|df|taper ss se| |mn mx|sa sd vmin vmax]; try (apply P; exact I).
  - cbn [call_method]. destruct (offsets_part w i mn mx) as [keep E]. rewrite E.
    destruct (select keep (held (array_at w i))) as [|r l] eqn:K; cbn [fst].
    + repeat split; auto.
    + apply Q; auto. intros x Hx. left. rewrite <- K in Hx. exact (In_select_l _ _ _ Hx).
  - cbn [call_method]. destruct (call _ _) as [a' [u|e]]; cbn [fst].
    + apply Q; [reflexivity|cbn; rewrite app_length; lia|]. intros x Hx. apply in_seq in Hx. right. lia.
    + repeat split; auto.
Qed.

Lemma uncalled w i j m : i < length (arrays w) -> orderly w j -> apart w i j -> i <> j ->
  seen (fst (call_method w i m)) j = seen w j.
Proof.
  intros H (_ & _ & B & _) A N. destruct (held_after w i m H) as (_ & E & _).
  unfold seen. rewrite E by congruence. f_equal. apply map_ext_in. intros r Hr.
  apply other_cell; auto. intros K. exact (A r K Hr).
Qed.
Lemma still_apart w i m : i < length (arrays w) -> (forall j, j < length (arrays w) -> orderly w j) ->
  forall j k, j < length (arrays w) -> k < length (arrays w) -> j <> k -> apart w j k -> apart (fst (call_method w i m)) j k.
Proof.
  intros H O j k Hj Hk N A r R1 R2. destruct (held_after w i m H) as (_ & E & S).
  destruct (Nat.eq_dec j i) as [->|Nj], (Nat.eq_dec k i) as [->|Nk]; try congruence.
  - rewrite E in R2 by exact Nk. apply S in R1 as [R1|R1]; [exact (A r R1 R2)|].
    destruct (O k Hk) as (_ & _ & B & _). specialize (B r R2). lia.
  - rewrite E in R1 by exact Nj. apply S in R2 as [R2|R2]; [exact (A r R1 R2)|].
    destruct (O j Hj) as (_ & _ & B & _). specialize (B r R1). lia.
  - rewrite E in R1, R2 by assumption. exact (A r R1 R2).
Qed.

(** ** Positions never change *)
Lemma call_sx w i m r : orderly w i -> r < length (cells w) ->
  sx (cell (fst (call_method w i m)) r) = sx (cell w r).
Proof.
  intros O L. destruct (in_dec Nat.eq_dec r (held (array_at w i))) as [K|K]; [|now rewrite other_cell].
  assert (P : forall m, in_place m -> sx (cell (fst (call_method w i m)) r) = sx (cell w r)).
  { intros m' M. apply In_nth_error in K as [k K]. pose proof (place_call w i m' k r M O K) as E.
    apply (map_nth_error sx) in E. rewrite (proj1 (call_positions _ _ M)) in E.
    rewrite seen_sensors, map_map, nth_error_map, K in E. cbn in E. congruence. }
  destruct m as [st en|df|taper ss se| |mn mx|sa sd vmin vmax]; try (apply P; exact I).
  - cbn [call_method]. destruct (trim_offsets_loop _ _ _); reflexivity.
  - cbn [call_method]. destruct (call _ _) as [a' [u|e]]; [|reflexivity].
    unfold cell. cbn. rewrite app_nth1 by exact L. reflexivity.
Qed.
Lemma correlate_positions a sa sd vmin vmax :
  map sx (sensors (fst (xcorrelate a sa sd vmin vmax))) = map sx (sensors a).
Proof.
  unfold xcorrelate. destruct (offsets a); [reflexivity|].
  destruct (xcorr_bounds _ _ _ _ _ _) as [[lo hi]|]; [|reflexivity].
  destruct (mapM _ (sensors a)) as [l'|] eqn:M; [|reflexivity]. cbn [fst sensors set_sensors].
  apply mapM_ok in M. induction M as [|s s2 l1 l2 E M IH]; cbn; [reflexivity|]. rewrite IH. f_equal.
  unfold new_sensor, new_series in E. destruct (_ <=? _)%Z; [discriminate|]. destruct (Qcltb _ _); [discriminate|].
  cbn in E. injection E as <-. reflexivity.
Qed.
Lemma called_positions a m : (forall mn mx, m <> TrimOffsets mn mx) ->
  map sx (sensors (fst (call a m))) = map sx (sensors a).
Proof.
  intros H. destruct m as [st en|df|taper ss se| |mn mx|sa sd vmin vmax]; try (apply call_positions; exact I).
  - exfalso. exact (H mn mx eq_refl).
  - apply correlate_positions.
Qed.

Lemma orderly_kept w w' j : orderly w j -> held (array_at w' j) = held (array_at w j) ->
  length (cells w) <= length (cells w') -> (forall r, r < length (cells w) -> sx (cell w' r) = sx (cell w r)) ->
  orderly w' j.
Proof.
  intros (O1 & O2 & O3 & O4) E L S. unfold orderly. rewrite E. split; [exact O1|]. split; [exact O2|].
  split; [intros r Hr; specialize (O3 r Hr); lia|].
  rewrite seen_sensors, E, map_map in *.
  rewrite (map_ext_in _ (fun r => sx (cell w r))); [exact O4|]. intros r Hr. apply S. auto.
Qed.
Lemma select_NoDup {A} (m : list bool) (l : list A) : NoDup l -> NoDup (select m l).
Proof.
  intros H. revert m. induction H as [|a l N H IH]; intros [|[] m]; cbn; try constructor; auto.
  intros K. apply N. exact (In_select_l _ _ _ K).
Qed.
Lemma select_map {A B} (f : A -> B) (m : list bool) (l : list A) : map f (select m l) = select m (map f l).
Proof. revert m. induction l as [|a l IH]; intros [|[] m]; cbn; auto. now rewrite IH. Qed.

Definition sane (w : memory) : Prop := forall i, i < length (arrays w) -> orderly w i.
Lemma call_sane w i m : i < length (arrays w) -> sane w -> sane (fst (call_method w i m)).
Proof.
  intros H O j Hj. destruct (held_after w i m H) as (L & E & S). rewrite L in Hj.
  assert (K : held (array_at (fst (call_method w i m)) j) = held (array_at w j) -> orderly (fst (call_method w i m)) j).
  { intros K. apply (orderly_kept w); auto using cells_grow. intros r Hr. apply call_sx; auto. }
  destruct (Nat.eq_dec j i) as [->|N]; [|apply K; now rewrite E].
  destruct m as [st en|df|taper ss se| |mn mx|sa sd vmin vmax]; try (apply K; now rewrite in_place_call by exact I).
  - cbn [call_method]. destruct (offsets_part w i mn mx) as [keep P]. rewrite P.
    destruct (O i H) as (O1 & O2 & O3 & O4).
    destruct (select keep (held (array_at w i))) as [|r l] eqn:Q; cbn [fst]; [exact (O i H)|]. rewrite <- Q.
    assert (X : held (array_at (set_held w i (select keep (held (array_at w i)))) i) = select keep (held (array_at w i))).
    { rewrite replace_array by exact H. now rewrite Nat.eqb_refl. }
    unfold orderly. rewrite seen_sensors, X. split; [congruence|]. split; [now apply select_NoDup|]. split.
    + intros x Hx. cbn. apply O3. exact (In_select_l _ _ _ Hx).
    + change (cell (set_held w i (select keep (held (array_at w i))))) with (cell w).
      rewrite !select_map. apply select_sorted. exact O4.
  - destruct (correlate_cases (seen w i) sa sd vmin vmax) as [(l & Q)|(e & Q)].
    + destruct (correlate_call w i sa sd vmin vmax l H Q) as [E1 E2].
      pose proof (correlate_positions (seen w i) sa sd vmin vmax) as P. rewrite Q in P. cbn [fst sensors set_sensors] in P.
      destruct (O i H) as (O1 & O2 & O3 & O4).
      assert (X : held (array_at (fst (call_method w i (Correlate sa sd vmin vmax))) i) = seq (length (cells w)) (length l)).
      { rewrite E1. cbn [fst]. rewrite replace_array by exact H. now rewrite Nat.eqb_refl. }
      unfold orderly. rewrite X, E2. cbn [sensors set_sensors]. rewrite P. split.
      { intros Z. apply (f_equal (@length nat)) in Z. rewrite seq_length in Z. cbn in Z.
        apply (f_equal (@length Qc)) in P. rewrite !map_length, seen_sensors, map_length, Z in P.
        destruct (held (array_at w i)); [congruence|discriminate]. }
      split; [apply seq_NoDup|]. split; [|exact O4].
      intros r Hr. rewrite E1. cbn. rewrite app_length. apply in_seq in Hr. lia.
    + apply K. cbn [call_method call]. now rewrite Q.
Qed.

(** ** Every statement *)
Lemma nth_replace_eq {A} (l : list A) n (a : A) r d : nth r (replace_at n a l) d = if (Nat.eqb r n && (n <? length l)) then a else nth r l d.
Proof.
  destruct (Nat.eqb_spec r n) as [->|N]; cbn [andb]; [|apply replace_other; exact N].
  destruct (Nat.ltb_spec n (length l)) as [H|H]; [apply replace_same; exact H|].
  rewrite !nth_overflow; auto. rewrite replace_length. exact H.
Qed.
Lemma set_cell_at w r s r' : r < length (cells w) -> cell (set_cell w r s) r' = if Nat.eqb r' r then s else cell w r'.
Proof.
  intros H. unfold cell, set_cell. cbn [cells]. rewrite nth_replace_eq. apply Nat.ltb_lt in H. rewrite H, andb_true_r. reflexivity.
Qed.
Lemma set_cell_sane w r s : r < length (cells w) -> sx s = sx (cell w r) -> sane w -> sane (set_cell w r s).
Proof.
  intros H E O i Hi. apply (orderly_kept w); [exact (O i Hi)|reflexivity|cbn; rewrite replace_length; lia|].
  intros r' _. rewrite set_cell_at by exact H. destruct (Nat.eqb_spec r' r) as [->|]; auto.
Qed.
Lemma add_cells_at w l r : r < length (cells w) -> cell (add_cells w l) r = cell w r.
Proof. intros H. unfold cell. cbn. apply app_nth1. exact H. Qed.
Lemma add_cells_sane w l : sane w -> sane (add_cells w l).
Proof.
  intros O i Hi. apply (orderly_kept w); [exact (O i Hi)|reflexivity|cbn; rewrite app_length; lia|].
  intros r Hr. now rewrite add_cells_at.
Qed.
Lemma seen_add_cells w l i : orderly w i -> seen (add_cells w l) i = seen w i.
Proof.
  intros (_ & _ & B & _). unfold seen. change (array_at (add_cells w l) i) with (array_at w i). f_equal.
  apply map_ext_in. intros r Hr. apply add_cells_at. auto.
Qed.
Lemma array_at_old w o i : i < length (arrays w) -> array_at (add_array w o) i = array_at w i.
Proof. intros H. unfold array_at. cbn. apply app_nth1. exact H. Qed.
Lemma array_at_new w o : array_at (add_array w o) (length (arrays w)) = o.
Proof. unfold array_at. cbn. rewrite app_nth2, Nat.sub_diag by lia. reflexivity. Qed.

Lemma make_array_ok w rs s a : new_array (map (cell w) rs) s = Ok a ->
  (forall r, In r rs -> r < length (cells w)) ->
  exists o, make_array w rs s = (add_array w o, Ok tt) /\ Permutation (held o) rs /\
    seen (add_array w o) (length (arrays w)) = a /\ orderly (add_array w o) (length (arrays w)).
Proof.
  intros N B. unfold make_array. rewrite N.
  destruct (new_array_spec _ _ _ N) as ((C1 & C2 & _) & P & E).
  assert (A : a = mkArray (sort_sensors (map (cell w) rs)) s).
  { assert (X := proj1 (new_array_ok (map (cell w) rs) s)). unfold new_array in *.
    destruct (map (cell w) rs) as [|e t]; [discriminate|]. destruct (check_sensors _ _ _); [|discriminate]. now injection N as <-. }
  eexists. split; [reflexivity|]. split; [apply sort_refs_perm|].
  set (o := mkArrayObj (sort_refs (fun r => sx (cell w r)) rs) s).
  assert (V : seen (add_array w o) (length (arrays w)) = a).
  { unfold seen. rewrite array_at_new. unfold o. cbn [held held_source]. change (cell (add_array w _)) with (cell w).
    rewrite sort_refs_map. auto. }
  split; [exact V|]. unfold orderly. rewrite V, array_at_new.
  assert (PH : Permutation (held o) rs) by apply sort_refs_perm.
  split.
  { intros Z. rewrite Z in PH. apply Permutation_nil in PH. subst rs. discriminate. }
  split.
  { apply (Permutation_NoDup (Permutation_sym PH)). apply (NoDup_map_inv (fun r => sx (cell w r))).
    rewrite <- (map_map (cell w) sx). apply (Permutation_NoDup (Permutation_map sx P)).
    clear -C2. induction C2 as [|x l S IH F]; constructor; auto. intros K.
    rewrite Forall_forall in F. specialize (F x K). exact (Qclt_not_eq _ _ F eq_refl). }
  split; [|exact C2]. intros r Hr. cbn. apply B. exact (Permutation_in r PH Hr).
Qed.
Lemma add_array_sane w o : orderly (add_array w o) (length (arrays w)) -> sane w -> sane (add_array w o).
Proof.
  intros N O i Hi. cbn in Hi. rewrite app_length in Hi. cbn in Hi.
  destruct (Nat.eq_dec i (length (arrays w))) as [->|E]; [exact N|].
  assert (Hi' : i < length (arrays w)) by lia.
  apply (orderly_kept w); [exact (O i Hi')|now rewrite array_at_old|apply Nat.le_refl|reflexivity].
Qed.
Lemma make_array_err w rs s e : new_array (map (cell w) rs) s = Err e -> make_array w rs s = (w, Err e).
Proof. intros N. unfold make_array. now rewrite N. Qed.
Lemma seq_cells w l : map (cell (add_cells w l)) (seq (length (cells w)) (length l)) = l.
Proof.
  unfold cell. cbn [cells add_cells].
  apply nth_ext with (d := no_sensor) (d' := no_sensor); [rewrite map_length, seq_length; reflexivity|].
  intros k Hk. rewrite map_length, seq_length in Hk.
  rewrite (nth_map_lt _ _ k no_sensor 0) by (rewrite seq_length; exact Hk).
  rewrite seq_nth by exact Hk. rewrite app_nth2 by lia. f_equal. lia.
Qed.

Lemma copy_ok w i a : i < length (arrays w) -> copy_array (seen w i) = Ok a ->
  exists l o, perform w (CopyArray i) = (add_array (add_cells w l) o, Ok tt) /\
    Permutation (held o) (seq (length (cells w)) (length l)) /\
    seen (add_array (add_cells w l) o) (length (arrays w)) = a /\
    orderly (add_array (add_cells w l) o) (length (arrays w)).
Proof.
  intros H C. unfold copy_array in C. unfold perform. cbn [existing]. rewrite (proj2 (Nat.ltb_lt _ _) H). cbn [negb].
  destruct (mapM copy_sensor (sensors (seen w i))) as [l|]; [|discriminate]. cbn [bind] in C.
  destruct (make_array_ok (add_cells w l) (seq (length (cells w)) (length l)) (held_source (array_at w i)) a) as (o & E1 & E2 & E3 & E4).
  - rewrite seq_cells. exact C.
  - intros r Hr. cbn. rewrite app_length. apply in_seq in Hr. lia.
  - exists l, o. rewrite E1. auto.
Qed.
Lemma copy_err w i e : i < length (arrays w) -> copy_array (seen w i) = Err e -> perform w (CopyArray i) = (w, Err e).
Proof.
  intros H C. unfold copy_array in C. unfold perform. cbn [existing]. rewrite (proj2 (Nat.ltb_lt _ _) H). cbn [negb].
  destruct (mapM copy_sensor (sensors (seen w i))) as [l|]; [|now injection C as ->]. cbn [bind] in C.
  rewrite (make_array_err _ _ _ e); [reflexivity|]. rewrite seq_cells. exact C.
Qed.

Lemma append_sx s o : sx (fst (sensor_stack_append s o)) = sx s.
Proof. unfold sensor_stack_append. destruct o; cbn; auto; repeat match goal with |- context [if ?b then _ else _] => destruct b end; reflexivity. Qed.

Lemma perform_sane w d : sane w -> sane (fst (perform w d)).
Proof.
  intros O. destruct (existing w d) eqn:X; [|unfold perform; rewrite X; exact O].
  destruct d as [a d x y z ns de|r|rs s|i|i m|r st en|r df|r r']; 
    lazymatch goal with |- context [CopyArray] => idtac | _ => unfold perform; rewrite X; cbn [negb] end; cbn [existing] in X.
  - destruct (new_sensor _ _ _ _ _ _ _); [now apply add_cells_sane|exact O].
  - destruct (copy_sensor _); [now apply add_cells_sane|exact O].
  - destruct (new_array (map (cell w) rs) s) as [a|e] eqn:N; [|now rewrite (make_array_err _ _ _ e)].
    destruct (make_array_ok w rs s a N) as (o & E1 & E2 & E3 & E4).
    { intros r Hr. rewrite forallb_forall in X. specialize (X r Hr). now apply Nat.ltb_lt. }
    rewrite E1. now apply add_array_sane.
  - apply Nat.ltb_lt in X. destruct (copy_array (seen w i)) as [a|e] eqn:C.
    + destruct (copy_ok w i a X C) as (l & o & E1 & E2 & E3 & E4). rewrite E1. cbn [fst].
      apply add_array_sane; [exact E4|]. now apply add_cells_sane.
    + rewrite (copy_err w i e X C). exact O.
  - apply Nat.ltb_lt in X. now apply call_sane.
  - apply Nat.ltb_lt in X. pose proof (proj1 (sensor_trim_sx st en (cell w r))) as S.
    destruct (sensor_trim _ _ _) as [s res]. now apply set_cell_sane.
  - apply Nat.ltb_lt in X. pose proof (proj1 (sensor_pad_sx df (cell w r))) as S.
    destruct (sensor_zero_pad _ _) as [s res]. now apply set_cell_sane.
  - apply andb_true_iff in X as [X _]. apply Nat.ltb_lt in X. pose proof (append_sx (cell w r) (ObjSensor (cell w r'))) as S.
    destruct (sensor_stack_append _ _) as [s res]. now apply set_cell_sane.
Qed.
Lemma run_sane l : forall w, sane w -> sane (run w l).
Proof. induction l as [|d l IH]; intros w O; [exact O|]. cbn. apply IH. now apply perform_sane. Qed.
Lemma empty_sane : sane empty_memory.
Proof. intros i Hi. cbn in Hi. lia. Qed.

(** ** Calls on arrays that are apart *)
Lemma perform_call w i m : i < length (arrays w) -> perform w (OnArray i m) = call_method w i m.
Proof. intros H. unfold perform. cbn [existing]. rewrite (proj2 (Nat.ltb_lt _ _) H). reflexivity. Qed.
Lemma perform_nothing w i m : length (arrays w) <= i -> perform w (OnArray i m) = (w, Err UnboundLocalError).
Proof. intros H. unfold perform. cbn [existing]. rewrite (proj2 (Nat.ltb_ge _ _) H). reflexivity. Qed.
Lemma alone_run j : forall l w, sane w -> j < length (arrays w) ->
  (forall i, i < length (arrays w) -> i <> j -> In i (map fst l) -> apart w i j) ->
  seen (run w (program l)) j = after_calls (seen w j) (calls_on j l).
Proof.
  induction l as [|[i m] l IH]; intros w O H A; [reflexivity|].
  unfold program, run, calls_on in *. cbn [map fold_left filter fst snd].
  destruct (Nat.lt_ge_cases i (length (arrays w))) as [Hi|Hi].
  - rewrite perform_call by exact Hi. pose proof (proj1 (held_after w i m Hi)) as L.
    assert (A' : forall k, k < length (arrays (fst (call_method w i m))) -> k <> j -> In k (map fst l) -> apart (fst (call_method w i m)) k j).
    { intros k Hk N K. rewrite L in Hk. apply still_apart; auto. apply A; auto. cbn. now right. }
    rewrite IH; [|now apply call_sane|rewrite L; exact H|exact A'].
    destruct (Nat.eqb_spec i j) as [->|N].
    + cbn [map snd]. unfold after_calls. cbn [fold_left]. rewrite (proj1 (called w j m (O j H) H)). reflexivity.
    + rewrite uncalled; auto. apply A; auto. now left.
  - rewrite perform_nothing by exact Hi. cbn [fst]. rewrite (proj2 (Nat.eqb_neq i j)) by lia.
    apply IH; auto. intros k Hk N K. apply A; auto. cbn. now right.
Qed.

(** ** Programs that keep their arrays apart *)
Lemma correlate_same_length a b c : length a = length b -> length (correlate a c) = length (correlate b c).
Proof.
  intros L. unfold correlate. cbv zeta. rewrite L.
  destruct a, b, c; cbn [length] in L; try discriminate; try reflexivity. rewrite !map_length. reflexivity.
Qed.
Lemma pyslice_same_length {A} lo hi (l m : list A) : length l = length m -> length (pyslice lo hi l) = length (pyslice lo hi m).
Proof. intros L. unfold pyslice. cbv zeta. rewrite L. rewrite !skipn_length, !firstn_length, L. reflexivity. Qed.
Lemma correlate_consistent a sa sd vmin vmax : consistent a -> consistent (fst (xcorrelate a sa sd vmin vmax)).
Proof.
  intros (C1 & C2 & C3). pose proof (correlate_positions a sa sd vmin vmax) as P.
  split; [|split; [rewrite P; exact C2|]].
  { intros Z. rewrite Z in P. destruct (sensors a); [congruence|discriminate]. }
  revert P. unfold xcorrelate. destruct (offsets a); [cbn; auto|].
  destruct (xcorr_bounds _ _ _ _ _ _) as [[lo hi]|]; [|cbn; auto].
  destruct (mapM _ (sensors a)) as [l'|] eqn:M; [|cbn; auto]. cbn [fst sensors set_sensors]. intros _ s t Hs Ht.
  apply mapM_ok in M. apply (Forall2_In_r _ _ _ _ M) in Hs as (s0 & Hs0 & Es). apply (Forall2_In_r _ _ _ _ M) in Ht as (t0 & Ht0 & Et).
  destruct (C3 s0 t0 Hs0 Ht0) as (A1 & A2 & A3 & A4).
  unfold new_sensor, new_series in Es, Et.
  destruct (nstacks (ser s0) <=? 0)%Z; [discriminate|]. destruct (nstacks (ser t0) <=? 0)%Z; [discriminate|].
  destruct (Qcltb _ _); [discriminate|]. cbn [bind] in Es, Et. injection Es as <-. injection Et as <-.
  unfold agree. cbn [ser dt nstacks delay amp]. repeat split; auto.
  apply pyslice_same_length, correlate_same_length. exact A4.
Qed.
Lemma call_consistent a m : consistent a -> consistent (fst (call a m)).
Proof.
  intros C. destruct m as [st en|df|taper ss se| |mn mx|sa sd vmin vmax]; cbn [call].
  - exact (proj1 (array_call_consistent a (ArrTrim st en) C)).
  - exact (proj1 (array_call_consistent a (ArrPad df) C)).
  - exact (proj1 (array_call_consistent a (ArrMute taper ss se) C)).
  - exact (proj1 (array_call_consistent a ArrDetrend C)).
  - exact (proj1 (array_call_consistent a (ArrOffsets mn mx) C)).
  - now apply correlate_consistent.
Qed.

Record settled (w : memory) : Prop := mkSettled {
  settled_sane : sane w;
  settled_fine : forall i, i < length (arrays w) -> consistent (seen w i);
  settled_apart : forall i j, i < length (arrays w) -> j < length (arrays w) -> i <> j -> apart w i j }.

Lemma apart_sym w i j : apart w i j -> apart w j i.
Proof. intros A r H1 H2. exact (A r H2 H1). Qed.
Lemma settled_call w i m : i < length (arrays w) -> settled w -> settled (fst (call_method w i m)).
Proof.
  intros H [O C A]. pose proof (proj1 (held_after w i m H)) as L. split.
  - now apply call_sane.
  - intros j Hj. rewrite L in Hj. destruct (Nat.eq_dec i j) as [->|N].
    + rewrite (proj1 (called w j m (O j Hj) Hj)). apply call_consistent. auto.
    + rewrite uncalled; auto.
  - intros j k Hj Hk N. rewrite L in Hj, Hk. apply still_apart; auto.
Qed.
Lemma seen_set_cell w r s i : r < length (cells w) -> ~ In r (held (array_at w i)) -> seen (set_cell w r s) i = seen w i.
Proof.
  intros H K. unfold seen. change (array_at (set_cell w r s) i) with (array_at w i). f_equal.
  apply map_ext_in. intros t Ht. rewrite set_cell_at by exact H. destruct (Nat.eqb_spec t r) as [->|]; [contradiction|reflexivity].
Qed.
Lemma settled_set_cell w r s : r < length (cells w) -> sx s = sx (cell w r) -> loose w r -> settled w -> settled (set_cell w r s).
Proof.
  intros H E K [O C A]. split; [now apply set_cell_sane| |exact A].
  intros i Hi. rewrite seen_set_cell; auto.
Qed.
Lemma settled_add_cells w l : settled w -> settled (add_cells w l).
Proof.
  intros [O C A]. split; [now apply add_cells_sane| |exact A].
  intros i Hi. rewrite seen_add_cells; [exact (C i Hi)|exact (O i Hi)].
Qed.
Lemma seen_old w o i : i < length (arrays w) -> seen (add_array w o) i = seen w i.
Proof. intros H. unfold seen. now rewrite array_at_old. Qed.
Lemma settled_add_array w o : orderly (add_array w o) (length (arrays w)) ->
  consistent (seen (add_array w o) (length (arrays w))) -> (forall r, In r (held o) -> loose w r) ->
  settled w -> settled (add_array w o).
Proof.
  intros N F K [O C A]. split; [now apply add_array_sane| |].
  - intros i Hi. cbn in Hi. rewrite app_length in Hi. cbn in Hi.
    destruct (Nat.eq_dec i (length (arrays w))) as [->|E]; [exact F|]. rewrite seen_old; [apply C|]; lia.
  - intros i j Hi Hj D. cbn in Hi, Hj. rewrite app_length in Hi, Hj. cbn in Hi, Hj.
    assert (X : forall i, i < length (arrays w) -> apart (add_array w o) (length (arrays w)) i).
    { intros k Hk r R1 R2. rewrite array_at_new in R1. rewrite array_at_old in R2 by exact Hk. exact (K r R1 k Hk R2). }
    destruct (Nat.eq_dec i (length (arrays w))) as [->|Ei]; [apply X; lia|].
    destruct (Nat.eq_dec j (length (arrays w))) as [->|Ej]; [apply apart_sym, X; lia|].
    intros r. rewrite !array_at_old by lia. apply A; lia.
Qed.
Lemma settled_perform w d : careful w d -> settled w -> settled (fst (perform w d)).
Proof.
  intros K S. destruct (existing w d) eqn:X; [|unfold perform; rewrite X; exact S].
  destruct d as [a d x y z ns de|r|rs s|i|i m|r st en|r df|r r'];
    lazymatch goal with |- context [CopyArray] => idtac | _ => unfold perform; rewrite X; cbn [negb] end; cbn [existing careful] in X, K.
  - destruct (new_sensor _ _ _ _ _ _ _); [now apply settled_add_cells|exact S].
  - destruct (copy_sensor _); [now apply settled_add_cells|exact S].
  - destruct (new_array (map (cell w) rs) s) as [a|e] eqn:N; [|now rewrite (make_array_err _ _ _ e)].
    destruct (make_array_ok w rs s a N) as (o & E1 & E2 & E3 & E4).
    { intros r Hr. rewrite forallb_forall in X. specialize (X r Hr). now apply Nat.ltb_lt. }
    rewrite E1. apply settled_add_array; auto.
    + rewrite E3. exact (proj1 (new_array_spec _ _ _ N)).
    + intros r Hr. apply K. exact (Permutation_in r E2 Hr).
  - apply Nat.ltb_lt in X. destruct (copy_array (seen w i)) as [a|e] eqn:C.
    + destruct (copy_ok w i a X C) as (l & o & E1 & E2 & E3 & E4). rewrite E1. cbn [fst].
      apply settled_add_array; [exact E4| | |now apply settled_add_cells].
      * change (length (arrays (add_cells w l))) with (length (arrays w)). rewrite E3.
        unfold copy_array in C. destruct (mapM copy_sensor (sensors (seen w i))) as [l'|]; [|discriminate]. cbn [bind] in C.
        exact (proj1 (new_array_spec _ _ _ C)).
      * intros r Hr k Hk R. apply (Permutation_in r E2) in Hr. apply in_seq in Hr.
        destruct (settled_sane w S k Hk) as (_ & _ & B & _). specialize (B r R). lia.
    + rewrite (copy_err w i e X C). exact S.
  - apply Nat.ltb_lt in X. now apply settled_call.
  - apply Nat.ltb_lt in X. pose proof (proj1 (sensor_trim_sx st en (cell w r))) as E.
    destruct (sensor_trim _ _ _) as [s res]. now apply settled_set_cell.
  - apply Nat.ltb_lt in X. pose proof (proj1 (sensor_pad_sx df (cell w r))) as E.
    destruct (sensor_zero_pad _ _) as [s res]. now apply settled_set_cell.
  - apply andb_true_iff in X as [X _]. apply Nat.ltb_lt in X. pose proof (append_sx (cell w r) (ObjSensor (cell w r'))) as E.
    destruct (sensor_stack_append _ _) as [s res]. now apply settled_set_cell.
Qed.
Lemma settled_run l : forall w, careful_program w l -> settled w -> settled (run w l).
Proof. induction l as [|d l IH]; intros w K S; [exact S|]. destruct K as [K1 K2]. cbn. apply IH; [exact K2|]. now apply settled_perform. Qed.
Lemma empty_settled : settled empty_memory.
Proof. split; [apply empty_sane| |]; cbn; intros; lia. Qed.

(** ** The matrix of arrays whose sensors agree *)
Lemma tsm_row_length dtr norm s row : tsm_row dtr norm s = Ok row -> length row = length (amp (ser s)).
Proof.
  unfold tsm_row. cbv zeta. destruct norm.
  - intros H. injection H as <-. rewrite map_length. destruct dtr; [apply length_detrend|reflexivity].
  - destruct (absmax _); [|discriminate]. cbn [bind]. intros H. injection H as <-. unfold normalize_row. rewrite map_length.
    destruct dtr; [apply length_detrend|reflexivity].
  - intros H. injection H as <-. rewrite map_length. destruct dtr; [apply length_detrend|reflexivity].
Qed.
Lemma mapM_ext_in {A B} (f g : A -> result B) l : (forall a, In a l -> f a = g a) -> mapM f l = mapM g l.
Proof.
  induction l as [|a l IH]; intros H; cbn; [reflexivity|]. rewrite (H a (or_introl eq_refl)).
  destruct (g a); cbn; [|reflexivity]. rewrite IH; [reflexivity|]. intros x Hx. apply H. now right.
Qed.
Lemma matrix_agrees a dtr norm : consistent a -> matrix_of a dtr norm = timeseriesmatrix a dtr norm.
Proof.
  intros (_ & _ & C). unfold matrix_of, timeseriesmatrix. destruct (sensors a) as [|s0 l] eqn:E; [reflexivity|].
  rewrite (mapM_ext_in _ (tsm_row dtr norm) (s0 :: l)); [reflexivity|].
  intros s Hs. destruct (tsm_row dtr norm s) as [row|] eqn:T; [|reflexivity]. cbn [bind]. unfold fill_row.
  rewrite (tsm_row_length _ _ _ _ T). destruct (C s s0 Hs (or_introl eq_refl)) as (_ & _ & _ & L).
  unfold nsamples. rewrite L, Nat.eqb_refl. reflexivity.
Qed.

(** ** Records of different lengths *)
Lemma mapM_err {A B} (f : A -> result B) e l : (forall a, In a l -> (exists b, f a = Ok b) \/ f a = Err e) ->
  (exists a, In a l /\ f a = Err e) -> mapM f l = Err e.
Proof.
  induction l as [|a l IH]; intros H (x & Hx & E); [destruct Hx|]. cbn [mapM].
  destruct (H a (or_introl eq_refl)) as [(b & Q)|Q]; rewrite Q; cbn [bind]; [|reflexivity].
  destruct Hx as [<-|Hx]; [congruence|]. rewrite IH; [reflexivity| |eauto]. intros y Hy. apply H. now right.
Qed.
Lemma fill_row_cases n row : (length row = n -> fill_row n row = Ok row) /\
  (length row <> n -> length row = 1 -> fill_row n row = Ok (repeat (hd f0 row) n)) /\
  (length row <> n -> length row <> 1 -> fill_row n row = Err ValueError).
Proof.
  unfold fill_row. destruct (Nat.eqb_spec (length row) n) as [E|E].
  - repeat split; intros; congruence.
  - split; [intros; congruence|]. destruct row as [|v [|v' row]]; cbn [length] in *; split; intros; try lia; reflexivity.
Qed.
Lemma ragged_ok a s0 rest : sensors a = s0 :: rest ->
  (forall s, In s (sensors a) -> length (amp (ser s)) = nsamples (ser s0) \/ length (amp (ser s)) = 1) ->
  matrix_of a false NormNone =
  Ok (map (fun s => if Nat.eqb (length (amp (ser s))) (nsamples (ser s0)) then map Fin (amp (ser s))
                    else repeat (Fin (hd 0%Qc (amp (ser s)))) (nsamples (ser s0))) (sensors a)).
Proof.
  intros E H. unfold matrix_of. rewrite E in *. cbn [tsm_row].
  rewrite (proj2 (mapM_ok _ _ (map (fun s => if Nat.eqb (length (amp (ser s))) (nsamples (ser s0)) then map Fin (amp (ser s))
                    else repeat (Fin (hd 0%Qc (amp (ser s)))) (nsamples (ser s0))) (s0 :: rest)))); [reflexivity|].
  clear E. revert H. generalize (s0 :: rest). intros l H. induction l as [|s l IH]; cbn [map]; constructor.
  - cbn [bind]. destruct (fill_row_cases (nsamples (ser s0)) (map Fin (amp (ser s)))) as (F1 & F2 & _). rewrite map_length in *.
    destruct (Nat.eqb_spec (length (amp (ser s))) (nsamples (ser s0))) as [Q|Q]; [now apply F1|].
    destruct (H s (or_introl eq_refl)) as [H1|H1]; [contradiction|]. rewrite F2 by assumption.
    destruct (amp (ser s)); [discriminate|reflexivity].
  - apply IH. intros x Hx. apply H. now right.
Qed.
Lemma ragged_err a s0 rest : sensors a = s0 :: rest ->
  (exists s, In s (sensors a) /\ length (amp (ser s)) <> nsamples (ser s0) /\ length (amp (ser s)) <> 1) ->
  matrix_of a false NormNone = Err ValueError.
Proof.
  intros E (s & Hs & H1 & H2). unfold matrix_of. rewrite E in *. cbn [tsm_row].
  rewrite (mapM_err _ ValueError); [reflexivity| |].
  - intros x _. cbn [bind]. unfold fill_row. destruct (Nat.eqb _ _); [left; eauto|]. destruct (map Fin (amp (ser x))) as [|v [|? ?]]; eauto.
  - exists s. split; [exact Hs|]. cbn [bind]. apply fill_row_cases; rewrite map_length; assumption.
Qed.

Lemma tukey_cases taper M : tukey taper M = Err ValueError \/ exists v, tukey taper M = Ok v.
Proof. unfold tukey. destruct (M <? 0)%Z; eauto. Qed.
Lemma slice_cases w lo hi arr : set_slice w lo hi arr = Err ValueError \/ exists v, set_slice w lo hi arr = Ok v.
Proof. unfold set_slice. cbv zeta. destruct (Nat.eqb _ _); [eauto|]. destruct arr as [|v [|? ?]]; eauto. Qed.
Lemma scale_cases l w : scale_by l w = Err ValueError \/ exists v, scale_by l w = Ok v.
Proof. unfold scale_by. destruct (Nat.eqb _ _); [eauto|]. destruct w as [|v [|? ?]]; eauto. Qed.
Lemma mute_sensor_cases taper n i j s :
  mute_sensor taper n i j s = (s, Err ValueError) \/
  (exists s', mute_sensor taper n i j s = (s', Ok tt)) /\ (length (amp (ser s)) = n \/ n = 1).
Proof.
  unfold mute_sensor. destruct (tukey_cases taper (j - i)) as [-> |(arr & ->)]; cbn [bind]; [now left|].
  destruct (slice_cases (repeat 0%Qc n) i j arr) as [-> |(w & E)]; cbn [bind]; [now left|]. rewrite E. cbn [bind].
  apply set_slice_length in E. rewrite repeat_length in E.
  unfold scale_by. destruct (Nat.eqb_spec (length w) (length (amp (ser s)))) as [Q|Q].
  - right. split; [eauto|]. left. congruence.
  - destruct w as [|v [|? ?]]; [now left| |now left]. right. split; [eauto|]. right. now rewrite <- E.
Qed.
Lemma mute_loop_ragged taper n : forall idx l, length idx = length l -> n <> 1 ->
  (exists s, In s l /\ length (amp (ser s)) <> n) -> snd (mute_loop taper n idx l) = Err ValueError.
Proof.
  induction idx as [|[i j] idx IH]; intros [|x l] L N (s & Hs & D); cbn [length] in L; try discriminate; [destruct Hs|].
  cbn [mute_loop]. destruct (mute_sensor_cases taper n i j x) as [-> |((x' & ->) & K)]; [reflexivity|].
  destruct Hs as [->|Hs]; [destruct K; contradiction|].
  specialize (IH l ltac:(lia) N (ex_intro _ s (conj Hs D))). destruct (mute_loop taper n idx l). exact IH.
Qed.
Lemma ragged_mute a taper ss se s0 rest : sensors a = s0 :: rest -> dt (ser s0) <> 0%Qc ->
  match ss with Some l => slanted l | None => True end -> match se with Some l => slanted l | None => True end ->
  nsamples (ser s0) <> 1 -> (exists s, In s (sensors a) /\ length (amp (ser s)) <> nsamples (ser s0)) ->
  snd (mute a taper ss se) = Err ValueError.
Proof.
  intros E D S1 S2 N H. unfold mute. rewrite E.
  destruct (Qceqb (dt (ser s0)) 0%Qc) eqn:Q; [apply Qceqb_eq in Q; contradiction|]. cbv zeta.
  assert (LI : forall l d nd pos, slanted l -> exists v, line_indices l d nd pos = Ok v /\ length v = length pos).
  { intros [[x1 t1] [x2 t2]] d nd pos S. cbn in S. unfold line_indices.
    destruct (Qceqb (x2 - x1)%Qc 0%Qc) eqn:Q'.
    - exfalso. apply Qceqb_eq in Q'. apply S. clear -Q'. qclra.
    - eexists. split; [reflexivity|]. apply map_length. }
  assert (B1 : exists v, match ss with
               | Some l => line_indices l (dt (ser s0)) (Qcabs (delay (ser s0) / dt (ser s0))) (position a)
               | None => Ok (map (fun _ => 0%Z) (position a)) end = Ok v /\ length v = length (position a)).
  { destruct ss; [now apply LI|]. eexists. split; [reflexivity|]. apply map_length. }
  assert (B2 : exists v, match se with
               | Some l => line_indices l (dt (ser s0)) (Qcabs (delay (ser s0) / dt (ser s0))) (position a)
               | None => Ok (map (fun _ => (Z.of_nat (nsamples (ser s0)) - 1)%Z) (position a)) end = Ok v /\ length v = length (position a)).
  { destruct se; [now apply LI|]. eexists. split; [reflexivity|]. apply map_length. }
  destruct B1 as (v1 & -> & L1), B2 as (v2 & -> & L2). cbn [bind].
  assert (X : snd (mute_loop taper (nsamples (ser s0)) (combine v1 v2) (s0 :: rest)) = Err ValueError).
  { apply mute_loop_ragged; auto.
    - rewrite combine_length, L1, L2, Nat.min_id. unfold position. rewrite E. apply map_length.
    - rewrite E in H. exact H. }
  destruct (mute_loop _ _ _ _). exact X.
Qed.
