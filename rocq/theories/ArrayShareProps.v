(* C124: arrays refer to the sensors they are made of; copies have their own. *)
From Verif Require Import PyFacts NumFacts SeriesModel SeriesSpec SeriesProofs.
From Verif Require Import ArrayModel ArraySpec ArrayProofs ArrayShareModel ArrayShareSpec ArrayShareProofs.

Lemma history_sane l : sane (run empty_memory l).
Proof. apply run_sane, empty_sane. Qed.

(** What no later change of a shared sensor can spoil: an array refers to distinct
    existing sensors in the order of their positions. *)
Theorem C124_orderly : forall l i, let w := run empty_memory l in
  i < length (arrays w) -> orderly w i.
Proof. intros l i w H. exact (history_sane l i H). Qed.
Print Assumptions C124_orderly.

(** Whatever else refers to its sensors, an array does what its methods say of the
    sensors as they are now. *)
Theorem C124_method : forall l i m, let w := run empty_memory l in
  i < length (arrays w) ->
  seen (fst (perform w (OnArray i m))) i = fst (call (seen w i) m)
  /\ snd (perform w (OnArray i m)) = snd (call (seen w i) m).
Proof. intros l i m w H. rewrite perform_call by exact H. apply called; [exact (history_sane l i H)|exact H]. Qed.
Print Assumptions C124_method.

(** A method that works in place gives the called array's sensors their new states, in
    every array that refers to them, and changes no other sensor. *)
Theorem C124_shared : forall l i m, let w := run empty_memory l in
  i < length (arrays w) -> in_place m ->
  let w' := fst (perform w (OnArray i m)) in
  arrays w' = arrays w
  /\ (forall k r, nth_error (held (array_at w i)) k = Some r ->
        nth_error (sensors (fst (call (seen w i) m))) k = Some (cell w' r))
  /\ (forall r, r < length (cells w) -> ~ In r (held (array_at w i)) -> cell w' r = cell w r).
Proof.
  intros l i m w H M w'. unfold w'. rewrite perform_call by exact H. split; [now rewrite in_place_call|]. split.
  - intros k r K. apply place_call; auto. exact (history_sane l i H).
  - intros r L K. now apply other_cell.
Qed.
Print Assumptions C124_shared.

(** Trimming by offset and cross-correlating affect no other array, even one made of the
    same sensors.  A cross-correlated array has sensors of its own. *)
Theorem C124_replaced : forall l i j m, let w := run empty_memory l in
  i < length (arrays w) -> j < length (arrays w) -> j <> i -> ~ in_place m ->
  let w' := fst (perform w (OnArray i m)) in
  seen w' j = seen w j
  /\ (forall sa sd vmin vmax, m = Correlate sa sd vmin vmax -> snd (perform w (OnArray i m)) = Ok tt -> apart w' i j).
Proof.
  intros l i j m w H Hj N M w'. unfold w'. rewrite perform_call by exact H.
  pose proof (history_sane l j Hj) as (_ & _ & B & _). fold w in B.
  destruct (held_after w i m H) as (_ & E & _). specialize (E j N).
  assert (S : forall r, In r (held (array_at w j)) -> cell (fst (call_method w i m)) r = cell w r).
  { intros r Hr. destruct m as [st en|df|taper ss se| |mn mx|sa sd vmin vmax]; try (exfalso; apply M; exact I).
    - cbn [call_method]. destruct (trim_offsets_loop _ _ _); reflexivity.
    - cbn [call_method]. destruct (call _ _) as [a' [u|e]]; [|reflexivity].
      unfold cell. cbn. apply app_nth1. apply B. exact Hr. }
  split.
  - unfold seen. rewrite E. f_equal. apply map_ext_in. exact S.
  - intros sa sd vmin vmax -> R r R1 R2. rewrite E in R2.
    destruct (correlate_cases (seen w i) sa sd vmin vmax) as [(v & Q)|(e & Q)].
    + destruct (correlate_call w i sa sd vmin vmax v H Q) as [E1 _]. rewrite E1 in R1. cbn [fst] in R1.
      rewrite replace_array in R1 by exact H. rewrite Nat.eqb_refl in R1. apply in_seq in R1. specialize (B r R2). lia.
    + cbn [call_method call] in R. rewrite Q in R. discriminate.
Qed.
Print Assumptions C124_replaced.

(** Making an array changes no sensor and no array; the new array refers to the very
    sensors it was given. *)
Theorem C124_construct : forall l rs s, let w := run empty_memory l in
  (forall r, In r rs -> r < length (cells w)) ->
  let n := length (arrays w) in
  match new_array (map (cell w) rs) s with
  | Ok a => exists w', perform w (MakeArray rs s) = (w', Ok tt)
      /\ cells w' = cells w /\ length (arrays w') = S n
      /\ Permutation (held (array_at w' n)) rs /\ seen w' n = a
      /\ forall j, j < n -> array_at w' j = array_at w j
  | Err e => perform w (MakeArray rs s) = (w, Err e)
  end.
Proof.
  intros l rs s w B n. assert (X : perform w (MakeArray rs s) = make_array w rs s).
  { unfold perform. cbn [existing]. replace (forallb _ rs) with true; [reflexivity|].
    symmetry. apply forallb_forall. intros r Hr. apply Nat.ltb_lt. auto. }
  rewrite X. destruct (new_array (map (cell w) rs) s) as [a|e] eqn:N; [|now apply make_array_err].
  destruct (make_array_ok w rs s a N B) as (o & E1 & E2 & E3 & _). exists (add_array w o). rewrite E1.
  split; [reflexivity|]. split; [reflexivity|]. split; [cbn; rewrite app_length; cbn; unfold n; lia|].
  split; [unfold n; rewrite array_at_new; exact E2|]. split; [exact E3|]. intros j Hj. now apply array_at_old.
Qed.
Print Assumptions C124_construct.

(** A copy shows what [copy_array] says (C08), has sensors no other array has, and
    leaves the others as they are. *)
Theorem C124_copy : forall l i, let w := run empty_memory l in
  i < length (arrays w) -> let n := length (arrays w) in
  match copy_array (seen w i) with
  | Ok a => exists w', perform w (CopyArray i) = (w', Ok tt)
      /\ length (arrays w') = S n /\ seen w' n = a
      /\ forall j, j < n -> seen w' j = seen w j /\ apart w' n j
  | Err e => perform w (CopyArray i) = (w, Err e)
  end.
Proof.
  intros l i w H n. destruct (copy_array (seen w i)) as [a|e] eqn:C; [|now apply copy_err].
  destruct (copy_ok w i a H C) as (v & o & E1 & E2 & E3 & E4). eexists. split; [exact E1|].
  split; [cbn; rewrite app_length; cbn; unfold n; lia|]. split; [exact E3|].
  intros j Hj. pose proof (history_sane l j Hj) as O. fold w in O. split.
  - rewrite seen_old by exact Hj. now apply seen_add_cells.
  - intros r R1 R2. change n with (length (arrays (add_cells w v))) in R1. rewrite array_at_new in R1.
    rewrite array_at_old in R2 by exact Hj. apply (Permutation_in r E2) in R1. apply in_seq in R1.
    destruct O as (_ & _ & B & _). specialize (B r R2). lia.
Qed.
Print Assumptions C124_copy.

(** Arrays without a common sensor never affect each other: after any interleaving of
    calls, failed ones included, an array is what its own calls make of it. *)
Theorem C124_apart : forall l j calls, let w := run empty_memory l in
  j < length (arrays w) ->
  (forall i, i < length (arrays w) -> i <> j -> In i (map fst calls) -> apart w i j) ->
  seen (run w (program calls)) j = after_calls (seen w j) (calls_on j calls).
Proof. intros l j calls w H A. apply alone_run; auto. apply history_sane. Qed.
Print Assumptions C124_apart.

(** Working on a sensor directly does to it what the method says (C01-C07), so in every
    array that refers to it, changes nothing else, and never its position. *)
Theorem C124_sensor : forall l r d outcome, let w := run empty_memory l in
  r < length (cells w) ->
  (exists st en, d = SensorTrim r st en /\ outcome = sensor_trim st en (cell w r))
    \/ (exists df, d = SensorPad r df /\ outcome = sensor_zero_pad df (cell w r))
    \/ (exists r', d = SensorAppend r r' /\ r' < length (cells w)
          /\ outcome = sensor_stack_append (cell w r) (ObjSensor (cell w r'))) ->
  let w' := fst (perform w d) in
  snd (perform w d) = snd outcome
  /\ arrays w' = arrays w
  /\ cell w' r = fst outcome
  /\ (forall t, t <> r -> cell w' t = cell w t)
  /\ sx (cell w' r) = sx (cell w r)
  /\ (forall j, ~ In r (held (array_at w j)) -> seen w' j = seen w j).
Proof.
  intros l r d outcome w H D w'.
  assert (X : perform w d = (set_cell w r (fst outcome), snd outcome) /\ sx (fst outcome) = sx (cell w r)).
  { destruct D as [(st & en & -> & ->)|[(df & -> & ->)|(r' & -> & H' & ->)]]; unfold perform; cbn [existing].
    - rewrite (proj2 (Nat.ltb_lt _ _) H). cbn [negb]. pose proof (proj1 (sensor_trim_sx st en (cell w r))) as E.
      destruct (sensor_trim _ _ _) as [s res]. auto.
    - rewrite (proj2 (Nat.ltb_lt _ _) H). cbn [negb]. pose proof (proj1 (sensor_pad_sx df (cell w r))) as E.
      destruct (sensor_zero_pad _ _) as [s res]. auto.
    - rewrite (proj2 (Nat.ltb_lt _ _) H), (proj2 (Nat.ltb_lt _ _) H'). cbn [negb andb].
      pose proof (append_sx (cell w r) (ObjSensor (cell w r'))) as E.
      destruct (sensor_stack_append _ _) as [s res]. auto. }
  destruct X as (E & S). unfold w'. rewrite E. cbn [fst snd]. split; [reflexivity|]. split; [reflexivity|].
  assert (Y : cell (set_cell w r (fst outcome)) r = fst outcome) by (rewrite set_cell_at by exact H; now rewrite Nat.eqb_refl).
  split; [exact Y|]. split; [|split].
  - intros t Ht. rewrite set_cell_at by exact H. now rewrite (proj2 (Nat.eqb_neq t r)).
  - now rewrite Y.
  - intros j K. now apply seen_set_cell.
Qed.
Print Assumptions C124_sensor.

(** A sensor that is made or copied is a new one, in no array; all else stays. *)
Theorem C124_new_sensor : forall l d outcome, let w := run empty_memory l in
  (exists a d0 x y z ns de, d = MakeSensor a d0 x y z ns de /\ outcome = new_sensor a d0 x y z ns de)
    \/ (exists r, d = CopySensor r /\ r < length (cells w) /\ outcome = copy_sensor (cell w r)) ->
  match outcome with
  | Ok s => exists w', perform w d = (w', Ok tt) /\ arrays w' = arrays w
      /\ length (cells w') = S (length (cells w)) /\ cell w' (length (cells w)) = s
      /\ (forall r, r < length (cells w) -> cell w' r = cell w r) /\ loose w' (length (cells w))
  | Err e => perform w d = (w, Err e)
  end.
Proof.
  intros l d outcome w D.
  assert (X : perform w d = match outcome with Ok s => (add_cells w [s], Ok tt) | Err e => (w, Err e) end).
  { destruct D as [(a & d0 & x & y & z & ns & de & -> & ->)|(r & -> & H & ->)]; unfold perform; cbn [existing negb];
      [|rewrite (proj2 (Nat.ltb_lt _ _) H); cbn [negb]]; match goal with |- match ?x with _ => _ end = _ => destruct x; reflexivity end. }
  rewrite X. destruct outcome as [s|e]; [|reflexivity]. exists (add_cells w [s]).
  split; [reflexivity|]. split; [reflexivity|]. split; [cbn; rewrite app_length; cbn; lia|].
  split; [unfold cell; cbn; rewrite app_nth2, Nat.sub_diag by lia; reflexivity|].
  split; [intros r Hr; now apply add_cells_at|].
  intros i Hi K. destruct (history_sane l i Hi) as (_ & _ & B & _). specialize (B _ K). unfold w in B. lia.
Qed.
Print Assumptions C124_new_sensor.

(** Records of different lengths, as sharing can leave them: the matrix has the length of
    the first record; a record of one sample fills its row; any other length is refused,
    and so is a mute. *)
Theorem C124_ragged_matrix : forall a s0 rest, sensors a = s0 :: rest ->
  ((forall s, In s (sensors a) -> length (amp (ser s)) = nsamples (ser s0) \/ length (amp (ser s)) = 1) ->
   matrix_of a false NormNone =
   Ok (map (fun s => if Nat.eqb (length (amp (ser s))) (nsamples (ser s0)) then map Fin (amp (ser s))
                     else repeat (Fin (hd 0%Qc (amp (ser s)))) (nsamples (ser s0))) (sensors a)))
  /\ ((exists s, In s (sensors a) /\ length (amp (ser s)) <> nsamples (ser s0) /\ length (amp (ser s)) <> 1) ->
      matrix_of a false NormNone = Err ValueError).
Proof. intros a s0 rest E. split; [exact (ragged_ok a s0 rest E)|exact (ragged_err a s0 rest E)]. Qed.
Print Assumptions C124_ragged_matrix.
Theorem C124_ragged_mute : forall a taper ss se s0 rest, sensors a = s0 :: rest -> dt (ser s0) <> 0%Qc ->
  match ss with Some l => slanted l | None => True end -> match se with Some l => slanted l | None => True end ->
  nsamples (ser s0) <> 1 -> (exists s, In s (sensors a) /\ length (amp (ser s)) <> nsamples (ser s0)) ->
  snd (mute a taper ss se) = Err ValueError.
Proof. exact ragged_mute. Qed.
Print Assumptions C124_ragged_mute.

(** A program that makes its arrays of sensors no other array has, and leaves the sensors
    of arrays alone, has consistent arrays (C16) that are apart, always. *)
Theorem C124_careful : forall l, careful_program empty_memory l -> let w := run empty_memory l in
  (forall i, i < length (arrays w) -> consistent (seen w i))
  /\ (forall i j, i < length (arrays w) -> j < length (arrays w) -> i <> j -> apart w i j).
Proof.
  intros l K w. destruct (settled_run l empty_memory K empty_settled) as [_ C A]. split; assumption.
Qed.
Print Assumptions C124_careful.

(** Where the sensors agree, the matrix is that of C22. *)
Theorem C124_matrix : forall a dtr norm, consistent a -> matrix_of a dtr norm = timeseriesmatrix a dtr norm.
Proof. exact matrix_agrees. Qed.
Print Assumptions C124_matrix.

(** ** A program with three sensors; the first array has the first two, the second has
    the last two, the third is a copy of the first. *)
Local Notation q n d := (Q2Qc (n # d)).
Local Definition rec (l : list Z) : list Qc := map QcZ l.
Local Definition shot (x : Z) (l : list Z) : deed := MakeSensor (rec l) (q 1 10) (QcZ x) 0%Qc 0%Qc 1 0%Qc.
Local Definition hammer : source := mkSource (QcZ (-5)) 0%Qc 0%Qc.
Definition line_up : list deed :=
  [shot 0 [1; 2; 3; 4]%Z; shot 2 [5; 6; 7; 8]%Z; shot 4 [9; 8; 7; 6]%Z; MakeArray [1; 0] hammer; MakeArray [1; 2] hammer; CopyArray 0].
Definition lengths (w : memory) (i : nat) : list nat := map (fun s => length (amp (ser s))) (sensors (seen w i)).

Example C124_line_up : let w := run empty_memory line_up in
  map held (arrays w) = [[0; 1]; [1; 2]; [3; 4]]
  /\ apart w 0 2 /\ apart w 1 2 /\ ~ apart w 0 1
  /\ careful_program empty_memory [shot 0 [1; 2; 3; 4]%Z; shot 2 [5; 6; 7; 8]%Z; MakeArray [1; 0] hammer; OnArray 0 (Trim 0 (q 1 10)); CopyArray 0].
Proof.
  assert (E : map held (arrays (run empty_memory line_up)) = [[0; 1]; [1; 2]; [3; 4]]) by (vm_compute; reflexivity).
  assert (L : forall i, held (array_at (run empty_memory line_up) i) = nth i [[0; 1]; [1; 2]; [3; 4]] []).
  { intros i. rewrite <- E. unfold array_at. symmetry. exact (map_nth held (arrays (run empty_memory line_up)) no_array i). }
  cbv zeta. split; [exact E|]. unfold apart. rewrite !L. cbn [nth In].
  split; [intros r H1 H2; lia|]. split; [intros r H1 H2; lia|].
  split; [intros A; apply (A 1); auto|].
  cbn [careful_program careful]. repeat split. intros r _ i Hi. vm_compute in Hi. lia.
Qed.

(** The English claim that an array is changed only through its own methods is false: cutting
    the second array leaves the first with records of different lengths, so that its
    matrix and its mute are refused. *)
Theorem C124_isolation_refuted : exists l i j m, let w := run empty_memory l in
  i < length (arrays w) /\ j < length (arrays w) /\ i <> j
  /\ consistent (seen w i) /\ snd (perform w (OnArray j m)) = Ok tt
  /\ let w' := fst (perform w (OnArray j m)) in
     ~ consistent (seen w' i)
     /\ matrix_of (seen w' i) false NormNone = Err ValueError
     /\ snd (perform w' (OnArray i (Mute (fun n => repeat 1%Qc n) None None))) = Err ValueError
     /\ copy_array (seen w' i) = Err ValueError.
Proof.
  exists (firstn 5 line_up), 0, 1, (Trim 0%Qc (q 1 10)). cbv zeta.
  split; [vm_compute; lia|]. split; [vm_compute; lia|]. split; [discriminate|]. split.
  { assert (K : careful_program empty_memory (firstn 4 line_up)).
    { unfold line_up. cbn [firstn careful_program careful]. repeat split. intros r _ i Hi. vm_compute in Hi. lia. }
    refine (eq_ind _ consistent (proj1 (C124_careful _ K) 0 _) _ _); vm_compute; [lia|reflexivity]. }
  split; [vm_compute; reflexivity|]. split.
  { intros (_ & _ & C).
    assert (L : lengths (fst (perform (run empty_memory (firstn 5 line_up)) (OnArray 1 (Trim 0%Qc (q 1 10))))) 0 = [4; 2]) by (vm_compute; reflexivity).
    unfold lengths in L. destruct (sensors _) as [|s [|t [|? ?]]]; cbn in L; try discriminate. injection L as L1 L2.
    destruct (C s t) as (_ & _ & _ & D); [now left|right; now left|]. rewrite L1, L2 in D. discriminate. }
  split; [vm_compute; reflexivity|]. split; vm_compute; reflexivity.
Qed.
Print Assumptions C124_isolation_refuted.
