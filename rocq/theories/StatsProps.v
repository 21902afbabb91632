(* Properties C53 to C57: the Statistics class. *)
From Verif Require Import StatsModel StatsSpec StatsProofs StatsRegionProofs StatsFillProofs NumFacts.
From Coq Require Import Permutation.
Local Open Scope nat_scope.
Local Open Scope list_scope.

Definition z (n : Z) : flt := Fin (QcZ n).

(** ** C53.  Sorting permutes the observations so that the position of the first observed
    value never decreases (a row without values counts as its number of entries, so such
    rows come last). *)
Theorem C53_sort : forall n m, rectangular n m ->
  Permutation m (sort_rows n m) /\
  (forall p q, p < q < List.length m -> lead (nth p (sort_rows n m) []) <= lead (nth q (sort_rows n m) [])).
Proof. exact sort_spec. Qed.
Print Assumptions C53_sort.
Definition unsorted : matrix := [[NaN; NaN; NaN]; [NaN; z 1; z 2]; [z 3; NaN; NaN]; [NaN; NaN; z 4]; [z 5; z 6; NaN]].
Lemma unsorted_rectangular : rectangular 3 unsorted.
Proof. intros r I. cbn in I. repeat (destruct I as [<-|I]; [reflexivity|]). destruct I. Qed.
Example C53_nonvacuous : rectangular 3 unsorted /\ map lead (sort_rows 3 unsorted) = [0; 0; 1; 2; 3].
Proof. split; [exact unsorted_rectangular|vm_compute; reflexivity]. Qed.

(** ** C54.  Dense regions. *)
(** The growth of a region always ends: the internal iteration error cannot occur. *)
Theorem C54_growth : forall n m thr, rectangular n m -> (thr <= 1)%Qc ->
  forall r0 c0, r0 < List.length m -> c0 < n -> exists r c,
    grow (List.length m) n m thr ((List.length m - r0) + (n - c0)) r0 c0 r0 c0 1 1 = Some (r, c) /\
    inside (List.length m) n ((r0, c0), (r + 1, c + 1)).
Proof. intros n m thr R T r0 c0 H1 H2. destruct (grow_start n m thr R T r0 c0 H1 H2) as (r & c & E & I & _). eauto. Qed.
Print Assumptions C54_growth.
(** The regions returned are inside the matrix, every column belongs to exactly one of them,
    each has the requested density and loses it with one more row or column. *)
Theorem C54_regions_partial : forall n m thr gs, rectangular n m -> (thr <= 1)%Qc -> 0 < List.length m -> 0 < n ->
  value m 0 0 -> identify_regions n m thr = Ok gs ->
  (forall g, In g gs -> inside (List.length m) n g /\ has_density m thr g /\ maximal n m thr g) /\
  (forall j, j < n -> exists k g, nth_error gs k = Some g /\ has_column j g /\
     forall k' g', nth_error gs k' = Some g' -> has_column j g' -> k' = k) /\
  List.length gs <= 100 /\ fst (snd (last gs ((0, 0), (0, 0)))) = List.length m.
Proof.
  intros n m thr gs R T H1 H2 V E. destruct (identify_regions_ok n m thr gs R T H1 H2 E) as (A & B & C & D).
  split; [intros g I; destruct (C V g I); auto|auto].
Qed.
Print Assumptions C54_regions_partial.
(** Missing: the first cell must hold a value.  It does after sorting, if the first column has a value. *)
Theorem C54_sorted_regions_partial : forall n m thr gs i, rectangular n m -> (thr <= 1)%Qc -> i < List.length m -> value m i 0 ->
  identify_regions n (sort_rows n m) thr = Ok gs ->
  forall g, In g gs -> inside (List.length m) n g /\ has_density (sort_rows n m) thr g.
Proof.
  intros n m thr gs i R T Hi V E g I. destruct (sort_spec n m R) as [P _].
  pose proof (rectangular_permutation n m _ P R) as R'. pose proof (sort_first n m i R Hi V) as V'.
  assert (Hn : 0 < n).
  { rewrite <- (R (nth i m [])) by now apply nth_In. unfold value, cell in V. destruct (nth i m []); [discriminate|cbn; lia]. }
  rewrite (Permutation_length P) in *. destruct (identify_regions_ok n _ thr gs R' T ltac:(lia) Hn E) as (A & B & C & D).
  split; auto. now apply C.
Qed.
Print Assumptions C54_sorted_regions_partial.
(** The only failures: IndexError, and more than 100 regions, which need more than 100 columns. *)
Theorem C54_errors : forall n m thr e, rectangular n m -> (thr <= 1)%Qc -> 0 < List.length m -> 0 < n ->
  identify_regions n m thr = Err e -> e = IndexError \/ (e = ValueError /\ 100 < n).
Proof. exact identify_regions_err. Qed.
Print Assumptions C54_errors.
(** A matrix without missing values is one region. *)
Theorem C54_complete : forall n m thr, rectangular n m -> (thr <= 1)%Qc -> 0 < List.length m -> 0 < n ->
  (forall i j, i < List.length m -> j < n -> value m i j) ->
  identify_regions n m thr = Ok [((0, 0), (List.length m, n))].
Proof. intros n m thr R T H1 H2 V. now apply full_region. Qed.
Print Assumptions C54_complete.
(** The density computed by _calc_density. *)
Theorem C54_density : forall n m r0 c0 r1 c1, rectangular n m -> inside (List.length m) n ((r0, c0), (r1, c1)) ->
  calc_density m (r0, c0) (r1 - 1, c1 - 1) = (QcN (values_in m r0 c0 r1 c1) / QcN (cells_in r0 c0 r1 c1))%Qc.
Proof. exact calc_density_spec. Qed.
Print Assumptions C54_density.
Definition banded : matrix := [[z 1; z 2; NaN; NaN]; [z 3; z 4; NaN; NaN]; [NaN; NaN; z 5; z 6]].
Example C54_nonvacuous : rectangular 4 banded /\ (Q2Qc (3 # 4) <= 1)%Qc /\ value banded 0 0 /\
  identify_regions 4 banded (Q2Qc (3 # 4)) = Ok [((0, 0), (2, 2)); ((2, 2), (3, 4))].
Proof.
  split; [intros r I; cbn in I; repeat (destruct I as [<-|I]; [reflexivity|]); destruct I|].
  split; [apply Qcleb_le; vm_compute; reflexivity|]. split; vm_compute; reflexivity.
Qed.
(** Refuted: a region without the density, when the first cell is missing. *)
Theorem C54_density_refuted : exists n m thr gs g,
  rectangular n m /\ (thr <= 1)%Qc /\ (forall j, j < n -> exists i, value m i j) /\
  identify_regions n m thr = Ok gs /\ In g gs /\ ~ has_density m thr g.
Proof.
  exists 1, [[NaN]; [z 1]], 1%Qc, [((0, 0), (2, 1))], ((0, 0), (2, 1)).
  split; [intros r I; cbn in I; repeat (destruct I as [<-|I]; [reflexivity|]); destruct I|].
  split; [apply Qcle_refl|]. split; [intros j Hj; exists 1; destruct j; [reflexivity|lia]|].
  split; [vm_compute; reflexivity|]. split; [now left|].
  intros H. cbn [has_density] in H. apply Qcleb_le in H. vm_compute in H. discriminate.
Qed.
Print Assumptions C54_density_refuted.
(** Refuted: it does not always return; IndexError for a matrix with a value in every column, sorted. *)
Theorem C54_returns_refuted : exists n m thr, rectangular n m /\ (thr <= 1)%Qc /\ value m 0 0 /\
  (forall j, j < n -> exists i, value m i j) /\ sort_rows n m = m /\ identify_regions n m thr = Err IndexError.
Proof.
  exists 1, [[z 1]; [NaN]], 1%Qc.
  split; [intros r I; cbn in I; repeat (destruct I as [<-|I]; [reflexivity|]); destruct I|].
  split; [apply Qcle_refl|]. split; [reflexivity|]. split; [intros j Hj; exists 0; destruct j; [reflexivity|lia]|].
  split; vm_compute; reflexivity.
Qed.
Print Assumptions C54_returns_refuted.
Definition diagonal (n : nat) : matrix := map (fun i => map (fun j => if Nat.eqb i j then z 1 else NaN) (seq 0 n)) (seq 0 n).
Theorem C54_many_refuted : exists n m thr, rectangular n m /\ (thr <= 1)%Qc /\ value m 0 0 /\
  (forall j, j < n -> exists i, value m i j) /\ identify_regions n m thr = Err ValueError.
Proof.
  exists 101, (diagonal 101), 1%Qc.
  assert (C : forall k j, j < k -> cell (diagonal k) j j = z 1).
  { intros k j Hj. unfold cell, diagonal. rewrite PyFacts.nth_map_seq by auto. cbn [Nat.add].
    rewrite PyFacts.nth_map_seq by auto. cbn [Nat.add]. now rewrite Nat.eqb_refl. }
  split; [intros r I; apply in_map_iff in I; destruct I as (i & <- & _); now rewrite map_length, seq_length|].
  split; [apply Qcle_refl|]. split; [unfold value; now rewrite C by lia|].
  split; [intros j Hj; exists j; unfold value; now rewrite C|]. vm_compute. reflexivity.
Qed.
Print Assumptions C54_many_refuted.

(** ** C55.  Random filling: observed values unchanged, each missing value replaced by the
    next draw, column by column, with the mean and deviation of its own column. *)
Theorem C55_fill : forall draw n m means sds k, rectangular n m -> List.length means = n -> List.length sds = n ->
  let (m', k') := fill_data draw n m means sds k in
  List.length m' = List.length m /\ rectangular n m' /\
  k' = k + missing_before m 0 n /\
  forall i j, i < List.length m -> j < n ->
    cell m' i j = if is_nan (cell m i j) then draw (k + missing_before m i j) (nth j means NaN) (nth j sds NaN) else cell m i j.
Proof. exact fill_spec. Qed.
Print Assumptions C55_fill.
Example C55_nonvacuous : rectangular 3 unsorted /\ missing_before unsorted 0 3 = 9 /\
  missing_before unsorted 2 1 = 4 /\ is_nan (cell unsorted 2 1) = true /\
  cell (fst (fill_data (fun k mu sd => Fin (QcN k)) 3 unsorted [z 0; z 0; z 0] [z 1; z 1; z 1] 0)) 2 1 = Fin (QcN 4).
Proof.
  split; [exact unsorted_rectangular|]. split; [vm_compute; reflexivity|]. split; [vm_compute; reflexivity|].
  split; vm_compute; reflexivity.
Qed.

(** ** C56.  Refuted: with a missing correlation the function raises ValueError, whatever the
    fit would be; without one it returns its input. *)
Theorem C56_outcome_refuted : forall lg pw fit xx m,
  rectangular (List.length xx) m -> (forall x, In x xx -> is_finite (lg x) = true) ->
  fill_corr lg pw fit xx m = if existsb (existsb is_nan) m then Err ValueError else Ok m.
Proof. exact fill_corr_spec. Qed.
Print Assumptions C56_outcome_refuted.
Example C56_nonvacuous : exists (lg : flt -> flt) xx m, rectangular (List.length xx) m /\
  (forall x, In x xx -> is_finite (lg x) = true) /\ existsb (existsb is_nan) m = true.
Proof.
  exists (fun x => x), [z 1; z 2], [[z 1; NaN]; [NaN; z 1]].
  split; [intros r I; cbn in I; repeat (destruct I as [<-|I]; [reflexivity|]); destruct I|].
  split; [intros x I; cbn in I; repeat (destruct I as [<-|I]; [reflexivity|]); destruct I|reflexivity].
Qed.

(** ** C57.  Refuted: no Statistics object can ever be built. *)
Theorem C57_constructor_refuted : forall xx mean stddev corr, exists e, new_statistics xx mean stddev corr = Err e.
Proof. intros. now exists TypeError. Qed.
Print Assumptions C57_constructor_refuted.
Theorem C57_suite_refuted : forall ps xx xtype ytype, exists e, stats_from_suite ps xx xtype ytype = Err e.
Proof. intros. unfold stats_from_suite. destruct (to_array ps xtype ytype xx); cbn; eauto. Qed.
Print Assumptions C57_suite_refuted.
Theorem C57_data_matrix_refuted : forall draw fsqrt lg pw fit corrcoef unset xx data op sp sc thr attempts,
  exists e, from_data_matrix draw fsqrt lg pw fit corrcoef unset xx data op sp sc thr attempts = Err e.
Proof.
  intros. unfold from_data_matrix. destruct (drop op sp sc xx data) as [xx' d]. destruct (calc_stat fsqrt _ _) as [mean sd].
  destruct (identify_regions _ _ _); cbn [bind]; [|eauto].
  destruct (replace_missing _ _ _ _ _ _ _ _ _ _); cbn [bind]; [|eauto].
  destruct (fold_left _ _ _); cbn [bind]; [|eauto].
  destruct (fill_corr _ _ _ _ _); cbn [bind]; eauto. now exists TypeError.
Qed.
Print Assumptions C57_data_matrix_refuted.
(** Even before the constructor: a region of two or more columns whose height is not its
    width cannot receive its correlation matrix. *)
Theorem C57_block_refuted : forall corrcoef c m r0 c0 r1 c1, c1 - c0 <> 1 -> r1 - r0 <> c1 - c0 ->
  corr_block corrcoef (Ok c) m ((r0, c0), (r1, c1)) = Err ValueError.
Proof.
  intros corrcoef c m r0 c0 r1 c1 N1 N2. cbn. destruct (Nat.eqb_spec (c1 - c0) 1); [contradiction|].
  destruct (Nat.eqb_spec (r1 - r0) (c1 - c0)); [contradiction|reflexivity].
Qed.
Print Assumptions C57_block_refuted.
