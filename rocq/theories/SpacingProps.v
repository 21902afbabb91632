(* C71: the sensor spacing of an array. *)
From Verif Require Import NumFacts SeriesModel ArrayModel ArraySpec ArrayProofs ArrayMatrixProofs WaterfallProofs SeriesProofs PyFacts SeriesProofs.
From Coq Require Import Lia.
Local Open Scope nat_scope.
Local Open Scope list_scope.

(** The gap between two neighbouring sensors. *)
Definition gap (a : array) (g : Qc) : Prop :=
  exists i s s', nth_error (sensors a) i = Some s /\ nth_error (sensors a) (S i) = Some s' /\ g = (sx s' - sx s)%Qc.
Lemma gap_diffs a g : In g (diffs (position a)) <-> gap a g.
Proof.
  rewrite diffs_spec. unfold position, gap. rewrite map_length. split.
  - intros (i & L & ->).
    destruct (nth_error (sensors a) i) as [s|] eqn:E; [|apply nth_error_None in E; lia].
    destruct (nth_error (sensors a) (S i)) as [s'|] eqn:E'; [|apply nth_error_None in E'; lia].
    exists i, s, s'. split; [exact E|]. split; [exact E'|].
    rewrite (nth_error_nth _ _ _ (map_nth_error sx _ _ E)), (nth_error_nth _ _ _ (map_nth_error sx _ _ E')). reflexivity.
  - intros (i & s & s' & E & E' & ->). exists i. split; [apply nth_error_Some; congruence|].
    rewrite (nth_error_nth _ _ _ (map_nth_error sx _ _ E)), (nth_error_nth _ _ _ (map_nth_error sx _ _ E')). reflexivity.
Qed.

(** The spacing is the smallest gap rounded to the nearest hundredth, and no gap differs
    from it by more than 0.015. *)
Theorem C71_spacing : forall a d, spacing a = Ok d ->
  (exists m k, gap a m /\ (forall g, gap a g -> (m <= g)%Qc) /\ d = (QcZ k / Q2Qc 100)%Qc /\ (Qcabs (d - m) <= Q2Qc (1 # 200))%Qc) /\
  (forall g, gap a g -> (Qcabs (g - d) <= Q2Qc (15 # 1000))%Qc).
Proof.
  intros a d H. split; [|intros g G; apply gap_diffs in G; exact (spacing_spec a d H g G)].
  assert (G := gap_diffs a). revert H. unfold spacing. destruct (diffs (position a)) as [|d0 t]; [discriminate|].
  destruct (Qcltb_spec (lmax d0 t - lmin d0 t) (Q2Qc (1 # 100))) as [L|]; [|discriminate]. intros E. injection E as <-.
  destruct (lmin_spec t d0) as (A & B & C). exists (lmin d0 t), (round_half_even (lmin d0 t * Q2Qc 100)).
  split; [apply G; destruct C as [->|C]; [now left|now right]|].
  split; [intros g Hg; apply G in Hg as [<-|Hg]; auto|]. split; [reflexivity|apply round2_near].
Qed.
Print Assumptions C71_spacing.

(** The only failure is ValueError: fewer than two sensors, or two gaps that differ by a
    hundredth or more. *)
Theorem C71_refused : forall a e, spacing a = Err e <->
  e = ValueError /\ (List.length (sensors a) < 2 \/ exists x y, gap a x /\ gap a y /\ (Q2Qc (1 # 100) <= x - y)%Qc).
Proof.
  assert (V : forall a e, spacing a = Err e -> e = ValueError).
  { intros a e. unfold spacing. destruct (diffs (position a)); [congruence|]. destruct (Qcltb _ _); congruence. }
  intros a e. destruct (spacing_errors a) as [S1 S2]. split.
  - intros H. split; [exact (V a e H)|]. destruct S1 as [L|(x & y & X & Y & D)]; [eauto|now left|].
    right. exists x, y. rewrite <- !gap_diffs. auto.
  - intros [-> H]. destruct S2 as [e' H']; [|rewrite H'; f_equal; exact (V a e' H')].
    destruct H as [L|(x & y & X & Y & D)]; [now left|]. right. exists x, y. rewrite !gap_diffs. auto.
Qed.
Print Assumptions C71_refused.

Local Definition at_ (x : Z) : sensor := mkSensor (mkSeries [] 1 1 0 1) (QcZ x) 0 0.
Example C71_example :
  match spacing (mkArray [at_ 0; at_ 2; at_ 4] (mkSource 0 0 0)) with Ok d => this d = 2%Q | Err _ => False end /\
  spacing (mkArray [at_ 0; at_ 1; at_ 3] (mkSource 0 0 0)) = Err ValueError.
Proof. vm_compute. auto. Qed.
