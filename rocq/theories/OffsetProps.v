(* Property C18 in the workflows, where the limits may be infinite. *)
From Verif Require Import ArrayModel ArraySpec ArrayProofs WorkflowModel NumFacts.
Local Open Scope nat_scope.
Local Open Scope list_scope.

(** The workflows limit the offsets as the array does. *)
Lemma offsets_loop_fin mn mx l : offsets_loop (Fin mn) (Fin mx) l = trim_offsets_loop mn mx l.
Proof. induction l as [|[o s] t IH]; [reflexivity|]. cbn [offsets_loop trim_offsets_loop flt_lt]. now rewrite IH. Qed.
Theorem C18_workflow_limits : forall a mn mx, limit_offsets a (Fin mn) (Fin mx) = trim_offsets a mn mx.
Proof. intros a mn mx. unfold limit_offsets, trim_offsets. now rewrite offsets_loop_fin. Qed.
Print Assumptions C18_workflow_limits.

(** Without a maximum (the default) exactly the receivers beyond the minimum are kept,
    wherever the source is. *)
Lemma offsets_loop_inf mn (f : sensor -> Qc) l :
  offsets_loop (Fin mn) PInf (combine (map f l) l) = filter (fun s => Qcltb mn (f s)) l.
Proof.
  induction l as [|s t IH]; [reflexivity|]. cbn [map combine offsets_loop flt_lt filter]. rewrite IH, andb_true_r. now destruct (Qcltb mn (f s)).
Qed.
Theorem C18_workflow_unlimited : forall a mn, limit_offsets a (Fin mn) PInf =
  match filter (fun s => Qcltb mn (dist a s)) (sensors a) with
  | [] => (a, Err ValueError)
  | l => (mkArray l (src a), Ok tt)
  end.
Proof.
  intros a mn. unfold limit_offsets, offsets. rewrite offsets_loop_inf.
  erewrite filter_ext; [reflexivity|]. intros s. now rewrite offset_dist.
Qed.
Print Assumptions C18_workflow_unlimited.
(** With the default minimum, zero, only a receiver at the source is dropped. *)
Theorem C18_workflow_default : forall a s, In s (sensors a) -> src_x (src a) <> sx s ->
  snd (limit_offsets a f0 PInf) = Ok tt /\
  forall t, In t (sensors (fst (limit_offsets a f0 PInf))) <-> In t (sensors a) /\ src_x (src a) <> sx t.
Proof.
  intros a s I N. unfold f0. rewrite C18_workflow_unlimited.
  assert (D : forall t, Qcltb 0 (dist a t) = true <-> src_x (src a) <> sx t).
  { intros t. rewrite Qcltb_lt. unfold dist. destruct (Qc_eq_dec (src_x (src a)) (sx t)) as [E|E].
    - rewrite E. replace (sx t - sx t)%Qc with 0%Qc by ring. rewrite (proj2 (Qcabs_0 0%Qc) eq_refl).
      split; [intros L; exfalso; now apply (Qclt_not_eq _ _ L)|congruence].
    - split; [auto|]. intros _. apply Qcnot_le_lt. intros L. apply E.
      assert (Z : Qcabs (sx t - src_x (src a)) = 0%Qc) by (apply Qcle_antisym; [exact L|apply Qcabs_nonneg]).
      apply (proj1 (Qcabs_0 _)) in Z. replace (sx t) with (src_x (src a) + (sx t - src_x (src a)))%Qc by ring. rewrite Z. ring. }
  destruct (filter (fun t => Qcltb 0 (dist a t)) (sensors a)) as [|x l] eqn:F.
  - exfalso. assert (J : In s (filter (fun t => Qcltb 0 (dist a t)) (sensors a))) by (apply filter_In; split; [exact I|now apply D]). rewrite F in J. destruct J.
  - split; [reflexivity|]. intros t. cbn [fst sensors]. rewrite <- F, filter_In, D. reflexivity.
Qed.
Print Assumptions C18_workflow_default.
Example C18_workflow_example : exists a s, In s (sensors a) /\ src_x (src a) <> sx s /\
  map (fun t => this (sx t)) (sensors (fst (limit_offsets a f0 PInf))) = [0; 2]%Q /\
  snd (limit_offsets a (Fin 0%Qc) (Fin (QcZ 3))) = Err ValueError.
Proof.
  set (s := fun x => mkSensor (mkSeries [1%Qc; QcZ 2] (Q2Qc (1 # 1000)) 1 0%Qc 1) (QcZ x) 0%Qc 0%Qc).
  exists (mkArray [s 0; s 2; s 4]%Z (mkSource (QcZ 4) 0%Qc 0%Qc)), (s 0%Z).
  split; [now left|]. split; [discriminate|]. split; vm_compute; reflexivity.
Qed.

(** ** Wherever the source is *)
Lemma abs_beyond x s mx : (mx < Qcabs (x - s))%Qc -> (s - x <= mx)%Qc -> (mx < x - s)%Qc.
Proof. unfold Qcabs. destruct (Qcltb_spec (x - s) 0); intros; qclra. Qed.
Lemma abs_ge x s : (x - s <= Qcabs (x - s))%Qc /\ (s - x <= Qcabs (x - s))%Qc.
Proof. unfold Qcabs. destruct (Qcltb_spec (x - s) 0); split; qclra. Qed.
Lemma trim_offsets_loop_exact a mn mx l : increasing (map sx l) -> Forall (fun t => (src_x (src a) - sx t <= mx)%Qc) l ->
  trim_offsets_loop mn mx (combine (map (dist a) l) l) = filter (in_range a mn mx) l.
Proof.
  unfold increasing. induction l as [|s t IH]; intros S F; [reflexivity|]. cbn [map combine trim_offsets_loop filter]. unfold in_range at 1.
  apply StronglySorted_inv in S as [S G]. apply Forall_cons_iff in F as [Fs F]. destruct (Qcltb_spec mx (dist a s)) as [L|L].
  - (* all later receivers are farther *)
    assert (E : filter (in_range a mn mx) t = []).
    { apply abs_beyond in L; [|exact Fs]. clear IH S F. induction t as [|x t IH]; [reflexivity|]. cbn [map] in G. apply Forall_cons_iff in G as [H G]. specialize (IH G).
      cbn [filter]. unfold in_range at 1. destruct (Qcltb_spec (dist a x) mx) as [M|M]; [exfalso|now rewrite andb_false_r].
      destruct (abs_ge (sx x) (src_x (src a))) as [A _]. unfold dist in M. qclra. }
    rewrite E. now destruct (Qcltb mn (dist a s) && Qcltb (dist a s) mx).
  - rewrite (IH S F). now destruct (Qcltb mn (dist a s) && Qcltb (dist a s) mx).
Qed.
(** Exactly what is kept, for every position of the source: if the first receiver of the array is
    farther than the maximum, nothing is (the loop stops there); otherwise the receivers strictly within the limits. *)
Theorem C18_exact : forall a s l mn mx, consistent a -> sensors a = s :: l ->
  trim_offsets a mn mx =
  if Qcltb mx (dist a s) then (a, Err ValueError)
  else match filter (fun t => Qcltb mn (dist a t) && Qcltb (dist a t) mx) (sensors a) with
       | [] => (a, Err ValueError)
       | l => (mkArray l (src a), Ok tt)
       end.
Proof.
  intros a s l mn mx (_ & I & _) E. unfold trim_offsets, offsets. rewrite (map_ext _ _ (offset_dist a)). destruct (Qcltb_spec mx (dist a s)) as [L|L].
  - rewrite E. cbn [map combine trim_offsets_loop]. rewrite (proj2 (Qcltb_lt mx (dist a s)) L). destruct (Qcltb_spec (dist a s) mx) as [M|M]; [exfalso; qclra|].
    now rewrite andb_false_r.
  - rewrite trim_offsets_loop_exact; [reflexivity|exact I|]. rewrite E in I |- *. cbn [map] in I. apply StronglySorted_inv in I as [_ G].
    destruct (abs_ge (sx s) (src_x (src a))) as [_ B]. unfold dist in L. assert (B' : (src_x (src a) - sx s <= mx)%Qc) by qclra.
    constructor; [exact B'|]. apply Forall_forall. intros t Ht. rewrite Forall_forall in G. specialize (G (sx t) (in_map sx l t Ht)). qclra.
Qed.
Print Assumptions C18_exact.
(* source in the middle, at the right end and beyond it *)
Example C18_exact_example : let s := fun x => mkSensor (mkSeries [1%Qc; QcZ 2] (Q2Qc (1 # 1000)) 1 0%Qc 1) (QcZ x) 0%Qc 0%Qc in
  let a := fun y => mkArray [s 0; s 2; s 4; s 6]%Z (mkSource (QcZ y) 0%Qc 0%Qc) in
  let kept := fun y mx => match trim_offsets (a y) (QcZ 0) (QcZ mx) with (b, Ok _) => map (fun t => this (sx t)) (sensors b) | _ => [] end in
  kept 3%Z 4%Z = [0; 2; 4; 6]%Q /\ kept 3%Z 2%Z = [] /\ kept 1%Z 2%Z = [0; 2]%Q /\ kept 6%Z 7%Z = [0; 2; 4]%Q.
Proof. vm_compute. auto. Qed.
