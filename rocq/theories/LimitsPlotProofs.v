(* Proofs about drawn resolution limits. *)
From Verif Require Import LimitsPlotModel LimitsPlotSpec PlotProofs SuiteStatProofs SuiteProps TransformModel TransformProofs NumFacts.
Local Open Scope string_scope.
Local Open Scope nat_scope.
Local Open Scope list_scope.

Lemma drawn_limits gs v xt yt attribute lim1 lim2 kws xs ys :
  create_vector gs (x_lo v) (x_hi v) 50 (x_scale v) = Ok xs ->
  create_vector gs (y_lo v) (y_hi v) 50 (y_scale v) = Ok ys ->
  supported xt attribute yt -> lim1 <> 0%Qc -> lim2 <> 0%Qc -> Forall (fun x => x <> 0%Qc) xs -> List.length xs = List.length ys ->
  exists l1 l2, plot_resolution_limits gs v xt yt attribute (Fin lim1, Fin lim2) kws = Ok ([l1; l2], false) /\
    along attribute xt yt lim1 l1 /\ along attribute xt yt lim2 l2 /\
    (xt = "frequency" -> px l1 = map Fin xs /\ px l2 = map Fin xs) /\
    (xt = "wavelength" -> py l1 = map Fin ys /\ py l2 = map Fin ys) /\
    style l1 = merge default_limit_style kws /\ style l2 = dict_set "label" KNone (merge default_limit_style kws).
Proof.
  intros Ex Ey S A B F L. destruct (C49_lines xt attribute yt lim1 lim2 xs ys S A B F L) as (l1 & l2 & E & X & Y & P1 & P2).
  unfold plot_resolution_limits. rewrite Ex, Ey. cbn [bind]. rewrite E.
  do 2 eexists. split; [reflexivity|]. repeat split; auto; cbn [px py]; try (now apply X); now apply Y.
Qed.
Lemma linear_vector gs a b : exists l, create_vector gs a b 50 "linear" = Ok l /\ evenly a b 50 l.
Proof.
  destruct (linspace_spec a b 50) as (l & E & H); [lia|]. exists l. split; [exact E|exact H].
Qed.
Lemma evenly_between a b n xs x : 2 <= n -> evenly a b n xs -> (a <= b)%Qc -> In x xs -> (a <= x <= b)%Qc.
Proof.
  intros N (L & _ & _ & V) AB I. apply (In_nth _ _ 0%Qc) in I as (i & K & <-). rewrite V by lia.
  assert (P : (0 < QcN (n - 1))%Qc) by (apply QcN_pos; lia).
  assert (Q : (QcN i <= QcN (n - 1))%Qc) by (apply QcN_le; lia). pose proof (QcN_nonneg i) as R.
  assert (T : exists t, (QcN i * (b - a) / QcN (n - 1))%Qc = (t * (b - a))%Qc /\ (0 <= t)%Qc /\ (t <= 1)%Qc).
  { exists (QcN i / QcN (n - 1))%Qc. split; [field; now apply Qcpos_neq0|]. split; [now apply Qcdiv_nonneg; auto|].
    apply Qcle_div; auto. rewrite Qcmult_1_l. exact Q. }
  destruct T as (t & -> & T0 & T1). split; qcnra.
Qed.
