(* Proofs about the agreement of the workflows on one file. *)
From Verif Require Import HeaderFileProofs DetrendProofs WorkflowModel WorkflowSpec WorkflowOneSpec WorkflowProofs WorkflowGridProofs WorkflowRunProofs
  WorkflowSnrProofs ArraySpec ArrayProofs ArrayMatrixProofs TransformSpec TransformProofs TransformNormProofs ImageProofs PyFacts NumFacts.
Local Open Scope string_scope.
Local Open Scope nat_scope.
Local Open Scope list_scope.
Local Open Scope py_scope.

(** * Loaded files are alike *)
Lemma from_trace_multiple tr mx my s : from_trace tr mx my = Ok s -> multiple (ser s) = 1%Z.
Proof.
  assert (N : forall a d x y z ns de, new_sensor a d x y z ns de = Ok s -> multiple (ser s) = 1%Z).
  { intros a d x y z ns de H. unfold new_sensor in H. apply bind_ok in H as (v & V & H). inversion H; subst. cbn.
    unfold new_series in V. destruct (_ <=? _)%Z; [discriminate|]. destruct (Qcltb _ _); inversion V; reflexivity. }
  unfold from_trace, from_trace_seg2, from_trace_su, from_trace_plain. destruct (t_header tr); intros H; try discriminate.
  - eapply N; eauto.
  - apply bind_ok in H as (u & _ & H). apply bind_ok in H as (v & _ & H). eapply N; eauto.
  - apply bind_ok in H as (u & _ & H). apply bind_ok in H as (v & _ & H). eapply N; eauto.
Qed.
Lemma load_like E x a : load E (Name x) = Ok a -> exists m, like m a.
Proof.
  intros H. unfold load in H. pose proof (from_files_base _ _ _ _ _ _ H) as ((N & _ & A) & _).
  assert (M : forall s, In s (sensors a) -> multiple (ser s) = 1%Z).
  { unfold from_files in H. apply bind_ok in H as (st & R & H). apply bind_ok in H as (ss & Ms & H).
    destruct (rev st) as [|tr r]; [discriminate|]. destruct (fmt_of (t_header tr)) as [f|]; [|discriminate].
    apply bind_ok in H as (so & _ & H). apply bind_ok in H as (b & B & H). cbn [stack_files] in H. inversion H; subst b.
    apply new_array_spec in B as (_ & P & _). intros s I. apply (Permutation_in _ P) in I. apply mapM_ok in Ms.
    clear -Ms I. induction Ms as [|t s' l1 l2 Q F IH]; [destruct I|]. destruct I as [<-|I]; [eapply from_trace_multiple; eauto|auto]. }
  destruct (sensors a) as [|s0 l] eqn:E0; [congruence|]. exists s0. split; [rewrite E0; discriminate|]. rewrite E0. intros s I.
  destruct (A s0 s (or_introl eq_refl) I) as (D & _ & De & L). repeat split; auto. rewrite !M; auto. now left.
Qed.

(** * Steps on arrays that are alike *)
Lemma for_each_all (f : sensor -> sensor * result unit) m a :
  (forall s t, alike s t -> snd (f s) = snd (f t) /\ alike (fst (f s)) (fst (f t))) -> like m a ->
  snd (f m) = Ok tt -> exists l, for_each f (sensors a) = (l, Ok tt).
Proof.
  intros H (_ & G) M. induction (sensors a) as [|s l IH]; cbn [for_each]; [eauto|].
  destruct (H m s (G s (or_introl eq_refl))) as (R & _). destruct (f s) as [s' r]. cbn in R. rewrite <- R, M.
  destruct IH as (l' & ->); [intros t I; apply G; now right|]. eauto.
Qed.
Lemma for_each_one (f : sensor -> sensor * result unit) m a l :
  (forall s t, alike s t -> snd (f s) = snd (f t) /\ alike (fst (f s)) (fst (f t))) -> like m a ->
  for_each f (sensors a) = (l, Ok tt) -> snd (f m) = Ok tt.
Proof.
  intros H (N & G) E. apply for_each_ok in E. destruct E as [|s s' k k' Q F]; [congruence|].
  destruct (H m s (G s (or_introl eq_refl))) as (R & _). now rewrite R, Q.
Qed.
Lemma trim_transfer m a b st en a' : like m a -> like m b -> array_trim a st en = (a', Ok tt) -> exists b', array_trim b st en = (b', Ok tt).
Proof.
  intros La Lb H. unfold array_trim in *. destruct (for_each _ (sensors a)) as [l r] eqn:E. inversion H; subst r.
  pose proof (for_each_one _ m a l (trim_alike st en) La E) as M.
  destruct (for_each_all _ m b (trim_alike st en) Lb M) as (k & ->). eauto.
Qed.
Lemma pad_transfer m a b df a' : like m a -> like m b -> array_zero_pad a df = (a', Ok tt) -> exists b', array_zero_pad b df = (b', Ok tt).
Proof.
  intros La Lb H. unfold array_zero_pad in *. destruct (for_each _ (sensors a)) as [l r] eqn:E. inversion H; subst r.
  pose proof (for_each_one _ m a l (pad_alike df) La E) as M.
  destruct (for_each_all _ m b (pad_alike df) Lb M) as (k & ->). eauto.
Qed.

(** * Performing the steps *)
Lemma act_array_lines E o w w' : act E o w = Ok w' ->
  match o with SignalToNoise _ _ _ _ => True | _ => w_snr w' = w_snr w end /\
  match o with MutePicked _ => w_lines w' <> None | _ => w_lines w' = w_lines w end /\
  match o with SelectNoise _ _ => w_noise w' <> None | SignalToNoise _ _ _ _ => True | _ => w_noise w' = w_noise w end /\
  match o with SelectSignal _ _ => w_signal w' <> None | SignalToNoise _ _ _ _ => True | _ => w_signal w' = w_signal w end.
Proof.
  intros H. destruct o; cbn [act] in H.
  - destruct (source_inside _); inversion H; subst; auto.
  - apply on_array_ok in H as (a & _ & ->). auto.
  - inversion H; subst; auto.
  - destruct (w_noise w) eqn:Q; [inversion H; subst; repeat split; congruence|]. apply bind_ok in H as (c & _ & H). apply bind_ok in H as (d & _ & H). inversion H; subst. repeat split; discriminate.
  - apply on_array_ok in H as (a & _ & ->). auto.
  - destruct (w_lines w) eqn:Q; [apply on_array_ok in H as (a & _ & ->); repeat split; cbn; congruence|].
    destruct (String.eqb _ _); [|discriminate]. apply bind_ok in H as (c & _ & H). apply bind_ok in H as (d & _ & H). inversion H; subst. repeat split; discriminate.
  - destruct (w_signal w) eqn:Q; [inversion H; subst; repeat split; congruence|]. apply bind_ok in H as (c & _ & H). apply bind_ok in H as (d & _ & H). inversion H; subst. repeat split; discriminate.
  - repeat split. destruct (w_signal w), (w_noise w); try discriminate. destruct (snr_from_arrays _ _ _ _ _ _ _) as [[s' n'] [r|e]]; inversion H; reflexivity.
  - apply on_array_ok in H as (a & _ & ->). auto.
  - apply on_array_ok in H as (a & _ & ->). auto.
Qed.
Lemma ratio_padding E p w w' : perform E (ratio p ++ padding p) w = Ok w' <-> exists w1, perform E (padding p) w = Ok w1 /\ perform E (ratio p) w1 = Ok w'.
Proof.
  unfold ratio, padding. destruct (given false (a_snr p)), (given false (a_pad p)); cbn [when app perform]; rewrite ?bind_id.
  - set (df := given 1%Qc (a_df p)). cbn [act]. split.
    + intros H. apply bind_ok in H as (w1 & H1 & H). rewrite bind_id in H. apply on_array_ok in H as (a & Ea & ->).
      destruct (w_signal w) as [s|] eqn:Qs, (w_noise w) as [n|] eqn:Qn; try discriminate.
      destruct (snr_from_arrays _ _ _ _ _ _ _) as [[s' n'] [r|e]] eqn:Q; inversion H1; subst w1. cbn [set_snr w_array] in Ea.
      exists (set_array w a). rewrite ?bind_id. unfold on_array. rewrite Ea. cbn [changed bind set_array w_signal w_noise]. rewrite Qs, Qn, Q. split; reflexivity.
    + intros (w1 & H1 & H). rewrite ?bind_id in H1, H. apply on_array_ok in H1 as (a & Ea & ->). cbn [set_array w_signal w_noise] in H.
      destruct (w_signal w) as [s|] eqn:Qs, (w_noise w) as [n|] eqn:Qn; try discriminate.
      destruct (snr_from_arrays _ _ _ _ _ _ _) as [[s' n'] [r|e]] eqn:Q; inversion H; subst w'. cbn [bind]. rewrite ?bind_id. unfold on_array. cbn [set_snr w_array]. rewrite Ea. reflexivity.
  - split; [intros H; exists w; split; [reflexivity|now rewrite ?bind_id]|]. intros (w1 & H1 & H). inversion H1; subst. now rewrite ?bind_id in H.
  - split; [intros H; exists w'; split; [now rewrite ?bind_id|reflexivity]|]. intros (w1 & H1 & H). rewrite ?bind_id in H1. now inversion H; subst.
  - split; [intros H; inversion H; eauto|]. intros (w1 & H1 & H). now inversion H1; inversion H; subst.
Qed.
(** Once more on the same array: lines and windows are kept. *)
Definition extends (v w : wf) : Prop :=
  (forall l, w_lines w = Some l -> w_lines v = Some l) /\ (w_noise w <> None -> w_noise v <> None) /\ (w_signal w <> None -> w_signal v <> None).
Definition plain (o : action) : Prop := match o with SignalToNoise _ _ _ _ | Correlate _ _ _ _ => False | _ => True end.
Lemma act_extends E o w w' : plain o -> act E o w = Ok w' -> extends w' w.
Proof.
  intros P H. unfold extends. destruct o; cbn [act plain] in *; try contradiction.
  - destruct (source_inside _); inversion H; subst; auto.
  - apply on_array_ok in H as (a & _ & ->). auto.
  - inversion H; subst; auto.
  - destruct (w_noise w) eqn:Q; [inversion H; subst; rewrite ?Q; auto|]. apply bind_ok in H as (c & _ & H). apply bind_ok in H as (d & _ & H). inversion H; subst. cbn. repeat split; auto; discriminate.
  - apply on_array_ok in H as (a & _ & ->). auto.
  - destruct (w_lines w) eqn:Q; [apply on_array_ok in H as (a & _ & ->); cbn; rewrite Q; auto|].
    destruct (String.eqb _ _); [|discriminate]. apply bind_ok in H as (c & _ & H). apply bind_ok in H as (d & _ & H). inversion H; subst. cbn. repeat split; auto; discriminate.
  - destruct (w_signal w) eqn:Q; [inversion H; subst; rewrite ?Q; auto|]. apply bind_ok in H as (c & _ & H). apply bind_ok in H as (d & _ & H). inversion H; subst. cbn. repeat split; auto; discriminate.
  - apply on_array_ok in H as (a & _ & ->). auto.
Qed.
Lemma extends_trans u v w : extends u v -> extends v w -> extends u w.
Proof. unfold extends. intuition. Qed.
Lemma perform_extends E l : Forall plain l -> forall w w', perform E l w = Ok w' -> extends w' w.
Proof.
  induction 1 as [|o l P F IH]; intros w w' H; cbn [perform] in H; [inversion H; subst; unfold extends; auto|].
  apply bind_ok in H as (w1 & H1 & H). eapply extends_trans; [eapply IH; eauto|]. eapply act_extends; eauto.
Qed.
Lemma act_repeat E o v w w' : plain o -> act E o w = Ok w' -> extends v w' -> act E o (set_array v (w_array w)) = Ok (set_array v (w_array w')).
Proof.
  intros P H (X1 & X2 & X3). destruct o; cbn [act plain] in *; try contradiction; cbn [set_array w_array w_lines w_noise w_signal].
  - destruct (source_inside _); inversion H; subst; auto.
  - apply on_array_ok in H as (a & -> & ->). reflexivity.
  - inversion H; subst; reflexivity.
  - assert (N : w_noise w' <> None /\ w_array w' = w_array w).
    { destruct (w_noise w) eqn:Q; [inversion H; subst; split; congruence|]. apply bind_ok in H as (c & _ & H). apply bind_ok in H as (d & _ & H). inversion H; subst. split; [discriminate|reflexivity]. }
    destruct N as (N & ->). apply X2 in N. destruct (w_noise v) eqn:Q; [|congruence]. reflexivity.
  - apply on_array_ok in H as (a & -> & ->). reflexivity.
  - assert (L : exists l a, w_lines w' = Some l /\ mute (w_array w) (e_taper E default_window) (Some (fst l)) (Some (snd l)) = (a, Ok tt) /\ w_array w' = a).
    { destruct (w_lines w) as [l|] eqn:Q.
      - apply on_array_ok in H as (a & Ea & ->). exists l, a. auto.
      - destruct (String.eqb _ _); [|discriminate]. apply bind_ok in H as (l & _ & H). apply bind_ok in H as (a & Ea & H). apply changed_ok in Ea. inversion H; subst. exists l, a. auto. }
    destruct L as (l & a & L & M & ->). rewrite (X1 l L). unfold on_array. rewrite M. reflexivity.
  - assert (N : w_signal w' <> None /\ w_array w' = w_array w).
    { destruct (w_signal w) eqn:Q; [inversion H; subst; split; congruence|]. apply bind_ok in H as (c & _ & H). apply bind_ok in H as (d & _ & H). inversion H; subst. split; [discriminate|reflexivity]. }
    destruct N as (N & ->). apply X3 in N. destruct (w_signal v) eqn:Q; [|congruence]. reflexivity.
  - apply on_array_ok in H as (a & -> & ->). reflexivity.
Qed.
Lemma perform_repeat E l v : Forall plain l -> forall w w', perform E l w = Ok w' -> extends v w' ->
  perform E l (set_array v (w_array w)) = Ok (set_array v (w_array w')).
Proof.
  induction 1 as [|o l P F IH]; intros w w' H X; cbn [perform] in *; [now inversion H; subst|].
  apply bind_ok in H as (w1 & H1 & H). rewrite (act_repeat E o v w w1 P H1).
  - cbn [bind]. now apply IH.
  - eapply extends_trans; [exact X|]. eapply perform_extends; eauto.
Qed.
Lemma steps_plain p : Forall plain (preparation p ++ padding p).
Proof.
  unfold preparation, padding. apply Forall_forall. intros o I. rewrite !in_app_iff in I.
  destruct (given false (a_snr p)), (given false (a_trim p)), (given false (a_mute p)), (given false (a_pad p)); cbn in I; intuition (subst; exact Logic.I).
Qed.
Lemma perform_again E p a w0 w1 :
  perform E (preparation p ++ padding p) (set_array w0 a) = Ok w1 -> perform E (preparation p ++ padding p) (set_array w1 a) = Ok w1.
Proof.
  intros H. pose proof (perform_repeat E _ w1 (steps_plain p) _ _ H) as R. cbn [set_array w_array] in R.
  rewrite R.
  - now destruct w1.
  - unfold extends; auto.
Qed.

Lemma act_snr E o w w' : plain o -> act E o w = Ok w' -> w_snr w' = w_snr w.
Proof. intros P H. apply act_array_lines in H as (H & _). destruct o; auto; contradiction. Qed.
Lemma perform_snr E l : Forall plain l -> forall w w', perform E l w = Ok w' -> w_snr w' = w_snr w.
Proof.
  induction 1 as [|o l P F IH]; intros w w' H; cbn [perform] in H; [now inversion H; subst|].
  apply bind_ok in H as (w1 & H1 & H). rewrite (IH _ _ H). eapply act_snr; eauto.
Qed.
Lemma successive_repeat E p x n : forall w ws, successive E p w (repeat x (S n)) ws ->
  exists a w1, load E (Name x) = Ok a /\ perform E (preparation p ++ padding p) (set_array w a) = Ok w1 /\ ws = repeat w1 (S n).
Proof.
  induction n as [|n IH]; intros w [|w1 ws] H; cbn [repeat successive] in H; try contradiction; destruct H as ((a & L & P) & H).
  - destruct ws; [|contradiction]. exists a, w1. auto.
  - destruct (IH w1 ws H) as (a' & w2 & L' & P' & ->). assert (a' = a) by congruence. subst a'.
    rewrite (perform_again E p a w w1 P) in P'. inversion P'; subst w2. exists a, w1. auto.
Qed.
Lemma loop_repeat E g p proc ex x a w1 t : load E (Name x) = Ok a -> array_similar a ex = true -> g (w_array w1) proc = Ok t ->
  forall k w run t', perform E (preparation p ++ padding p) (set_array w a) = Ok w1 -> stack_many run (repeat (of_transform t) (S k)) = (t', Ok tt) ->
  file_loop E (reading g) ex (settings p proc) w run (repeat x (S k)) = (settings p proc, Ok (w1, t')).
Proof.
  intros L S G. induction k as [|k IH]; intros w run t' P H.
  - cbn [repeat file_loop]. rewrite file_act, L. cbn [bind or_stop]. rewrite S. cbn [negb]. rewrite P. cbn [bind or_stop]. rewrite item_processing. cbn [bind or_stop reading].
    rewrite G. cbn [bind]. rewrite put_settings. cbn [repeat stack_many] in H.
    destruct (stack run (of_transform t)) as [s [[]|e]]; inversion H; subst. reflexivity.
  - change (repeat x (Datatypes.S (Datatypes.S k))) with (x :: repeat x (Datatypes.S k)).
    change (repeat (of_transform t) (Datatypes.S (Datatypes.S k))) with (of_transform t :: repeat (of_transform t) (Datatypes.S k)) in H.
    cbn [file_loop]. rewrite file_act, L. cbn [bind or_stop]. rewrite S. cbn [negb]. rewrite P. cbn [bind or_stop]. rewrite item_processing. cbn [bind or_stop reading].
    rewrite G. cbn [bind]. rewrite put_settings. cbn [stack_many] in H.
    destruct (stack run (of_transform t)) as [s [[]|e]]; [|discriminate]. cbn [or_stop].
    apply IH; auto. eapply perform_again; eauto.
Qed.
Lemma stack_one geomspace g a b proc st e t m n : standard geomspace g -> like m a -> like m b ->
  g a proc = Ok t -> wt_of proc = Ok st -> empty_from_array geomspace b st = Ok e ->
  stack_many e (repeat (of_transform t) (S n)) = (after_files (S n) t, Ok tt).
Proof.
  intros Sd La Lb G W Ee. pose proof Ee as Ea. rewrite (empty_like geomspace m b a st Lb La) in Ea.
  destruct (Sd a proc t st e G W Ea) as (N & F & V & mt & P & R1 & R2).
  unfold empty_from_array in Ee. destruct (sensors b) as [|s0 sl]; [discriminate|].
  apply bind_ok in Ee as (df & _ & Ee). apply bind_ok in Ee as (ids & _ & Ee). apply bind_ok in Ee as (fs & Tk & Ee).
  apply bind_ok in Ee as (vs & _ & Ee). inversion Ee; subst e; clear Ee Ea.
  assert (Lf : List.length fs = List.length ids) by (unfold take in Tk; apply mapM_ok in Tk; symmetry; eapply Forall2_length; eauto).
  set (nr := Z.to_nat (s_nvel st)) in *. set (nc := List.length ids) in *.
  set (w0 := new_empty fs vs (repeat (repeat f0 nc) nr)) in *.
  assert (P0 : power w0 = fin (repeat (repeat 0%Qc nc) nr)).
  { assert (MR : forall {A B} (h : A -> B) x n, map h (repeat x n) = repeat (h x) n) by (intros A B h x k; induction k; cbn; congruence).
    unfold fin. cbn [power w0 new_empty]. now rewrite !MR. }
  assert (R0 : rect nr nc (repeat (repeat 0%Qc nc) nr)).
  { split; [apply repeat_length|]. intros r I. apply repeat_spec in I as ->. apply repeat_length. }
  assert (Rm : rect nr nc mt).
  { split; [rewrite R1; unfold w0; cbn; apply repeat_length|]. intros r I. rewrite (R2 r I). cbn. exact Lf. }
  set (l := repeat (1%Z, mt) (S n)).
  assert (Eo : repeat (of_transform t) (S n) = others l).
  { unfold l, others. assert (MR : forall {A B} (h : A -> B) x n, map h (repeat x n) = repeat (h x) n) by (intros A B h x k; induction k; cbn; congruence).
    rewrite MR. f_equal. unfold of_transform. now rewrite P, N. }
  destruct (stack_many_fin nr nc l w0 _ P0 R0) as (w' & q & A & B & C & D & Fq & Vq & Tq & En).
  - cbn; lia.
  - intros k q I. unfold l in I. apply repeat_spec in I. inversion I; subst. split; [lia|exact Rm].
  - unfold l. cbn. lia.
  - rewrite Eo, A. f_equal. unfold after_files.
    assert (Tl : total l = Z.of_nat (S n)).
    { unfold l. clear. induction n as [|n IH]; [reflexivity|]. change (repeat (1%Z, mt) (S (S n))) with ((1%Z, mt) :: repeat (1%Z, mt) (S n)).
      unfold total in *. cbn [map fold_right fst]. cbn [map fold_right fst] in IH. rewrite IH. lia. }
    assert (Ws : forall i j, wsum l i j = (QcZ (Z.of_nat (S n)) * entry mt i j)%Qc).
    { intros i j. unfold l. clear. induction n as [|n IH]; [unfold wsum; cbn [repeat map Qcsum fold_right fst snd]; change (Z.of_nat 1) with 1%Z; rewrite QcZ_1; ring|]. change (repeat (1%Z, mt) (S (S n))) with ((1%Z, mt) :: repeat (1%Z, mt) (S n)).
      unfold wsum in *. rewrite map_cons. cbn [fst snd]. rewrite Nat2Z.inj_succ. unfold Z.succ. rewrite QcZ_add.
      match goal with |- context [Qcsum (?u :: ?v)] => change (Qcsum (u :: v)) with (u + Qcsum v)%Qc end. rewrite IH. change (QcZ 1) with 1%Qc. ring. }
    assert (Q : q = mt).
    { apply (rect_ext nr nc); auto. intros i j Hi Hj. rewrite En by auto. rewrite Tl, Ws. cbn [w0 new_empty wn Z.add]. rewrite QcZ_0.
      field. intros Z. apply (f_equal this) in Z. revert Z. change 0%Qc with (QcZ 0). intros Z. assert (Y : QcZ (Z.of_nat (S n)) = QcZ 0) by (apply Qc_is_canon; now rewrite Z).
      apply QcZ_inj in Y. lia. }
    destruct w' as [wn' wf' wv' wp' wa']. cbn [wn wfrq wvel power to_abs] in *. subst. rewrite P, F, V, Tl. reflexivity.
Qed.

(** What the example of the frequency-domain workflow sees of the steps. *)
Fixpoint quiet (l : list action) (b : array) : result array :=
  match l with
  | [] => Ok b
  | TrimTime s e :: l => do b <- changed (array_trim b s e); quiet l b
  | PadRecords d :: l => do b <- changed (array_zero_pad b d); quiet l b
  | _ :: l => quiet l b
  end.
Lemma for_each_length {A} (f : A -> A * result unit) l l' r : for_each f l = (l', r) -> List.length l' = List.length l.
Proof.
  revert l' r. induction l as [|s l IH]; intros l' r H; cbn [for_each] in H; [inversion H; reflexivity|].
  destruct (f s) as [s' [u|e]]; [|inversion H; reflexivity]. destruct (for_each f l) as [k q]. inversion H; subst. cbn. f_equal. eapply IH; eauto.
Qed.
Lemma trim_shape a s e a' r : array_trim a s e = (a', r) -> src a' = src a /\ List.length (sensors a') = List.length (sensors a).
Proof. unfold array_trim. destruct (for_each _ _) as [l q] eqn:F. intros H. inversion H; subst. cbn. split; [reflexivity|]. eapply for_each_length; eauto. Qed.
Lemma pad_shape a d a' r : array_zero_pad a d = (a', r) -> src a' = src a /\ List.length (sensors a') = List.length (sensors a).
Proof. unfold array_zero_pad. destruct (for_each _ _) as [l q] eqn:F. intros H. inversion H; subst. cbn. split; [reflexivity|]. eapply for_each_length; eauto. Qed.
Lemma quiet_ok E l : no_correlation l -> forall w w' m b, perform E l w = Ok w' -> like m (w_array w) -> like m b ->
  exists b', quiet l b = Ok b' /\ src b' = src b /\ List.length (sensors b') = List.length (sensors b).
Proof.
  induction l as [|o l IH]; intros NC w w' m b H La Lb; cbn [perform quiet] in *; [eauto|].
  apply bind_ok in H as (w1 & H1 & H).
  assert (NC' : no_correlation l) by (intros sa sd vl vh I; eapply NC; right; eauto).
  assert (L1 : like (act_effect o m) (w_array w1)) by (eapply act_like; eauto; intros sa sd vl vh ->; eapply NC; left; eauto).
  assert (Same : act_effect o m = m -> exists b', quiet l b = Ok b' /\ src b' = src b /\ List.length (sensors b') = List.length (sensors b)).
  { intros Q. rewrite Q in L1. eapply IH; eauto. }
  destruct o; try (apply Same; reflexivity).
  - cbn [act] in H1. apply on_array_ok in H1 as (a' & T & ->). destruct (trim_transfer m _ b _ _ _ La Lb T) as (b1 & Tb). rewrite Tb. cbn [changed bind].
    destruct (trim_shape _ _ _ _ _ Tb) as (Q1 & Q2). rewrite <- Q1, <- Q2. eapply IH; eauto. eapply array_trim_like; eauto.
  - cbn [act] in H1. apply on_array_ok in H1 as (a' & T & ->). destruct (pad_transfer m _ b _ _ La Lb T) as (b1 & Tb). rewrite Tb. cbn [changed bind].
    destruct (pad_shape _ _ _ _ Tb) as (Q1 & Q2). rewrite <- Q1, <- Q2. eapply IH; eauto. eapply array_pad_like; eauto.
Qed.
Lemma quiet_example E p x a : load E (Name x) = Ok a -> example_array E (create_settings_dict p) x = quiet (preparation p ++ padding p) (array_detrend a).
Proof.
  intros L. unfold example_array. rewrite L. cbn [bind].
  cbn [create_settings_dict item lookup String.eqb Ascii.eqb Bool.eqb bind jbool truth jnum WorkflowModel.num].
  unfold preparation, padding. destruct (given false (a_trim p)), (given false (a_pad p)), (given false (a_snr p)), (given false (a_mute p)); cbn [when app quiet bind]; rewrite ?bind_id; try reflexivity;
    destruct (changed (array_trim _ _ _)); cbn [bind]; rewrite ?bind_id; reflexivity.
Qed.

Section One.
  Variables (E : environment) (geomspace : Qc -> Qc -> Z -> result (list Qc)) (g : array -> json -> result (transform flt)) (p : arguments).
  Hypothesis Hempty : lookup "empty" (e_transforms E) = Some (empty_class geomspace).
  Hypothesis Hclass : lookup (given "fdbf" (a_transform p)) (e_transforms E) = Some (reading g).
  Hypothesis Hstd : standard geomspace g.
  Hypothesis Haxes : needs_axes geomspace g.
  Let st := create_settings_dict p.

  Lemma time_of_steps x a w1 w2 t : load E (Name x) = Ok a -> perform E (preparation p ++ padding p) (started a) = Ok w1 ->
    perform E (ratio p) w1 = Ok w2 -> g (w_array w2) (processing p) = Ok t ->
    run_time_domain E (Name x) st = (st, Ok (mkOutcome t (w_array w2) (w_snr w2))).
  Proof.
    intros L P R G. unfold st. rewrite time_domain_result, L. cbn [bind].
    assert (Q : perform E (plan p) (started a) = Ok w2).
    { unfold plan. rewrite perform_app in *. apply bind_ok in P as (w0 & P0 & P). rewrite P0. cbn [bind]. apply ratio_padding. eauto. }
    rewrite Q, Hclass. cbn [reading]. rewrite G. reflexivity.
  Qed.
  Lemma ratio_array w w' : perform E (ratio p) w = Ok w' -> w_array w' = w_array w.
  Proof.
    unfold ratio. destruct (given false (a_snr p)); cbn [when perform act]; intros H; [|now inversion H].
    rewrite bind_id in H. destruct (w_signal w), (w_noise w); try discriminate. destruct (snr_from_arrays _ _ _ _ _ _ _) as [[s' n'] [r|e]]; inversion H; reflexivity.
  Qed.
  Lemma last_repeat {A} (a d : A) n : last (repeat a (S n)) d = a.
  Proof. induction n as [|n IH]; [reflexivity|]. change (last (repeat a (S (S n))) d) with (last (repeat a (S n)) d). exact IH. Qed.

  Lemma frequency_to_time x n s o : run_frequency_domain E (Names (repeat x (S n))) st = (s, Ok o) ->
    exists t, run_time_domain E (Name x) st = (s, Ok (mkOutcome t (r_array o) (r_snr o))) /\ r_transform o = after_files (S n) t.
  Proof.
    intros H. destruct (frequency_ok E geomspace g p Hempty Hclass _ _ _ H) as (-> & x0 & rest & ex & ws0 & e & ws & ts & Ef & Ex & Ew & Ee & Hs & S1 & S2 & S3 & Sa & Sr).
    cbn [iterate] in *. destruct (successive_repeat E p x n _ _ S1) as (a & w1 & L & P & ->).
    change (set_array (started ex) a) with (started a) in P.
    assert (T : exists t, g (w_array w1) (processing p) = Ok t /\ ts = repeat t (S n)).
    { clear -S2. revert ts S2. induction n as [|n IH]; intros ts S2.
      - cbn [repeat] in S2. inversion S2 as [|? t ? l G F]; subst. inversion F; subst. eauto.
      - change (repeat w1 (S (S n))) with (w1 :: repeat w1 (S n)) in S2. inversion S2 as [|? t ? l G F]; subst. destruct (IH l F) as (t' & G' & ->).
        assert (t' = t) by congruence. subst. eauto. }
    destruct T as (t & G & ->). destruct (load_like E x a L) as (m & La).
    assert (x0 = x) by (change (repeat x (S n)) with (x :: repeat x n) in Ef; congruence). subst x0.
    assert (Lx : like (effect (preparation p ++ padding p) m) ex) by (rewrite settings_created in Ex; eapply example_like; eauto).
    assert (Lw : like (effect (preparation p ++ padding p) m) (w_array w1)) by (exact (perform_like E _ (started a) w1 m (preparation_nc p) La P)).
    assert (MR : map of_transform (repeat t (S n)) = repeat (of_transform t) (S n)) by (generalize (S n); intros k; induction k; cbn; congruence).
    rewrite MR, (stack_one geomspace g _ _ _ _ _ t _ n Hstd Lw Lx G Ew Ee) in S3. rewrite last_repeat in *. inversion S3 as [S4].
    exists t. split; [|reflexivity]. rewrite Sa.
    assert (W : exists w2, perform E (ratio p) w1 = Ok w2 /\ r_snr o = w_snr w2).
    { destruct (given false (a_snr p)) eqn:Q; [exact Sr|]. exists w1. unfold ratio. rewrite Q. split; [reflexivity|]. rewrite Sr, (perform_snr E _ (steps_plain p) _ _ P). reflexivity. }
    destruct W as (w2 & R & ->). rewrite <- (ratio_array _ _ R). apply (time_of_steps x a w1 w2 t L P R). now rewrite (ratio_array _ _ R).
  Qed.

  Lemma time_to_frequency x n s t a0 r : run_time_domain E (Name x) st = (s, Ok (mkOutcome t a0 r)) ->
    exists o, run_frequency_domain E (Names (repeat x (S n))) st = (s, Ok o).
  Proof.
    unfold st. rewrite time_domain_result. intros H.
    destruct (bind (load E (Name x)) _) as [w2|] eqn:B; [|discriminate]. apply bind_ok in B as (a & L & P).
    rewrite Hclass in H. cbn [reading] in H. destruct (g (w_array w2) (processing p)) as [t'|] eqn:G; cbn [bind] in H; inversion H; subst; clear H.
    change (replace_entry _ _ _) with (create_settings_dict p).
    unfold plan in P. rewrite perform_app in P. apply bind_ok in P as (w0 & P0 & P). apply ratio_padding in P as (w1 & P1 & P2).
    assert (P : perform E (preparation p ++ padding p) (started a) = Ok w1) by (rewrite perform_app, P0; exact P1).
    assert (G1 : g (w_array w1) (processing p) = Ok t) by (now rewrite <- (ratio_array _ _ P2)).
    destruct (load_like E x a L) as (m & La).
    destruct (quiet_ok E _ (preparation_nc p) _ _ m (array_detrend a) P La (detrend_like _ _ La)) as (ex & Q & Q1 & Q2).
    rewrite <- (quiet_example E p x a L) in Q.
    assert (Lx : like (effect (preparation p ++ padding p) m) ex) by (rewrite settings_created in Q; eapply example_like; eauto).
    assert (Lw : like (effect (preparation p ++ padding p) m) (w_array w1)) by (exact (perform_like E _ (started a) w1 m (preparation_nc p) La P)).
    destruct (Haxes _ _ _ G1) as (ws & e & W & Ee). rewrite (empty_like geomspace _ _ ex ws Lw Lx) in Ee.
    assert (Si : array_similar a ex = true).
    { unfold array_similar, nchannels. rewrite Q1, Q2. cbn [array_detrend set_sensors sensors src]. rewrite map_length, Nat.eqb_refl. apply source_eq_spec. reflexivity. }
    unfold run_frequency_domain. cbn [iterate]. change (pyget (repeat x (S n)) 0) with (Ok x). cbn [bind]. rewrite Q. cbn [bind or_stop].
    rewrite Hempty. rewrite settings_created, item_processing. cbn [bind or_stop empty_class reading].
    rewrite put_settings, item_processing, W. cbn [bind or_stop]. rewrite Ee. cbn [bind or_stop].
    replace (item (processing p) "transform") with (Ok (JStr (given "fdbf" (a_transform p)))) by reflexivity.
    cbn [bind str]. rewrite Hclass. cbn [or_stop].
    rewrite (loop_repeat E g p (processing p) ex x a w1 t L Si G1 n (started ex) e (after_files (S n) t) P (stack_one geomspace g _ _ _ _ _ t _ n Hstd Lw Lx G1 W Ee)).
    replace (item (settings p (processing p)) "signal-to-noise") with (item (create_settings_dict p) "signal-to-noise") by reflexivity.
    cbn [create_settings_dict item lookup String.eqb Ascii.eqb Bool.eqb bind jbool truth]. rewrite <- settings_created.
    destruct (given false (a_snr p)) eqn:Sn; [|eauto].
    rewrite snr_act, P2. cbn [bind]. unfold reported_snr. cbn [create_settings_dict item lookup String.eqb Ascii.eqb Bool.eqb bind jbool truth]. rewrite Sn.
    unfold ratio in P2. rewrite Sn in P2. cbn [when perform act] in P2. rewrite bind_id in P2.
    destruct (w_signal w1), (w_noise w1); try discriminate. destruct (snr_from_arrays _ _ _ _ _ _ _) as [[s' n'] [r'|]]; inversion P2; subst. cbn. eauto.
  Qed.

  Lemma one_file_agrees x n s o : run_frequency_domain E (Names (repeat x (S n))) st = (s, Ok o) <->
    exists t, run_time_domain E (Name x) st = (s, Ok (mkOutcome t (r_array o) (r_snr o))) /\ r_transform o = after_files (S n) t.
  Proof.
    split; [apply frequency_to_time|]. intros (t & T & R). destruct (time_to_frequency x n _ _ _ _ T) as (o' & F).
    destruct (frequency_to_time x n _ _ F) as (t' & T' & R'). rewrite T' in T. inversion T; subst. rewrite F. do 2 f_equal.
    destruct o, o'; cbn in *. congruence.
  Qed.
End One.
