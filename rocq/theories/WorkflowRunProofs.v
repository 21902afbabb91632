(* Proofs about whole workflow runs. *)
From Verif Require Import HeaderFileProofs WorkflowModel WorkflowSpec WorkflowProofs WorkflowGridProofs ArraySpec ArrayProofs
  TransformSpec TransformProofs TransformNormProofs PyFacts NumFacts.
Local Open Scope string_scope.
Local Open Scope nat_scope.
Local Open Scope list_scope.
Local Open Scope py_scope.

(** * Frequency domain: the result *)
Section Frequency.
  Variables (E : environment) (geomspace : Qc -> Qc -> Z -> result (list Qc)) (g : array -> json -> result (transform flt)) (p : arguments).
  Hypothesis Hempty : lookup "empty" (e_transforms E) = Some (empty_class geomspace).
  Hypothesis Hclass : lookup (given "fdbf" (a_transform p)) (e_transforms E) = Some (reading g).

  Lemma frequency_ok f st' o : run_frequency_domain E f (create_settings_dict p) = (st', Ok o) ->
    st' = create_settings_dict p /\
    exists f0 rest ex st e ws ts, iterate f = f0 :: rest /\ example_array E (create_settings_dict p) f0 = Ok ex /\
      wt_of (processing p) = Ok st /\ empty_from_array geomspace ex st = Ok e /\
      (forall x, In x (iterate f) -> exists a, load E (Name x) = Ok a /\ array_similar a ex = true) /\
      successive E p (started ex) (iterate f) ws /\
      Forall2 (fun w t => g (w_array w) (processing p) = Ok t) ws ts /\
      stack_many e (map of_transform ts) = (r_transform o, Ok tt) /\
      r_array o = w_array (last ws (started ex)) /\
      (if given false (a_snr p) then exists w, perform E (ratio p) (last ws (started ex)) = Ok w /\ r_snr o = w_snr w else r_snr o = None).
  Proof.
    intros H. unfold run_frequency_domain in H. destruct (iterate f) as [|f0 rest] eqn:Ef; [discriminate|].
    change (pyget (f0 :: rest) 0) with (Ok f0) in H. cbn [bind] in H.
    destruct (example_array E (create_settings_dict p) f0) as [ex|] eqn:Ex; cbn [bind or_stop] in H; [|discriminate].
    rewrite Hempty in H. rewrite settings_created, item_processing in H. cbn [bind or_stop empty_class reading] in H.
    rewrite put_settings in H. rewrite item_processing in H.
    destruct (wt_of (processing p)) as [st|] eqn:Ew; cbn [bind or_stop] in H; [|discriminate].
    destruct (empty_from_array geomspace ex st) as [e|] eqn:Ee; cbn [bind or_stop] in H; [|discriminate].
    replace (item (processing p) "transform") with (Ok (JStr (given "fdbf" (a_transform p)))) in H by reflexivity.
    cbn [bind str] in H. rewrite Hclass in H. cbn [or_stop] in H.
    destruct (file_loop E (reading g) ex (settings p (processing p)) (started ex) e (f0 :: rest)) as [st1 [[w t]|]] eqn:Fl; [|discriminate].
    destruct (file_loop_ok E g p (processing p) ex (f0 :: rest) _ _ _ _ _ Fl) as (-> & Hs & ws & ts & S1 & S2 & S3 & S4).
    replace (item (settings p (processing p)) "signal-to-noise") with (item (create_settings_dict p) "signal-to-noise") in H by reflexivity.
    cbn [create_settings_dict item lookup String.eqb Ascii.eqb Bool.eqb bind jbool truth] in H.
    rewrite <- settings_created in H.
    destruct (given false (a_snr p)) eqn:Sn.
    - rewrite snr_act in H. destruct (perform E (ratio p) w) as [w1|] eqn:Er; cbn [bind] in H; [|discriminate].
      unfold reported_snr in H. cbn [create_settings_dict item lookup String.eqb Ascii.eqb Bool.eqb bind jbool truth] in H. rewrite Sn in H.
      destruct (w_snr w1) as [r|] eqn:Ewr; cbn [bind] in H; [|discriminate]. inversion H; subst. split; [now rewrite settings_created|].
      assert (Wa : w_array w1 = w_array (last ws (started ex))).
      { unfold ratio in Er. rewrite Sn in Er. cbn [when perform act] in Er. rewrite bind_id in Er.
        destruct (w_signal (last ws (started ex))), (w_noise (last ws (started ex))); try discriminate. destruct (snr_from_arrays _ _ _ _ _ _ _) as [[s' n'] [r'|]]; inversion Er; reflexivity. }
      exists f0, rest, ex, st, e, ws, ts. cbn [r_transform r_array r_snr]. repeat (split; [first [assumption|reflexivity]|]). exists w1. split; auto.
    - inversion H; subst. split; [now rewrite settings_created|]. exists f0, rest, ex, st, e, ws, ts. cbn [r_transform r_array r_snr].
      repeat (split; [first [assumption|reflexivity]|]). reflexivity.
  Qed.

  Lemma frequency_mean f st' o m : standard geomspace g ->
    (forall x a, In x (iterate f) -> load E (Name x) = Ok a -> like m a) ->
    run_frequency_domain E f (create_settings_dict p) = (st', Ok o) ->
    exists ex ws ts ms q, successive E p (started ex) (iterate f) ws /\
      Forall2 (fun w t => g (w_array w) (processing p) = Ok t) ws ts /\
      Forall2 (fun t mt => power t = fin mt /\ wfrq t = wfrq (r_transform o) /\ wvel t = wvel (r_transform o)) ts ms /\
      power (r_transform o) = fin q /\
      rect (Z.to_nat (given 200%Z (a_nvel p))) (List.length (wfrq (r_transform o))) q /\
      forall i j, i < Z.to_nat (given 200%Z (a_nvel p)) -> j < List.length (wfrq (r_transform o)) ->
        entry q i j = (Qcsum (map (fun mt => entry mt i j) ms) / QcN (List.length (iterate f)))%Qc.
  Proof.
    intros St Lk H. destruct (frequency_ok f st' o H) as (_ & x0 & rest & ex & st & e & ws & ts & Ef & Ex & Ew & Ee & Hs & S1 & S2 & S3 & _).
    exists ex, ws, ts.
    assert (Lx : like (effect (preparation p ++ padding p) m) ex).
    { destruct (Hs x0) as (a & La & _); [rewrite Ef; now left|]. rewrite settings_created in Ex. eapply example_like; eauto.
      eapply Lk; eauto. rewrite Ef; now left. }
    pose proof (successive_each E p m _ _ _ S1 Lk) as Lw.
    assert (X : forall w t, In w ws -> g (w_array w) (processing p) = Ok t ->
               wn t = 1%Z /\ wfrq t = wfrq e /\ wvel t = wvel e /\ exists mt, power t = map (map Fin) mt /\ rect (List.length (power e)) (List.length (wfrq e)) mt).
    { intros w t I G. apply (St (w_array w) (processing p) t st e G Ew). rewrite <- Ee. eapply empty_like; eauto. }
    assert (Y : exists ms, Forall2 (fun t mt => power t = fin mt /\ wn t = 1%Z /\ wfrq t = wfrq e /\ wvel t = wvel e) ts ms /\ Forall (rect (List.length (power e)) (List.length (wfrq e))) ms).
    { clear -S2 X. induction S2 as [|w t ws ts G F IH]; [exists []; split; constructor|]. destruct (X w t) as (A & B & C & mt & D & Rm); [now left|auto|].
      destruct IH as (ms & M & Rs); [intros; apply (X w0); auto; now right|]. exists (mt :: ms). split; constructor; auto. }
    destruct Y as (ms & M & Rt). exists ms.
    assert (Len : List.length ws = List.length (iterate f)).
    { clear -S1. revert ws S1. generalize (started ex). induction (iterate f) as [|x l IH]; intros w [|w1 ws] S; try (now destruct S); auto.
      destruct S as [_ S]. cbn. f_equal. eapply IH; eauto. }
    pose proof (Forall2_length _ _ _ S2) as L2. pose proof (Forall2_length _ _ _ M) as L3.
    (* the empty transform *)
    unfold empty_from_array in Ee. destruct (sensors ex) as [|s0 sl]; [discriminate|].
    apply bind_ok in Ee as (df & _ & Ee). apply bind_ok in Ee as (ids & _ & Ee). apply bind_ok in Ee as (fs & Tk & Ee).
    apply bind_ok in Ee as (vs & _ & Ee). inversion Ee; subst e; clear Ee.
    assert (Lf : List.length fs = List.length ids) by (unfold take in Tk; apply mapM_ok in Tk; symmetry; eapply Forall2_length; eauto).
    assert (Nv : s_nvel st = given 200%Z (a_nvel p)).
    { unfold wt_of in Ew. cbn in Ew. now inversion Ew. }
    set (nr := Z.to_nat (s_nvel st)) in *. set (nc := List.length ids) in *. rewrite <- Nv. fold nr.
    set (w0 := new_empty fs vs (repeat (repeat f0 nc) nr)) in *.
    assert (P0 : power w0 = fin (repeat (repeat 0%Qc nc) nr)).
    { assert (MR : forall {A B} (h : A -> B) x n, map h (repeat x n) = repeat (h x) n) by (intros A B h x n; induction n; cbn; congruence).
      unfold fin. cbn [power w0 new_empty]. now rewrite !MR. }
    assert (R0 : rect nr nc (repeat (repeat 0%Qc nc) nr)).
    { split; [apply repeat_length|]. intros r I. apply repeat_spec in I as ->. apply repeat_length. }
    assert (R0' : rect nr nc (power w0)).
    { split; [apply repeat_length|]. intros r I. apply repeat_spec in I as ->. apply repeat_length. }
    change (wfrq w0) with fs in Rt. rewrite (proj1 R0'), Lf in Rt.
    set (l := map (fun mt => (1%Z, mt)) ms).
    assert (Eo : map of_transform ts = others l).
    { unfold l, others. rewrite map_map. clear -M. induction M as [|t mt ts ms (A & B & _) F IH]; auto. cbn. rewrite IH. unfold of_transform. now rewrite A, B. }
    assert (Rl : forall k q, In (k, q) l -> (0 <= k)%Z /\ rect nr nc q).
    { intros k q I. unfold l in I. apply in_map_iff in I as (mt & Z & I). inversion Z; subst. split; [lia|].
      rewrite Forall_forall in Rt. exact (Rt q I). }
    assert (Ms : ms <> []). { intros ->. cbn in L3. rewrite Ef in Len. cbn in Len. lia. }
    destruct (stack_many_fin nr nc l w0 _ P0 R0) as (w' & q & A & B & C & D & F & V & _ & En).
    - cbn; lia.
    - auto.
    - unfold l. destruct ms; [congruence|]. cbn. lia.
    - rewrite <- Eo, S3 in A. inversion A; subst w'. exists q.
      rewrite F. cbn [wfrq w0 new_empty]. rewrite Lf. fold nc.
      split; auto. split; auto. split.
      { rewrite V. cbn [wvel w0 new_empty]. clear -M. induction M as [|t mt ts ms (A & _ & B & C) G IH]; constructor; auto. }
      split; auto. split; auto. intros i j Hi Hj. rewrite En by auto.
      assert (Tl : total l = Z.of_nat (List.length (iterate f))).
      { unfold total, l. rewrite map_map. cbn [fst]. rewrite <- Len, L2, L3. clear. induction ms; auto. cbn [map fold_right List.length]. rewrite IHms. lia. }
      rewrite Tl. cbn [w0 new_empty wn Z.add]. rewrite QcZ_0. f_equal.
      unfold wsum, l. rewrite map_map. cbn [fst snd]. rewrite (map_ext _ (fun mt => entry mt i j)); [ring|]. intros mt. change (QcZ 1) with 1%Qc. ring.
  Qed.
End Frequency.
