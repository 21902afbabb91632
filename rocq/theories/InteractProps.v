(* Properties C65 and C78: interactive picking. *)
From Verif Require Import InteractModel InteractSpec InteractProofs.
Local Open Scope string_scope.
Local Open Scope nat_scope.
Local Open Scope list_scope.
Local Open Scope py_scope.

(** * C65: ginput_session *)

(** Whatever the user does, if the session returns: the points are the last clicks of the
    rounds answered so far (empty rounds skipped), at most [npts] of them, and fewer only
    if a key was pressed within 0.3 s after the last one. *)
Theorem C65_points : forall initial npts ask u xs ys u', ginput_session initial npts ask u = Returned (xs, ys) u' ->
  exists rounds pre wd stopped, clicks u = rounds ++ clicks u' /\ waits u = pre ++ wd ++ waits u' /\
    (if initial then exists idle, pre = idle ++ [Some true] /\ ~ In (Some true) idle else pre = []) /\
    combine xs ys = accepted_points rounds /\ List.length xs = List.length ys /\
    wait_log ask (List.length xs) stopped wd /\
    (if stopped then (Z.of_nat (List.length xs) <= npts)%Z else Z.of_nat (List.length xs) = Z.max 0 npts) /\
    (xs = [] -> rounds = []) /\ (xs <> [] -> exists r0 r, rounds = r0 ++ [r] /\ r <> []).
Proof. exact session_spec. Qed.
Print Assumptions C65_points.
(** It does return once enough rounds had a click and the waits were answered. *)
Theorem C65_returns : forall npts u, (npts <= Z.of_nat (List.length (accepted_points (clicks u))))%Z -> (npts <= Z.of_nat (List.length (waits u)))%Z ->
  exists r u', ginput_session false npts false u = Returned r u'.
Proof. intros npts u H W. unfold ginput_session. apply select_ends; auto; now rewrite Z.sub_0_r. Qed.
Print Assumptions C65_returns.
Local Definition p (a b : Z) : point := (QcZ a, QcZ b).
Example C65_example : exists xs ys u,
  ginput_session true 2 true (mkUser [[]; [p 1 2; p 3 4]; [p 5 6]; [p 7 8]] [None; Some false; Some true; Some true; None; Some true; Some false]) = Returned (xs, ys) u /\
  combine xs ys = [p 3 4; p 5 6] /\ u = mkUser [[p 7 8]] [].
Proof. eexists _, _, _. repeat split. Qed.

(** * C78: interactive_mute *)
Theorem C78_lines : forall a taper loc ax u a' r u', interactive_mute a taper loc ax u = Returned (a', r) u' ->
  (a' = a /\ r = Err IndexError) \/
  exists s e, (s <> None <-> loc = "before" \/ loc = "both") /\ (e <> None <-> loc = "after" \/ loc = "both") /\
    a' = fst (mute a taper s e) /\ r = (do _ <- snd (mute a taper s e); Ok (s, e)).
Proof.
  intros a taper loc ax u a' r u' H. unfold interactive_mute in H.
  destruct (pick_line ax _ u) as [|r1 u1] eqn:P1; [discriminate|].
  destruct (pick_line_ok _ _ _ _ _ P1) as [-> |(s & -> & Hs)]; [inversion H; auto|].
  destruct (pick_line ax _ u1) as [|r2 u2] eqn:P2; [discriminate|].
  destruct (pick_line_ok _ _ _ _ _ P2) as [-> |(e & -> & He)]; [inversion H; auto|].
  right. exists s, e. destruct (mute a taper s e) as [b r0]. inversion H; subst. cbn [fst snd].
  split; [|split; [|split; reflexivity]].
  - destruct (String.eqb_spec loc "before"), (String.eqb_spec loc "both"); cbn in Hs; destruct s; intuition (congruence || (exfalso; intuition discriminate)).
  - destruct (String.eqb_spec loc "after"), (String.eqb_spec loc "both"); cbn in He; destruct e; intuition (congruence || (exfalso; intuition discriminate)).
Qed.
Print Assumptions C78_lines.
(** The lines are the picked points, read according to the time axis of the plot. *)
Theorem C78_picks : forall a taper ax c1 c2 c3 c4 cl k1 k2 k3 k4 w p1 p2 p3 p4,
  accepted c1 = Some p1 -> accepted c2 = Some p2 -> accepted c3 = Some p3 -> accepted c4 = Some p4 ->
  ~ In (Some true) [k1; k2; k3; k4] ->
  let turn := fun q : point => if String.eqb ax "y" then q else (snd q, fst q) in
  let s := Some (turn p1, turn p2) in
  let e := Some (turn p3, turn p4) in
  interactive_mute a taper "both" ax (mkUser (c1 :: c2 :: c3 :: c4 :: cl) (k1 :: k2 :: k3 :: k4 :: w)) =
  Returned (fst (mute a taper s e), do _ <- snd (mute a taper s e); Ok (s, e)) (mkUser cl w).
Proof.
  intros a taper ax c1 c2 c3 c4 cl k1 k2 k3 k4 w p1 p2 p3 p4 A1 A2 A3 A4 N turn s e. cbn [In] in N. unfold interactive_mute. cbn [String.eqb Ascii.eqb Bool.eqb orb].
  rewrite (pick_two ax c1 c2 (c3 :: c4 :: cl) k1 k2 (k3 :: k4 :: w) p1 p2), (pick_two ax c3 c4 cl k3 k4 w p3 p4); auto; try (intros Q; apply N; tauto).
  assert (S : Some (if String.eqb ax "y" then (p1, p2) else ((snd p1, fst p1), (snd p2, fst p2))) = s) by (unfold s, turn; now destruct (String.eqb ax "y")).
  assert (T : Some (if String.eqb ax "y" then (p3, p4) else ((snd p3, fst p3), (snd p4, fst p4))) = e) by (unfold e, turn; now destruct (String.eqb ax "y")).
  rewrite S, T. now destruct (mute a taper s e).
Qed.
Print Assumptions C78_picks.
Example C78_example : accepted [p 1 2; p 3 4] = Some (p 3 4) /\ ~ In (Some true) [None; Some false; None; None].
Proof. split; [reflexivity|]. cbn. intuition discriminate. Qed.
(** A key within 0.3 s after the first point, although the session was started without
    asking the user to continue: IndexError instead of a second point. *)
Theorem C78_stop_refuted : forall a taper ax loc c1 cl w, loc = "before" \/ loc = "both" -> accepted c1 <> None ->
  interactive_mute a taper loc ax (mkUser (c1 :: cl) (Some true :: w)) = Returned (a, Err IndexError) (mkUser cl w).
Proof. exact mute_first_stopped. Qed.
Print Assumptions C78_stop_refuted.
