(* Property C91 (loading peaks from any JSON document), for trees of any depth. *)
From Verif Require Import PyFacts NumFacts PeaksModel PeaksSpec PeaksLoadSpec PeaksLoadProofs PeaksTreeModel PeaksTreeSpec PeaksTreeProofs PeaksLoadProps PeaksProps.
Local Open Scope string_scope.
Local Open Scope nat_scope.
Local Open Scope list_scope.

(** A dataset of any values is accepted exactly if the arrays are regular trees of numbers, or of texts that stand for numbers,
    and the mask is a regular tree; the result is the arrays it holds. *)
Theorem C91_any : forall numeral d ident p, NoDup (keys d) ->
  (tree_from_dict numeral d ident = Some p <-> holds_any numeral d ident p).
Proof. exact tree_loaded. Qed.
Print Assumptions C91_any.
(** On lists and tables it does what C91_dataset says. *)
Theorem C91_flat : forall numeral d ident, flat_document d ->
  tree_from_dict numeral d ident = match snd (from_dict d ident) with Ok p => Some (as_tree p) | Err _ => None end.
Proof. exact tree_flat. Qed.
Print Assumptions C91_flat.
(** That a dataset is accepted does not mean that it has lists or tables: single numbers, tables of lists and texts are taken,
    with any shapes side by side. *)
Theorem C91_lists_refuted : exists numeral d p, NoDup (keys d) /\ tree_from_dict numeral d "h" = Some p /\
  map (fun kv => dims (snd kv)) (t_fields p) = [[]; [2; 1; 2]; [1]] /\ dims (t_valid p) = [] /\
  (forall q, ~ holds d "h" q).
Proof.
  exists (fun s => if (s =? "5")%string then Some (z 5) else None),
    [("frequency", JNum (z 5)); ("velocity", JArr [JArr [JArr [JNum (z 100); JNum (z 200)]]; JArr [JArr [JNull; JNum (z 300)]]]);
     ("azimuth", JArr [JStr "5"]); ("valid", JObj [])].
  eexists. split; [repeat constructor; cbn; intuition discriminate|]. split; [reflexivity|]. split; [reflexivity|]. split; [reflexivity|].
  intros q H. apply loaded in H; [discriminate|]. repeat constructor; cbn; intuition discriminate.
Qed.
Print Assumptions C91_lists_refuted.
(** Names that the class keeps for itself are refused. *)
Theorem C91_reserved : forall numeral d ident k, NoDup (keys d) -> In k (keys d) -> In k reserved \/ In k kept_by_python ->
  tree_from_dict numeral d ident = None.
Proof.
  intros numeral d ident k N I R. destruct (tree_from_dict numeral d ident) as [p|] eqn:E; auto. apply tree_loaded in E; auto.
  destruct E as (_ & H & _). destruct (H k I). tauto.
Qed.
Print Assumptions C91_reserved.
(** Lists of different lengths at any depth are refused. *)
Example C91_deep_ragged : forall s e, ~ regular (numberlike (fun _ => None)) (JArr [JArr [JArr [JNum (z 1)]]; JArr [JArr [JNum (z 1); JNum (z 2)]]]) s e.
Proof. intros s e H. assert (X := proj2 (floats_iff _ _ (Tensor s e)) H). discriminate. Qed.
Example C91_by_hand_tree : option_map t_valid (tree_from_dict (fun _ => None) by_hand "h") = Some (Tensor [2] [true; false]).
Proof. reflexivity. Qed.
