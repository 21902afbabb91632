(* Vocabulary for the plots of Peaks and PeaksSuite. *)
From Verif Require Import PlotModel PeaksSpec.
Local Open Scope string_scope.
Local Open Scope nat_scope.
Local Open Scope list_scope.

(** The peaks shown: the valid ones, or those a mask selects. *)
Definition shown (p : peaks) (mask : option (nd bool)) : list nat :=
  match mask with
  | None => valid_positions p
  | Some m => filter (fun i => nth i (dat m) false) (seq 0 (npeaks p))
  end.
Definition fits (s : shape) (mask : option (nd bool)) : Prop :=
  match mask with None => True | Some m => shp m = s /\ List.length (dat m) = size s end.
(** Line [l] shows attributes [xt] and [yt] of the chosen peaks of [p], one point each, in order. *)
Definition shows (p : peaks) (mask : option (nd bool)) (xt yt : string) (l : artist) : Prop :=
  px l = map (value p xt) (shown p mask) /\ py l = map (value p yt) (shown p mask).
(** A type argument stands for these types. *)
Definition means (t : type_arg) (l : list string) : Prop := t = TSeq l \/ exists s, t = TStr s /\ l = [s].
(** The value member number [i] gets for a keyword. *)
Definition member_gets (kwargs : dict kwarg) (i : nat) (key : string) (v : kw) : Prop :=
  (exists s, In (key, AStr s) kwargs /\ v = KStr s) \/ (In (key, ANone) kwargs /\ v = KNone) \/
  (exists l, In (key, ASeq l) kwargs /\ nth_error l i = Some v).
Definition keyword (kwargs : dict kwarg) (key : string) : Prop := In key (map fst kwargs).
(** The plot keywords can be distributed over [n] members. *)
Definition distributable (kwargs : dict kwarg) (n : nat) : Prop :=
  NoDup (map fst kwargs) /\
  forall key v, In (key, v) kwargs -> match v with AObj _ => False | ASeq l => n <= List.length l | _ => True end.
(** The label member [i] asks for: the keyword's, or its identifier. *)
Definition asks_label (kwargs : dict kwarg) (i : nat) (p : peaks) (s : string) : Prop :=
  member_gets kwargs i "label" (KStr s) \/ member_gets kwargs i "label" (KObj s) \/ (~ keyword kwargs "label" /\ s = identifier p).
(** Shown in a legend. *)
Definition visible (s : string) : Prop := s <> "" /\ forall t, s <> ("_" ++ t)%string.
Definition mask_of (mask : option (list (option (nd bool)))) (i : nat) : option (nd bool) :=
  match mask with None => None | Some l => nth i l None end.
(** Everything that is needed to draw: the attributes exist, masks fit, keywords can be dealt out. *)
Definition can_draw (ps : list peaks) (xs ys : list string) (kwargs : dict kwarg) (mask : option (list (option (nd bool)))) : Prop :=
  distributable kwargs (List.length ps) /\
  (match mask with None => True | Some m => List.length m = List.length ps end) /\
  forall i p, nth_error ps i = Some p -> exists s, well_formed s p /\ fits s (mask_of mask i) /\
    forall k, In k xs \/ In k ys -> has_attr p k.
(** Lines [ls] show the members [ps] in order, each with its mask and its keywords. *)
Definition members_shown (ps : list peaks) (mask : option (list (option (nd bool)))) (kwargs : dict kwarg)
    (xt yt : string) (ls : list artist) : Prop :=
  List.length ls = List.length ps /\
  forall i p l, nth_error ps i = Some p -> nth_error ls i = Some l ->
    shows p (mask_of mask i) xt yt l /\
    forall key v, key <> "label" -> member_gets kwargs i key v -> assoc key (style l) = Some v.
