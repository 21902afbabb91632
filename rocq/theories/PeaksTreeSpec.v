(* Which JSON trees are arrays, and which documents hold peaks, whatever the depth. *)
From Verif Require Import PeaksModel PeaksSpec PeaksLoadSpec PeaksTreeModel.
Local Open Scope list_scope.
Local Open Scope string_scope.

(** [j] is an array of the shape [s] with the entries [l]: one leaf, or a list of arrays of one shape. *)
Inductive regular {A} (leaf : json -> A -> Prop) : json -> list nat -> list A -> Prop :=
| one_leaf j x : leaf j x -> regular leaf j [] [x]
| no_entries : regular leaf (JArr []) [0] []
| some_entries j js s ls : Forall2 (fun j l => regular leaf j s l) (j :: js) ls ->
    regular leaf (JArr (j :: js)) (S (List.length js) :: s) (List.concat ls).
(** A leaf that numpy takes for a number: also a text that stands for one. *)
Definition numberlike (numeral : string -> option flt) (j : json) (x : flt) : Prop :=
  number j x \/ exists s, j = JStr s /\ numeral s = Some x.
Definition kept_by_python : list string := ["_class__"; "_dict__"; "_weakref__"].
(** The dataset [d] named [ident] holds the peaks [p], which are arrays of any shape. *)
Definition holds_any (numeral : string -> option flt) (d : dict json) (ident : string) (p : tree_peaks) : Prop :=
  t_identifier p = ident /\
  (forall k, In k (keys d) -> ~ In k reserved /\ ~ In k kept_by_python) /\ In "frequency" (keys d) /\ In "velocity" (keys d) /\
  map fst (t_fields p) = "frequency" :: "velocity" :: extras d /\
  (forall k a, In (k, a) (t_fields p) -> exists j, In (k, j) d /\ regular (numberlike numeral) j (dims a) (entries a)) /\
  (forall j, In ("valid", j) d -> j <> JNull -> regular truth j (dims (t_valid p)) (entries (t_valid p))) /\
  (~ In "valid" (keys d) \/ In ("valid", JNull) d ->
   exists v, In ("velocity", v) (t_fields p) /\ t_valid p = Tensor (dims v) (map (fun x => negb (is_nan x)) (entries v))).

(** A list, or a list of lists, without further lists and without texts: what the package writes, and what PeaksModel.v
    covers. *)
Definition simple_leaf (j : json) : Prop := (forall l, j <> JArr l) /\ (forall s, j <> JStr s).
Definition flat (j : json) : Prop :=
  exists l, j = JArr l /\ forall x, In x l -> simple_leaf x \/ exists r, x = JArr r /\ forall y, In y r -> simple_leaf y.
Definition flat_document (d : dict json) : Prop := forall k j, In (k, j) d -> ~ In k kept_by_python /\ (flat j \/ k = "valid" /\ j = JNull).
(** One- and two-dimensional arrays among all. *)
Definition shape_dims (s : shape) : list nat := match s with S1 n => [n] | S2 r c => [r; c] end.
Definition as_tensor {A} (a : nd A) : tensor A := Tensor (shape_dims (shp a)) (dat a).
Definition as_tree (p : peaks) : tree_peaks :=
  mkTreePeaks (identifier p) (map (fun kv => (fst kv, as_tensor (snd kv))) (fields p)) (as_tensor (valid p)).
