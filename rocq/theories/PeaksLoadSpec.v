(* Which JSON documents hold peaks, and which peaks they hold. *)
From Verif Require Import PeaksModel PeaksSpec.
Local Open Scope list_scope.
Local Open Scope string_scope.

(** A number, and a truth value, of a document. *)
Inductive number : json -> flt -> Prop :=
| a_number x : number (JNum x) x
| a_missing : number JNull NaN
| a_one : number (JBool true) f1
| a_zero : number (JBool false) f0.
Inductive truth : json -> bool -> Prop :=
| a_bool b : truth (JBool b) b
| a_zero_number x : flt_eq x f0 = true -> truth (JNum x) false
| a_nonzero x : flt_eq x f0 = false -> truth (JNum x) true
| a_null : truth JNull false
| a_text c s : truth (JStr (String c s)) true
| an_empty_text : truth (JStr "") false
| an_object kv o : truth (JObj (kv :: o)) true
| an_empty_object : truth (JObj []) false.

(** A list of entries, or a list of lists of equal lengths, one per row. *)
Definition list_of {A} (leaf : json -> A -> Prop) (j : json) (a : nd A) : Prop :=
  exists l, j = JArr l /\ shp a = S1 (List.length l) /\ Forall2 leaf l (dat a).
Definition table_of {A} (leaf : json -> A -> Prop) (j : json) (a : nd A) : Prop :=
  exists rs c, j = JArr (map JArr rs) /\ rs <> [] /\ (forall r, In r rs -> List.length r = c) /\
    shp a = S2 (List.length rs) c /\ Forall2 leaf (List.concat rs) (dat a).
Definition array_of {A} (leaf : json -> A -> Prop) (j : json) (a : nd A) : Prop := list_of leaf j a \/ table_of leaf j a.

Definition keys (d : dict json) : list string := map fst d.
(** Names that cannot be given: the arguments of these names, and the computed quantities. *)
Definition reserved : list string := ["identifier"; "self"; "slowness"; "wavelength"; "wavenumber"].
(** The other names of a dataset, in their order. *)
Definition extras (d : dict json) : list string :=
  filter (fun k => negb (k =? "frequency") && negb (k =? "velocity") && negb (k =? "valid"))%bool (keys d).

(** The dataset [d] named [ident] holds the peaks [p]. *)
Definition holds (d : dict json) (ident : string) (p : peaks) : Prop :=
  identifier p = ident /\
  (forall k, In k (keys d) -> ~ In k reserved) /\ In "frequency" (keys d) /\ In "velocity" (keys d) /\
  attrs p = "frequency" :: "velocity" :: extras d /\
  (forall k a, In (k, a) (fields p) -> exists j, In (k, j) d /\ array_of number j a) /\
  (forall j, In ("valid", j) d -> j <> JNull -> array_of truth j (valid p)) /\
  (~ In "valid" (keys d) \/ In ("valid", JNull) d ->
   exists v, In ("velocity", v) (fields p) /\ valid p = ND (shp v) (map (fun x => negb (is_nan x)) (dat v))).

(** The values of two objects agree: one by one, or all with the only value of the other. *)
Definition agree (l m : list flt) : Prop :=
  Forall2 PeaksSpec.close_to l m \/
  ((List.length l = 1 \/ List.length m = 1)%nat /\ forall x y, In x l -> In y m -> PeaksSpec.close_to x y).
(** What == compares. *)
Definition compares_equal (p q : peaks) : Prop :=
  identifier p = identifier q /\ List.length (attrs p) = List.length (attrs q) /\
  forall k, In k (attrs p) -> PeaksSpec.named k /\ In k (attrs q) /\
    agree (map (PeaksSpec.value p k) (PeaksSpec.valid_positions p)) (map (PeaksSpec.value q k) (PeaksSpec.valid_positions q)).

(** numpy's rule: an array of shape [s] can be stretched to [r] rows and [c] columns, and its entry that then stands in row [i]
    and column [j]. *)
Definition fits (s : shape) (r c : nat) : bool :=
  match s with
  | S1 n => Nat.eqb n c || Nat.eqb n 1
  | S2 a b => (Nat.eqb a r || Nat.eqb a 1) && (Nat.eqb b c || Nat.eqb b 1)
  end.
Definition taken (s : shape) (i j : nat) : nat :=
  match s with
  | S1 n => if Nat.eqb n 1 then 0 else j
  | S2 a b => (if Nat.eqb a 1 then 0 else i) * b + (if Nat.eqb b 1 then 0 else j)
  end.
