(* Vocabulary for the properties of Peaks objects.  Nothing here refers to the
   functions of PeaksModel.v, only to its data types. *)
From Verif Require Export PeaksModel.
From Coq Require Export Sorting.Sorted Sorting.Permutation.
Local Open Scope string_scope.
Local Open Scope nat_scope.
Local Open Scope list_scope.

(** All arrays of the object have shape [s], the names are those a keyword call
    can produce. *)
Definition well_formed (s : shape) (p : peaks) : Prop :=
  (exists f v kw, fields p = ("frequency", f) :: ("velocity", v) :: kw)
  /\ Forall (fun kv => shp (snd kv) = s /\ List.length (dat (snd kv)) = size s) (fields p)
  /\ shp (valid p) = s /\ List.length (dat (valid p)) = size s
  /\ NoDup (map fst (fields p))
  /\ Forall (fun k => k <> "valid" /\ k <> "identifier" /\ k <> "self" /\ k <> "slowness"
                      /\ k <> "wavelength" /\ k <> "wavenumber") (map fst (fields p)).

(** The peaks of an object are numbered row by row.  [raw p k i] is the entry of
    the attribute [k] given at construction for peak [i]. *)
Fixpoint raw_of (l : list (string * nd flt)) (k : string) (i : nat) : flt :=
  match l with
  | [] => NaN
  | (k', a) :: t => if String.eqb k k' then nth i (dat a) NaN else raw_of t k i
  end.
Definition raw (p : peaks) (k : string) (i : nat) : flt := raw_of (fields p) k i.
Definition vel p i := raw p "velocity" i.
Definition frq p i := raw p "frequency" i.
(** Value of any attribute, including the three derived ones. *)
Definition value (p : peaks) (k : string) (i : nat) : flt :=
  if String.eqb k "slowness" then fdiv f1 (vel p i)
  else if String.eqb k "wavelength" then fdiv (vel p i) (frq p i)
  else if String.eqb k "wavenumber" then fdiv (fmul (fmul f2 np_pi) (frq p i)) (vel p i)
  else raw p k i.
(** Names that have a value. *)
Definition derived (k : string) : Prop :=
  k = "slowness" \/ k = "wavelength" \/ k = "wavenumber".
Definition has_attr (p : peaks) (k : string) : Prop :=
  derived k \/ In k (map fst (fields p)).
(** Names that can be read as p.k. *)
Definition named (k : string) : Prop :=
  In k ["frequency"; "velocity"; "azimuth"; "ellipticity"; "noise"; "power"].
Definition readable (p : peaks) (k : string) : Prop :=
  derived k \/ (named k /\ In k (map fst (fields p))).

Definition npeaks (p : peaks) : nat := List.length (dat (valid p)).
Definition is_valid (p : peaks) (i : nat) : bool := nth i (dat (valid p)) false.
Definition valid_positions (p : peaks) : list nat :=
  filter (is_valid p) (seq 0 (npeaks p)).

(** [x] violates the limits. *)
Definition outside (lo hi : option flt) (x : flt) : bool :=
  match lo with Some m => flt_lt x m | None => false end
  || match hi with Some m => flt_lt m x | None => false end.
(** [x] strictly between the two numbers, in whatever order they are given. *)
Definition strictly_between (ab : flt * flt) (x : flt) : bool :=
  (flt_lt (fst ab) x && flt_lt x (snd ab)) || (flt_lt (snd ab) x && flt_lt x (fst ab)).
(** Peak [i] matches the rejection. *)
Definition matches (p : peaks) (r : rejection) (i : nat) : bool :=
  match r with
  | Limits k lo hi => outside lo hi (value p k i)
  | Box xt xl yt yl => strictly_between xl (value p xt i) && strictly_between yl (value p yt i)
  end.
(** The rejection only names attributes the object has. *)
Definition applicable (p : peaks) (r : rejection) : Prop :=
  match r with
  | Limits k _ _ => has_attr p k
  | Box xt _ yt _ => has_attr p xt /\ has_attr p yt
  end.

(** What decides between several peaks of one frequency: the power if the object
    has one, the frequency otherwise. *)
Definition weight (p : peaks) (i : nat) : flt :=
  if existsb (String.eqb "power") (map fst (fields p))
  then raw p "power" i else frq p i.
Definition usable (p : peaks) (i : nat) : Prop :=
  is_valid p i = true /\ weight p i <> NaN /\ weight p i <> NInf.
(** In an object with [r] rows and [c] columns, row [i] is the one to keep in
    column [j]. *)
Definition strongest (r c : nat) (p : peaks) (i j : nat) : Prop :=
  i < r /\ j < c /\ usable p (i * c + j)
  /\ (forall i', i' < r -> is_valid p (i' * c + j) = true ->
        flt_lt (weight p (i * c + j)) (weight p (i' * c + j)) = false)
  /\ (forall i', i' < i -> is_valid p (i' * c + j) = true ->
        flt_le (weight p (i * c + j)) (weight p (i' * c + j)) = false).

(** Same contents entry by entry. *)
Definition same_content (p q : peaks) : Prop :=
  identifier q = identifier p
  /\ map fst (fields q) = map fst (fields p)
  /\ map (fun kv => dat (snd kv)) (fields q) = map (fun kv => dat (snd kv)) (fields p)
  /\ dat (valid q) = dat (valid p).

(** |x - y| <= 1e-8 + 1e-5 |y|, NaN close to NaN, infinities to themselves. *)
Definition close_to (x y : flt) : Prop :=
  match x, y with
  | Fin a, Fin b =>
      (Qcabs (a - b) <= Q2Qc (1 # 100000000) + Q2Qc (1 # 100000) * Qcabs b)%Qc
  | NaN, NaN | PInf, PInf | NInf, NInf => True
  | _, _ => False
  end.
