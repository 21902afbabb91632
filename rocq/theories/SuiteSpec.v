(* Vocabulary for the properties of suites. *)
From Verif Require Export PeaksSpec SuiteModel.
Local Open Scope nat_scope.
Local Open Scope list_scope.

(** ** Histories (C44) *)
Definition renames (a : action) : bool := match a with Rename _ _ => true | _ => false end.

(** ** Files (C42) *)
Definition storable (p : peaks) : Prop :=
  exists s, well_formed s p /\ forall c, s <> S2 0 c.

(** ** Trimming (C45) *)
(** Peak [i] of [p] lies strictly inside the box, in the domain of the axes on
    which it was drawn. *)
Definition hit (xt yt : list string) (p : peaks) (b : box) (i : nat) : bool :=
  match nth_error xt (baxis b), nth_error yt (baxis b) with
  | Some x, Some y => strictly_between (bx b) (value p x i) && strictly_between (by_ b) (value p y i)
  | _, _ => false
  end.
(** The boxes the user draws: two points, both clicks on the same axes. *)
Definition drawn (g : gesture) : list box :=
  match points g, clicked g with
  | [(x1, y1); (x2, y2)], [a; b] =>
      if a =? b then [mkBox (pymin (x1, x2), pymax (x1, x2)) (pymin (y1, y2), pymax (y1, y2)) a]
      else []
  | _, _ => []
  end.
Definition boxes_of (gs : list gesture) : list box := flat_map drawn gs.
(** The decisions the user types; everything else is ignored. *)
Definition typed (a : string) : list decision :=
  if String.eqb a "0" then [Quit] else if String.eqb a "1" then [Continue]
  else if String.eqb a "2" then [Undo] else [].
Definition decisions_of (ans : list string) : list decision := flat_map typed ans.
(** A group of boxes with the decision that ended it. *)
Definition group : Type := list box * decision.
Definition committed (g : group) : bool := match snd g with Undo => false | _ => true end.
Definition removed (xt yt : list string) (log : list group) (p : peaks) (i : nat) : bool :=
  existsb (fun g => committed g && existsb (fun b => hit xt yt p b i) (fst g)) log.
(** Box [b] holds at least one peak of the suite still valid after [log]. *)
Definition holds_some (xt yt : list string) (log : list group) (ps : list peaks) (b : box) : Prop :=
  exists p i, In p ps /\ is_valid p i = true /\ removed xt yt log p i = false
              /\ hit xt yt p b i = true.
Definition prefix {A} (l m : list A) : Prop := exists t, m = l ++ t.

(** ** Dropping (C46, C47) *)
Definition observed (m : list (list flt)) (j : nat) : list flt :=
  filter (fun x => negb (is_nan x)) (map (fun r => nth j r NaN) m).
Definition rectangular (nc : nat) (m : list (list flt)) : Prop :=
  Forall (fun r => List.length r = nc) m.
Definition mean_of (l : list Qc) : Qc := (Qcsum l / QcN (List.length l))%Qc.
Definition variance_of (l : list Qc) : Qc :=
  (Qcsum (map (fun x => (x - mean_of l) * (x - mean_of l)) l)
   / QcZ (Z.of_nat (List.length l) - 1))%Qc.

(** ** Resampling (C48) *)
(** Peak [i] takes part in curves drawn from [p]: it is valid, or the strongest
    valid one of its frequency. *)
Definition used (p : peaks) (i : nat) : Prop :=
  match shp (valid p) with
  | S1 _ => is_valid p i = true
  | S2 r c => exists a b, i = a * c + b /\ strongest r c p a b
  end.
(** Finite values, no x twice. *)
Definition drawable (xt yt : string) (p : peaks) : Prop :=
  (forall i, used p i -> exists a b, value p xt i = Fin a /\ value p yt i = Fin b)
  /\ (forall i j, used p i -> used p j -> value p xt i = value p xt j -> i = j).
(** [e] is the value of [p] at [v]. *)
Definition value_at (xt yt : string) (p : peaks) (v : Qc) (e : flt) : Prop :=
  ((forall i a, used p i -> value p xt i = Fin a -> (v < a)%Qc) -> e = NaN)
  /\ ((forall i a, used p i -> value p xt i = Fin a -> (a < v)%Qc) -> e = NaN)
  /\ (forall i, used p i -> value p xt i = Fin v -> e = value p yt i)
  /\ (forall i j xi xj yi yj, used p i -> used p j ->
        value p xt i = Fin xi -> value p xt j = Fin xj ->
        value p yt i = Fin yi -> value p yt j = Fin yj ->
        (xi < v)%Qc -> (v < xj)%Qc ->
        (forall k a, used p k -> value p xt k = Fin a -> (a <= xi)%Qc \/ (xj <= a)%Qc) ->
        exists y, e = Fin y /\ (y = yi + (v - xi) / (xj - xi) * (yj - yi))%Qc
                  /\ ((yi <= y <= yj)%Qc \/ (yj <= y <= yi)%Qc)).

(** ** Resolution limits (C49) *)
Definition two_pi : flt := fmul f2 np_pi.
(** Wavelength and wavenumber of the point (x, y) of a plot. *)
Definition wavelength_of (xt yt : string) (x y : flt) : flt :=
  if String.eqb xt "wavelength" then x
  else if String.eqb yt "velocity" then fdiv y x                     (* v / f *)
  else if String.eqb yt "slowness" then fdiv f1 (fmul y x)           (* 1 / (s f) *)
  else fdiv two_pi y.                                                (* 2 pi / k *)
Definition wavenumber_of (xt yt : string) (x y : flt) : flt :=
  fdiv two_pi (wavelength_of xt yt x y).
Definition limited_by (attribute : string) (xt yt : string) (x y : flt) : flt :=
  if String.eqb attribute "wavelength" then wavelength_of xt yt x y else wavenumber_of xt yt x y.
Definition supported (xt attribute yt : string) : Prop :=
  (attribute = "wavelength" \/ attribute = "wavenumber")%string
  /\ ((xt = "frequency" /\ (yt = "velocity" \/ yt = "slowness" \/ yt = "wavenumber"))
      \/ (xt = "wavelength" /\ (yt = "velocity" \/ yt = "slowness")))%string.
