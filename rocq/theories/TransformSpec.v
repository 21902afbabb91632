(* Independent vocabulary for the properties of wavefield transforms. *)
From Verif Require Import TransformModel NumFacts.
From Coq Require Import Permutation.
Local Open Scope nat_scope.
Local Open Scope list_scope.

(** ** Frequencies *)

(** [i] is the first of the [n] grid points 0, df, 2df, ... nearest to [f]. *)
Definition nearest_point (n : nat) (df f : Qc) (i : nat) : Prop :=
  i < n /\
  (forall k, k < n -> (Qcabs (QcN i * df - f) <= Qcabs (QcN k * df - f))%Qc) /\
  (forall k, k < i -> (Qcabs (QcN i * df - f) < Qcabs (QcN k * df - f))%Qc).
(** [fs] are the grid points from the one nearest to [f1] up to the one nearest
    to [f2], taking every [m]-th, none left out. *)
Definition every_mth (n : nat) (df f1 f2 : Qc) (m : nat) (fs : list Qc) : Prop :=
  exists lo hi, nearest_point n df f1 lo /\ nearest_point n df f2 hi /\
    forall k f, nth_error fs k = Some f <-> lo + k * m <= hi /\ f = (QcN (lo + k * m) * df)%Qc.

(** ** Matrices *)
Definition rect {A} (nr nc : nat) (m : list (list A)) : Prop :=
  List.length m = nr /\ forall r, In r m -> List.length r = nc.
Definition entry (m : list (list Qc)) (i j : nat) : Qc := nth j (nth i m []) 0%Qc.
Definition column (m : list (list Qc)) (j : nat) : list Qc := map (fun r => nth j r 0%Qc) m.
(** finite entries *)
Definition fin (m : list (list Qc)) : list (list flt) := map (map Fin) m.
Definition greatest (l : list Qc) (x : Qc) : Prop := In x l /\ forall y, In y l -> (y <= x)%Qc.
Definition nonneg (m : list (list Qc)) : Prop := forall r x, In r m -> In x r -> (0 <= x)%Qc.

(** ** Normalisation *)
Definition valid_name (s : string) : Prop :=
  s = "none"%string \/ s = "absolute-maximum"%string \/ s = "frequency-maximum"%string.
(** [q] is the matrix [m] normalised as [by_] says. *)
Definition normalised (by_ : string) (nr nc : nat) (m q : list (list Qc)) : Prop :=
  rect nr nc q /\
  (by_ = "none"%string /\ q = m \/
   by_ = "absolute-maximum"%string /\
     (exists g, greatest (List.concat m) g /\
        forall i j, i < nr -> j < nc -> entry q i j = (entry m i j / g)%Qc) \/
   by_ = "frequency-maximum"%string /\
     forall j, j < nc -> exists g, greatest (column m j) g /\
        forall i, i < nr -> entry q i j = (entry m i j / g)%Qc).
(** What np.abs, * and the inclusion of the reals satisfy for real and complex entries. *)
Record entry_laws {K} (kabs : K -> flt) (kmul : K -> flt -> K) (kreal : flt -> K) : Prop := {
  abs_real : forall x, kabs (kreal x) = fabs x;
  mul_real : forall x y, kmul (kreal x) y = kreal (fmul x y);
  mul_one : forall k, kmul k f1 = k }.
(** Every division asked for has a positive divisor. *)
Definition loud (l : list string) (nc : nat) (m : list (list Qc)) : Prop :=
  (In "absolute-maximum"%string l -> exists r x, In r m /\ In x r /\ (0 < x)%Qc) /\
  (In "frequency-maximum"%string l -> forall j, j < nc -> exists x, In x (column m j) /\ (0 < x)%Qc).

(** ** Peaks *)
(** the first position of the greatest value *)
Definition first_greatest (l : list Qc) (i : nat) : Prop :=
  i < List.length l /\ (forall k, k < List.length l -> (nth k l 0 <= nth i l 0)%Qc) /\
  (forall k, k < i -> (nth k l 0 < nth i l 0)%Qc).

(** ** Stacking *)
(** mean of the entries (i, j) weighted by the counts *)
Definition total (l : list (Z * list (list Qc))) : Z := fold_right Z.add 0%Z (map fst l).
Definition mean_entry (l : list (Z * list (list Qc))) (i j : nat) : Qc :=
  (Qcsum (map (fun p => QcZ (fst p) * entry (snd p) i j)%Qc l) / QcZ (total l))%Qc.
Definition others (l : list (Z * list (list Qc))) : list stackable :=
  map (fun p => mkStackable (Some (fin (snd p))) (Some (fst p))) l.

(** Two axes that numpy broadcasts together, their common length, and the entry that an array provides at a place of the
    common shape. *)
Definition compatible (a b : nat) : Prop := a = b \/ a = 1 \/ b = 1.
Definition joint (a b : nat) : nat := if Nat.eqb a 1 then b else a.
Definition provided (p : list (list flt)) (nr nc i j : nat) : flt :=
  nth (if Nat.eqb nc 1 then 0 else j) (nth (if Nat.eqb nr 1 then 0 else i) p []) NaN.

(** ** Slant stack *)
(** [y] is the value at fractional index [x] of the line joining the two samples
    around it, both of which exist. *)
Definition interpolated (row : list Qc) (x y : Qc) : Prop :=
  exists i, i + 1 < List.length row /\ (QcN i <= x)%Qc /\ (x < QcN i + 1)%Qc /\
    y = (nth i row 0 + (x - QcN i) * (nth (i + 1) row 0 - nth i row 0))%Qc.
Definition least (l : list Qc) (x : Qc) : Prop := In x l /\ forall y, In y l -> (x <= y)%Qc.
(** [s] is the trapezoidal sum over the receivers at distances [xs] - [x0] of the
    records taken at time tau + distance / v. *)
Definition slanted_sum (tm : list (list Qc)) (xs : list Qc) (x0 dt v tau s : Qc) : Prop :=
  exists g : nat -> Qc,
    (forall k, k < List.length xs ->
       interpolated (nth k tm []) ((tau + (nth k xs 0 - x0) / v) / dt)%Qc (g k)) /\
    s = Qcsum (map (fun k => (nth (k + 1) xs 0 - nth k xs 0) * ((g k + g (k + 1)%nat) / Q2Qc 2))%Qc
                   (seq 0 (List.length xs - 1))).
(** [d] is the greatest delay, in samples, of any receiver at any velocity. *)
Definition greatest_delay (xs : list Qc) (x0 dt : Qc) (vels : list Qc) (d : Qc) : Prop :=
  (forall x v, In x xs -> In v vels -> ((x - x0) / v / dt <= d)%Qc) /\
  exists x v, In x xs /\ In v vels /\ d = ((x - x0) / v / dt)%Qc.

(** ** Signal-to-noise ratio *)
(** mean over the records of spectral bin [i] *)
Definition mean_bin (spectrum : list Qc -> list Qc) (m : list (list Qc)) (i : nat) : Qc :=
  (Qcsum (map (fun r => nth i (spectrum r) 0) m) / QcN (List.length m))%Qc.
