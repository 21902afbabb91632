(* What filling a correlation matrix does, position by position; and what an accepted
   replacement of missing data looks like. *)
From Verif Require Import StatsModel StatsSpec.
From Coq Require Import List Arith.
Local Open Scope nat_scope.
Local Open Scope list_scope.

(** The columns from the diagonal of row [i] to the right, and those left of it, nearest first. *)
Definition right_of (n i : nat) : list nat := seq i (n - i).
Definition left_of (n i : nat) : list nat := rev (seq 0 (Nat.min i n)).
(** [new] is the row [old] after one of its sides [js] was filled.  A side without missing
    values is kept.  Otherwise the curve is fitted to the columns whose logarithmic distance
    to the nearest column is a number (all of them and their values finite), these keep their
    values, and the others receive y0 * d ** distance. *)
Definition side_filled (lg : flt -> flt) (pw : flt -> flt -> flt) (fit : list flt -> list flt -> result (flt * flt))
           (xx : list flt) (js : list nat) (old new : list flt) : Prop :=
  let x j := fsub (lg (nth j xx NaN)) (lg (nth (hd 0 js) xx NaN)) in
  let valid := filter (fun j => negb (is_nan (x j))) js in
  if existsb (fun j => is_nan (nth j old NaN)) js
  then (forall j, In j valid -> is_finite (x j) = true /\ is_finite (nth j old NaN) = true) /\
       exists y0 d, fit (map x valid) (map (fun j => nth j old NaN) valid) = Ok (y0, d) /\
       forall j, In j js -> nth j new NaN = if is_nan (x j) then fmul y0 (pw d (x j)) else nth j old NaN
  else forall j, In j js -> nth j new NaN = nth j old NaN.

(** A cell lies in a region. *)
Definition in_region (i j : nat) (g : region) : Prop :=
  let '((r0, c0), (r1, c1)) := g in r0 <= i < r1 /\ c0 <= j < c1.
(** [m'] keeps what [m] holds, and what is missing in a region was drawn with its column's
    mean and deviation; what is missing outside the regions stays missing. *)
Definition drawn (draw : nat -> flt -> flt -> flt) (n : nat) (regions : list region) (mean sd : list flt) (m m' : matrix) : Prop :=
  List.length m' = List.length m /\ rectangular n m' /\
  forall i j, i < List.length m -> j < n ->
    (is_nan (cell m i j) = false -> cell m' i j = cell m i j) /\
    ((forall g, In g regions -> ~ in_region i j g) -> cell m' i j = cell m i j) /\
    (is_nan (cell m i j) = true -> (exists g, In g regions /\ in_region i j g) ->
     exists k, cell m' i j = draw k (nth j mean NaN) (nth j sd NaN)).
(** The means changed by less than 5 % and the coefficients of variation by less than 0.01, in every column. *)
Definition close_statistics (fsqrt : flt -> flt) (n : nat) (mean sd : list flt) (m' : matrix) : Prop :=
  forall j, j < n ->
    let mu := nth j mean NaN in let s := nth j sd NaN in
    let mu' := nanmean (column j m') in let s' := nanstd fsqrt (column j m') in
    flt_lt (fabs (fdiv (fsub mu' mu) mu)) (Fin (Q2Qc (5 # 100))) = true /\
    flt_lt (fabs (fsub (fdiv s' mu') (fdiv s mu))) (Fin (Q2Qc (1 # 100))) = true.
