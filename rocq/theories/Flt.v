(* Extended numbers: finite rationals, infinities and NaN with the comparison
   and arithmetic rules of IEEE 754, without rounding and without signed zero
   (a zero divisor counts as +0). *)
From Verif Require Export Num.

Inductive flt : Type :=
| Fin (q : Qc)
| PInf
| NInf
| NaN.

Definition f0 : flt := Fin 0%Qc.
Definition f1 : flt := Fin 1%Qc.

Definition is_nan (x : flt) : bool := match x with NaN => true | _ => false end.
Definition is_finite (x : flt) : bool := match x with Fin _ => true | _ => false end.

(** x < y ; false as soon as NaN is involved. *)
Definition flt_lt (x y : flt) : bool :=
  match x, y with
  | NaN, _ | _, NaN => false
  | Fin a, Fin b => Qcltb a b
  | NInf, NInf => false
  | NInf, _ => true
  | _, NInf => false
  | PInf, _ => false
  | Fin _, PInf => true
  end.
(** x == y *)
Definition flt_eq (x y : flt) : bool :=
  match x, y with
  | Fin a, Fin b => Qceqb a b
  | PInf, PInf | NInf, NInf => true
  | _, _ => false
  end.
Definition flt_le (x y : flt) : bool := flt_lt x y || flt_eq x y.

Definition fneg (x : flt) : flt :=
  match x with Fin a => Fin (Qcopp a) | PInf => NInf | NInf => PInf | NaN => NaN end.
Definition fabs (x : flt) : flt :=
  match x with Fin a => Fin (Qcabs a) | PInf | NInf => PInf | NaN => NaN end.
Definition fadd (x y : flt) : flt :=
  match x, y with
  | NaN, _ | _, NaN => NaN
  | Fin a, Fin b => Fin (a + b)%Qc
  | PInf, NInf | NInf, PInf => NaN
  | PInf, _ | _, PInf => PInf
  | NInf, _ | _, NInf => NInf
  end.
Definition fsub (x y : flt) : flt := fadd x (fneg y).
(** sign of a finite number times an infinity *)
Definition sgn_inf (a : Qc) (pos : bool) : flt :=
  if Qceqb a 0%Qc then NaN
  else if Bool.eqb (Qcltb 0%Qc a) pos then PInf else NInf.
Definition fmul (x y : flt) : flt :=
  match x, y with
  | NaN, _ | _, NaN => NaN
  | Fin a, Fin b => Fin (a * b)%Qc
  | Fin a, PInf | PInf, Fin a => sgn_inf a true
  | Fin a, NInf | NInf, Fin a => sgn_inf a false
  | PInf, PInf | NInf, NInf => PInf
  | PInf, NInf | NInf, PInf => NInf
  end.
Definition fdiv (x y : flt) : flt :=
  match x, y with
  | NaN, _ | _, NaN => NaN
  | Fin a, Fin b =>
      if Qceqb b 0%Qc then sgn_inf a true else Fin (a / b)%Qc
  | Fin _, _ => Fin 0%Qc
  | PInf, Fin b => if Qcltb b 0%Qc then NInf else PInf
  | NInf, Fin b => if Qcltb b 0%Qc then PInf else NInf
  | _, _ => NaN
  end.

(** np.max: NaN as soon as one entry is NaN. *)
Definition fmax2 (x y : flt) : flt :=
  if is_nan x then NaN else if is_nan y then NaN else if flt_lt x y then y else x.
Definition fmax (l : list flt) : result flt :=
  match l with [] => Err ValueError | a :: t => Ok (fold_left fmax2 t a) end.
(** np.nanmax ignores NaN; all-NaN gives NaN (with a warning). *)
Definition nanmax (l : list flt) : result flt :=
  match l with
  | [] => Err ValueError
  | _ => match filter (fun x => negb (is_nan x)) l with
         | [] => Ok NaN
         | a :: t => Ok (fold_left fmax2 t a)
         end
  end.

(** Used to print values in examples. *)
Inductive fshow : Set := ShFin (q : Q) | ShPInf | ShNInf | ShNaN.
Definition show_flt (x : flt) : fshow :=
  match x with Fin a => ShFin (this a) | PInf => ShPInf | NInf => ShNInf | NaN => ShNaN end.
