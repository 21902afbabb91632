(* Vocabulary for resampling with infinite values (C48). *)
From Verif Require Import PeaksModel PeaksSpec SuiteModel SuiteSpec Flt Num.
Local Open Scope nat_scope.

(** Finite x, none twice; any y but NaN. *)
Definition sketchable (xt yt : string) (p : peaks) : Prop :=
  (forall i, used p i -> (exists a, value p xt i = Fin a) /\ value p yt i <> NaN)
  /\ (forall i j, used p i -> used p j -> value p xt i = value p xt j -> i = j).
(** At [v] between the points (x1, y1) and (x2, y2): on the line through finite points; infinite if one of them is; no number between
    opposite infinities. *)
Definition between (x1 : Qc) (y1 : flt) (x2 : Qc) (y2 : flt) (v : Qc) : flt :=
  match y1, y2 with
  | Fin a, Fin b => Fin (a + (v - x1) / (x2 - x1) * (b - a))%Qc
  | PInf, NInf | NInf, PInf | NaN, _ | _, NaN => NaN
  | Fin _, y => y
  | y, _ => y
  end.
Definition value_between (xt yt : string) (p : peaks) (v : Qc) (e : flt) : Prop :=
  ((forall i a, used p i -> value p xt i = Fin a -> (v < a)%Qc) -> e = NaN)
  /\ ((forall i a, used p i -> value p xt i = Fin a -> (a < v)%Qc) -> e = NaN)
  /\ (forall i, used p i -> value p xt i = Fin v -> e = value p yt i)
  /\ (forall i j xi xj, used p i -> used p j -> value p xt i = Fin xi -> value p xt j = Fin xj -> (xi < v)%Qc -> (v < xj)%Qc ->
        (forall k a, used p k -> value p xt k = Fin a -> (a <= xi)%Qc \/ (xj <= a)%Qc) ->
        e = between xi (value p yt i) xj (value p yt j) v).
