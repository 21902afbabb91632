(* Tools for the files Test*.v, which compare the model with the expected values of the repository's own unit tests (/repo/test). *)
From Verif Require Export SeriesModel Flt.

(** Decimal numbers and lists of integers. *)
Definition dec (a : Z) (b : positive) : Qc := Q2Qc (a # b).
Definition zs (l : list Z) : list Qc := map QcZ l.
Fixpoint same (a b : list Qc) : bool :=
  match a, b with [], [] => true | x :: a', y :: b' => Qceqb x y && same a' b' | _, _ => false end.
Definition exn_eqb (a b : exn) : bool :=
  match a, b with
  | ValueError, ValueError | IndexError, IndexError | KeyError, KeyError | TypeError, TypeError | AttributeError, AttributeError
  | ZeroDivisionError, ZeroDivisionError | NotImplementedError, NotImplementedError => true
  | _, _ => false
  end.
Definition raises {A} (e : exn) (r : result A) : bool := match r with Err e' => exn_eqb e e' | Ok _ => false end.
Definition returns {A} (p : A -> bool) (r : result A) : bool := match r with Ok x => p x | Err _ => false end.
(** A call on an object that must succeed, followed by checks of the new state. *)
Definition after {A} (c : A * result unit) (p : A -> bool) : bool := match c with (s, Ok _) => p s | _ => false end.
(** Equality of numbers with infinities and nan, of lists and of tables of them. *)
Definition fsame (x y : flt) : bool :=
  match x, y with Fin a, Fin b => Qceqb a b | NaN, NaN => true | PInf, PInf => true | NInf, NInf => true | _, _ => false end.
Fixpoint fsames (a b : list flt) : bool := match a, b with [], [] => true | x :: a', y :: b' => fsame x y && fsames a' b' | _, _ => false end.
Fixpoint rows_same (a b : list (list flt)) : bool := match a, b with [], [] => true | x :: a', y :: b' => fsames x y && rows_same a' b' | _, _ => false end.
Fixpoint sames (a b : list (list Qc)) : bool := match a, b with [], [] => true | x :: a', y :: b' => same x y && sames a' b' | _, _ => false end.
