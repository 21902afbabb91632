(* Python-level vocabulary shared by all model files.
   Exceptions are values; a mutating method is a function
   state -> state * result A whose first component is the state left behind,
   also when the second component is an exception. *)
From Coq Require Export List ZArith Lia Bool Arith.
From Coq Require Export ZifyBool ZifyNat ZifyN.
Export ListNotations.
Ltac Zify.zify_post_hook ::= Z.div_mod_to_equations.

(** The built-in exception classes raised by the modelled code. *)
Inductive exn : Set :=
| ValueError | IndexError | KeyError | TypeError | AttributeError
| ZeroDivisionError | NotImplementedError | OverflowError
| StopIteration | RuntimeError | FileNotFoundError | UnboundLocalError.

Inductive result (A : Type) : Type :=
| Ok (a : A)
| Err (e : exn).
Arguments Ok {A} a.
Arguments Err {A} e.

Definition bind {A B} (r : result A) (f : A -> result B) : result B :=
  match r with Ok a => f a | Err e => Err e end.
Declare Scope py_scope.
Delimit Scope py_scope with py.
Notation "'do' x <- r ; f" := (bind r (fun x => f))
  (at level 200, x name, r at level 100, f at level 200, right associativity) : py_scope.

Definition is_ok {A} (r : result A) : bool :=
  match r with Ok _ => true | Err _ => false end.

(** Run [f] on every element, stopping at the first exception
    (a Python list comprehension / for loop that builds a list). *)
Fixpoint mapM {A B} (f : A -> result B) (l : list A) : result (list B) :=
  match l with
  | [] => Ok []
  | a :: t => bind (f a) (fun b => bind (mapM f t) (fun bs => Ok (b :: bs)))
  end.

(** Apply a mutating method to every element of a list in order, stopping at
    the first exception; elements already visited stay modified
    (a Python [for obj in objs: obj.method()]). *)
Fixpoint for_each {S : Type} (f : S -> S * result unit) (l : list S)
  : list S * result unit :=
  match l with
  | [] => ([], Ok tt)
  | s :: t =>
      match f s with
      | (s', Err e) => (s' :: t, Err e)
      | (s', Ok _) => let (t', r) := for_each f t in (s' :: t', r)
      end
  end.

(** Python index normalisation for [len = n]. *)
Definition norm_index (n : nat) (i : Z) : Z :=
  if (i <? 0)%Z then (i + Z.of_nat n)%Z else i.

(** [l[i]] : negative indices count from the end, IndexError otherwise. *)
Definition pyget {A} (l : list A) (i : Z) : result A :=
  let j := norm_index (length l) i in
  if (j <? 0)%Z then Err IndexError
  else match nth_error l (Z.to_nat j) with
       | Some a => Ok a
       | None => Err IndexError
       end.

(** Slice bounds are clipped to [0, n]. *)
Definition clip_index (n : nat) (i : Z) : nat :=
  let j := norm_index n i in
  if (j <? 0)%Z then 0 else Nat.min (Z.to_nat j) n.

(** [l[lo:hi]] with [None] for an omitted bound. *)
Definition pyslice {A} (lo hi : option Z) (l : list A) : list A :=
  let n := length l in
  let a := match lo with None => 0 | Some i => clip_index n i end in
  let b := match hi with None => n | Some i => clip_index n i end in
  skipn a (firstn b l).

(** [l[lo:hi:step]] for [step >= 1] and non-negative bounds (np / range). *)
Fixpoint every_from {A} (step : nat) (skip : nat) (l : list A) : list A :=
  match l with
  | [] => []
  | a :: t => match skip with
              | O => a :: every_from step (pred step) t
              | S k => every_from step k t
              end
  end.

(** First index of the best element for a strict comparison
    (np.argmin / np.argmax return the first occurrence). *)
Fixpoint argbest_aux {A} (better : A -> A -> bool) (l : list A)
         (i : nat) (besti : nat) (best : A) : nat :=
  match l with
  | [] => besti
  | a :: t => if better a best then argbest_aux better t (S i) i a
              else argbest_aux better t (S i) besti best
  end.
Definition argbest {A} (better : A -> A -> bool) (l : list A) : result nat :=
  match l with
  | [] => Err ValueError          (* np.argmin of an empty sequence *)
  | a :: t => Ok (argbest_aux better t 1 0 a)
  end.

(** Pointwise combination of two lists of equal length. *)
Fixpoint map2 {A B C} (f : A -> B -> C) (l : list A) (m : list B) : list C :=
  match l, m with
  | a :: l', b :: m' => f a b :: map2 f l' m'
  | _, _ => []
  end.

(** Keep the elements whose mask is true (boolean-array indexing). *)
Fixpoint select {A} (mask : list bool) (l : list A) : list A :=
  match mask, l with
  | b :: m, a :: t => if b then a :: select m t else select m t
  | _, _ => []
  end.

(** [range(n)] *)
Definition range (n : nat) : list nat := seq 0 n.
