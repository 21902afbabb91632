(* Independent vocabulary for the least-squares inversion. *)
Set Warnings "-notation-overridden,-ambiguous-paths".
From mathcomp Require Import all_ssreflect all_algebra.
Set Implicit Arguments. Unset Strict Implicit. Unset Printing Implicit Defensive.
Import GRing.Theory Num.Theory Order.Theory.
Local Open Scope ring_scope.

Section Spec.
Variable F : realFieldType.
(** x' M x *)
Definition quad n (M : 'M[F]_n) (x : 'cV[F]_n) : F := (x^T *m M *m x) 0 0.
(** Covariances of non-degenerate distributions: symmetric and positive definite. *)
Definition positive_definite n (M : 'M[F]_n) : Prop := M^T = M /\ forall x, x != 0 -> 0 < quad M x.
Definition positive_semidefinite n (M : 'M[F]_n) : Prop := M^T = M /\ forall x, 0 <= quad M x.
(** The information matrix G' Cd^-1 G + Cp^-1. *)
Definition information j k (covp : 'M[F]_j) (covd : 'M[F]_k) (G : 'M[F]_(k, j)) : 'M[F]_j := G^T *m invmx covd *m G + invmx covp.
(** The misfit of parameters [p] whose predicted data are [d]:
    (p - p0)' Cp^-1 (p - p0) + (d0 - d)' Cd^-1 (d0 - d). *)
Definition misfit j k (p0 : 'cV[F]_j) (covp : 'M[F]_j) (d0 : 'cV[F]_k) (covd : 'M[F]_k) (p : 'cV[F]_j) (d : 'cV[F]_k) : F :=
  quad (invmx covp) (p - p0) + quad (invmx covd) (d0 - d).
End Spec.
