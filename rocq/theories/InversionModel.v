(* Model of /repo/swprocess/inversion.py. *)
Set Warnings "-notation-overridden,-ambiguous-paths".
From mathcomp Require Import all_ssreflect all_algebra.
Set Implicit Arguments. Unset Strict Implicit. Unset Printing Implicit Defensive.
Import GRing.Theory.
Local Open Scope ring_scope.

(** Arrays are matrices over a field (exact arithmetic instead of floats); the shapes are
    those of the docstring (inversion.py:24-55), so numpy's errors for other shapes and its
    broadcasting do not occur. np.linalg.inv raises LinAlgError for a singular matrix. *)
Inductive outcome (A : Type) : Type := Solved (x : A) | LinAlgError.
Arguments LinAlgError {A}.
Definition inv (F : fieldType) n (M : 'M[F]_n) : outcome 'M[F]_n := if M \in unitmx then Solved (invmx M) else LinAlgError.

Section Model.
Variables (F : fieldType) (j k : nat).
(** inversion.py:22-60 *)
Definition leastsquare_iterativealgorithm (p0 pm : 'cV[F]_j) (covp0p0 : 'M[F]_j) (d0 dm : 'cV[F]_k) (covd0d0 : 'M[F]_k) (dgdp : 'M[F]_(k, j))
  : outcome 'cV[F]_j :=
  let a := covp0p0 *m dgdp^T in
  match inv (covd0d0 + dgdp *m covp0p0 *m dgdp^T) with
  | LinAlgError => LinAlgError
  | Solved b => let c := d0 - dm + dgdp *m (pm - p0) in Solved (p0 + a *m b *m c)
  end.
(** inversion.py:62-66 *)
Definition leastsquare_posterioricovmatrix (covp0p0 : 'M[F]_j) (covd0d0 : 'M[F]_k) (dgdp : 'M[F]_(k, j)) : outcome 'M[F]_j :=
  let a := covp0p0 *m dgdp^T in
  match inv (covd0d0 + dgdp *m covp0p0 *m dgdp^T) with
  | LinAlgError => LinAlgError
  | Solved b => let c := dgdp *m covp0p0 in Solved (covp0p0 - a *m b *m c)
  end.
End Model.
