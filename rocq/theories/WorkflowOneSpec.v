(* Vocabulary for the agreement of the workflows on one file. *)
From Verif Require Import WorkflowModel WorkflowSpec.
Local Open Scope list_scope.

(** The transform of an array needs the frequencies and velocities of the empty one. *)
Definition needs_axes (geomspace : Qc -> Qc -> Z -> result (list Qc)) (g : array -> json -> result (transform flt)) : Prop :=
  forall a proc t, g a proc = Ok t -> exists st e, wt_of proc = Ok st /\ empty_from_array geomspace a st = Ok e.
(** The same image after [n] files. *)
Definition after_files (n : nat) (t : transform flt) : transform flt :=
  mkTransform (Z.of_nat n) (wfrq t) (wvel t) (power t) (Scalar f1).
