(* Vocabulary for dispersion images. *)
From Verif Require Import ImageModel TransformSpec.
Local Open Scope nat_scope.
Local Open Scope list_scope.

(** Equally spaced values from zero to the greatest value of the image. *)
Definition spans (levels : list flt) (p : list (list Qc)) : Prop :=
  exists top, greatest (List.concat p) top /\ (0 < top)%Qc /\ List.length levels = 21 /\
    forall k, k <= 20 -> nth k levels NaN = Fin (QcN k * top / QcN 20)%Qc.
(** [w] is a fresh transform with power [m], normalised as in [history] since. *)
Definition after (m : list (list Qc)) (history : list string) (w : transform flt) : Prop :=
  exists w0, to_abs w0 = Scalar f1 /\ power w0 = fin m /\ w = normalize_all fabs fmul (fun x => x) w0 history.
(** An image that can be drawn. *)
Definition drawable_image (nr nc : nat) (m : list (list Qc)) (fs vs : list Qc) : Prop :=
  rect nr nc m /\ 2 <= nr /\ 2 <= nc /\ nonneg m /\ List.length fs = nc /\ List.length vs = nr /\
  (exists r x, In r m /\ In x r /\ (0 < x)%Qc).
