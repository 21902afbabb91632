(* Vocabulary for the theorems on normalised images with infinities, NaN and overflow. *)
From Verif Require Import FloatModel FloatSpec FloatNormModel FloatNormSpec FloatIeeeModel FloatIeeeImageModel.

(** The numbers of an image. *)
Definition values (m : list (list b64)) : list (list R) := map (map B2R) m.
Definition all_finite (m : list (list b64)) : Prop := Forall (Forall (fun x => is_finite x = true)) m.
(** An image of [nr] rows and [nc] columns of finite powers, none negative, whose columns all reach 2^-400, with no power above 2^400. *)
Definition recorded_image (nr nc : nat) (m : list (list b64)) : Prop :=
  List.length m = nr /\ Forall (fun row => List.length row = nc) m /\ all_finite m /\
  Forall (Forall (fun x => (0 <= B2R x)%R)) m /\ in_range nr nc (values m).
Definition raw (m : list (list b64)) : bimage := bmk m (BOne (of_Z 1)).
(** The requests that exist. *)
Definition known (b : string) : Prop := b = "none"%string \/ b = "absolute-maximum"%string \/ b = "frequency-maximum"%string.
