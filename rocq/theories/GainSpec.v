(* Vocabulary for surveys recorded with another gain. *)
From Verif Require Import ArrayModel TransformModel.
Local Open Scope list_scope.

(** The same records with every sample multiplied by [c]. *)
Definition louder_series (c : Qc) (s : series) : series := mkSeries (map (Qcmult c) (amp s)) (dt s) (nstacks s) (delay s) (multiple s).
Definition louder_sensor (c : Qc) (s : sensor) : sensor := mkSensor (louder_series c (ser s)) (sx s) (sy s) (sz s).
Definition louder (c : Qc) (a : array) : array := mkArray (map (louder_sensor c) (sensors a)) (src a).
(** The array and the outcome of a method that changes it. *)
Definition louder_result (c : Qc) (r : array * result unit) : array * result unit := (louder c (fst r), snd r).
(** The result with [f] applied, or the same exception. *)
Definition outcome_map {A B} (f : A -> B) (r : result A) : result B := match r with Ok a => Ok (f a) | Err e => Err e end.
(** A magnitude spectrum grows with the gain. *)
Definition magnitude (spectrum : list Qc -> list Qc) : Prop := forall c l, (0 < c)%Qc -> spectrum (map (Qcmult c) l) = map (Qcmult c) (spectrum l).
(** The image with every power multiplied by [c]. *)
Definition louder_image (c : Qc) (w : transform flt) : transform flt := mkTransform (wn w) (wfrq w) (wvel w) (map (map (fmul (Fin c))) (power w)) (to_abs w).
