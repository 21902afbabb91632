(* Further vocabulary for extract_mseed. *)
From Verif Require Import ExtractModel ExtractSpec.
Local Open Scope Z_scope.

(** [hours] are the hours from that of [a] to that of [b], in chronological order. *)
Definition hours_between (a b : civil) (hours : list civil) : Prop :=
  (forall c, In c hours <-> valid c = true /\ hour_number a <= hour_number c <= hour_number b)
  /\ StronglySorted (fun a b => hour_number a < hour_number b) hours.
