(* Vocabulary for files that cannot be read although every line is a line of numbers. *)
From Verif Require Import MaxModel MaxSpec.
Local Open Scope nat_scope.
Local Open Scope list_scope.

(** The six numbers of the line can be read; the slowness may be zero. *)
Definition legible (e : entry) : Prop :=
  (exists f, parse_float (e_frq e) = Ok f) /\ (exists s, parse_float (e_slo e) = Ok (Fin s)) /\
  (exists a, parse_float (e_azi e) = Ok a) /\ (exists l, parse_float (e_ell e) = Ok l) /\
  (exists n, parse_float (e_noi e) = Ok n) /\ (exists p, parse_float (e_pwr e) = Ok p).
Definition zero_slowness (e : entry) : Prop := parse_float (e_slo e) = Ok (Fin 0%Qc).

(** The capital letters with their small letters. *)
Definition capitals : list (ascii * ascii) :=
  combine (list_ascii_of_string "ABCDEFGHIJKLMNOPQRSTUVWXYZ") (list_ascii_of_string "abcdefghijklmnopqrstuvwxyz").
Definition made_small (a b : ascii) : Prop := In (a, b) capitals \/ (a = b /\ ~ In a (map fst capitals)).
