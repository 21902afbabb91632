(* Where a Python slice of a sequence of [m] samples begins or ends. *)
From Coq Require Import ZArith.
(** A negative bound counts from the end; bounds outside the sequence are moved to its ends. *)
Definition kept_end (m bound : Z) : Z := if (bound <? 0)%Z then Z.max 0 (m + bound) else Z.min bound m.
