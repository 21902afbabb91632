(* Vocabulary of the second part of C52: what a program sees of a suite. *)
From Coq Require Import List.
From Verif Require Import Py PeaksModel PeaksSpec SuiteModel.
Import ListNotations.

(** The Peaks objects a suite holds, as they are now. *)
Definition shown (w : world) (t : nat) : list peaks :=
  map (deref w) (members (the_suite w t)).
(** Two suites hold no object in common. *)
Definition apart (w : world) (s t : nat) : Prop :=
  forall r, In r (members (the_suite w s)) -> ~ In r (members (the_suite w t)).
(** The object accepts the rejection. *)
Definition accepts (p : peaks) (x : rejection) : Prop := snd (do_reject p x) = Ok tt.
(** The object after the rejection. *)
Definition after (x : rejection) (p : peaks) : peaks := fst (do_reject p x).
Definition holds (w : world) (s r : nat) : bool :=
  if in_dec PeanoNat.Nat.eq_dec r (members (the_suite w s)) then true else false.
