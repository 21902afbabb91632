(* Vocabulary for arrays that refer to sensor objects: C124. *)
From Verif Require Import NumFacts ArrayModel ArraySpec ArrayShareModel.

(** No sensor belongs to both arrays. *)
Definition apart (w : memory) (i j : nat) : Prop :=
  forall r, In r (held (array_at w i)) -> ~ In r (held (array_at w j)).
(** No array refers to the sensor. *)
Definition loose (w : memory) (r : nat) : Prop :=
  forall i, i < length (arrays w) -> ~ In r (held (array_at w i)).

(** What a constructor guarantees whatever happens later to the samples. *)
Definition orderly (w : memory) (i : nat) : Prop :=
  held (array_at w i) <> [] /\ NoDup (held (array_at w i)) /\
  (forall r, In r (held (array_at w i)) -> r < length (cells w)) /\
  increasing (map sx (sensors (seen w i))).

(** The methods that work on the sensors the array has. *)
Definition in_place (m : method) : Prop :=
  match m with TrimOffsets _ _ | Correlate _ _ _ _ => False | _ => True end.

(** The methods called on one array, in their order. *)
Definition calls_on (j : nat) (l : list (nat * method)) : list method :=
  map snd (filter (fun p => Nat.eqb (fst p) j) l).
Definition program (l : list (nat * method)) : list deed := map (fun p => OnArray (fst p) (snd p)) l.
(** The array after some calls. *)
Definition after_calls (a : array) (l : list method) : array := fold_left (fun a m => fst (call a m)) l a.

(** A statement that keeps arrays apart: an array is made of sensors no array has, and
    only such sensors are worked on directly. *)
Definition careful (w : memory) (d : deed) : Prop :=
  match d with
  | MakeArray rs _ => forall r, In r rs -> loose w r
  | SensorTrim r _ _ | SensorPad r _ | SensorAppend r _ => loose w r
  | _ => True
  end.
Fixpoint careful_program (w : memory) (l : list deed) : Prop :=
  match l with
  | [] => True
  | d :: t => careful w d /\ careful_program (fst (perform w d)) t
  end.
