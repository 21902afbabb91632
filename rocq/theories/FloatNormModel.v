(* Model of the normalisation of an image and of its peaks with every operation in double precision
   (/repo/swprocess/wavefieldtransforms.py:84-112 and 114-131).

   As in FloatModel.v there is no overflow, infinity or NaN: a division by zero, for which numpy
   gives NaN, is excluded by the hypotheses of the theorems.  Simplification: the powers are real.
   Those of a beamformer are complex until the first call, whose np.abs makes them real. *)
From Coq Require Export String.
From Verif Require Export FloatModel FloatSlantModel.

(** `self._to_abs`: one number, or one for each frequency. *)
Inductive factor := One (x : R) | Each (l : list R).
(** `self.power`, row by row (velocities) with one column for each frequency, and `self._to_abs`. *)
Record image := mk { power : list (list R); to_abs : factor }.

Definition map2 (f : R -> R -> R) (a b : list R) : list R := map (fun p => f (fst p) (snd p)) (combine a b).
(** Broadcasting of a rounded operation over the rows of [m]. *)
Definition by_factor (op : R -> R -> R) (m : list (list R)) (f : factor) : list (list R) :=
  match f with
  | One x => map (map (fun y => RN (op y x))) m
  | Each l => map (fun row => map2 (fun y x => RN (op y x)) row l) m
  end.
(** np.max(m) and np.max(m, axis=0). *)
Definition max_all (m : list (list R)) : R := np_max (concat m).
Definition column (m : list (list R)) (j : nat) : list R := map (fun row => nth j row 0) m.
Definition width (m : list (list R)) : nat := match m with [] => 0 | row :: _ => length row end.
Definition max_columns (m : list (list R)) : list R := map (fun j => np_max (column m j)) (seq 0 (width m)).

(** wavefieldtransforms.py:100-112.  None is the KeyError of line 111, which comes after the in-place
    product of line 100 (modelled in TransformModel.v). *)
Definition normalize (w : image) (by_ : string) : option image :=
  let p := by_factor Rmult (power w) (to_abs w) in
  let m := map (map Rabs) p in
  if String.eqb by_ "none" then Some (mk m (One 1))
  else if String.eqb by_ "absolute-maximum" then Some (mk (by_factor Rdiv m (One (max_all m))) (One (max_all m)))
  else if String.eqb by_ "frequency-maximum" then Some (mk (by_factor Rdiv m (Each (max_columns m))) (Each (max_columns m)))
  else None.
(** A sequence of calls. *)
Fixpoint calls (w : image) (l : list string) : option image :=
  match l with
  | [] => Some w
  | b :: t => match normalize w b with Some w' => calls w' t | None => None end
  end.

(** np.argmax: the first position of the greatest number. *)
Fixpoint first_equal (x : R) (l : list R) : nat :=
  match l with [] => 0 | y :: t => if Req_EM_T y x then 0 else S (first_equal x t) end.
Definition argmax (l : list R) : nat := first_equal (np_max l) l.
(** wavefieldtransforms.py:126-131: the velocity of column [j] where the power is greatest (`by="frequency-maximum"`). *)
Definition peak_row (w : image) (j : nat) : nat := argmax (column (power w) j).
