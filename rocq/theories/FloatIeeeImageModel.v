(* Model of the normalisation of an image and of its peaks with IEEE double precision numbers as they are, with infinities, NaN and
   overflow (/repo/swprocess/wavefieldtransforms.py:84-112 and 114-131).  FloatNormModel.v has the same over real numbers, without
   overflow; the simplification stated there, real powers, is made here too. *)
From Verif Require Export FloatIeeeModel.

(** `self._to_abs`: one number, or one for each frequency. *)
Inductive bfactor := BOne (x : b64) | BEach (l : list b64).
(** `self.power`, row by row, and `self._to_abs`. *)
Record bimage := bmk { bpower : list (list b64); bto_abs : bfactor }.

Definition bmap2 (f : b64 -> b64 -> b64) (a b : list b64) : list b64 := map (fun p => f (fst p) (snd p)) (combine a b).
(** Broadcasting over the rows of [m]. *)
Definition by_bfactor (op : b64 -> b64 -> b64) (m : list (list b64)) (f : bfactor) : list (list b64) :=
  match f with
  | BOne x => map (map (fun y => op y x)) m
  | BEach l => map (fun row => bmap2 op row l) m
  end.
(** np.max of a non-empty list, of an image, and of its columns. *)
Definition bmax (l : list b64) : b64 := match l with [] => B754_zero false | x :: t => fold_left maximum t x end.
Definition bmax_all (m : list (list b64)) : b64 := bmax (List.concat m).
Definition bcolumn (m : list (list b64)) (j : nat) : list b64 := map (fun row => nth j row (B754_zero false)) m.
Definition bwidth (m : list (list b64)) : nat := match m with [] => 0 | row :: _ => List.length row end.
Definition bmax_columns (m : list (list b64)) : list b64 := map (fun j => bmax (bcolumn m j)) (seq 0 (bwidth m)).

(** wavefieldtransforms.py:100-112; None is the KeyError of line 111. *)
Definition bnormalize (w : bimage) (by_ : string) : option bimage :=
  let p := by_bfactor bmult (bpower w) (bto_abs w) in
  let m := map (map Babs) p in
  if String.eqb by_ "none" then Some (bmk m (BOne (of_Z 1)))
  else if String.eqb by_ "absolute-maximum" then Some (bmk (by_bfactor bdiv m (BOne (bmax_all m))) (BOne (bmax_all m)))
  else if String.eqb by_ "frequency-maximum" then Some (bmk (by_bfactor bdiv m (BEach (bmax_columns m))) (BEach (bmax_columns m)))
  else None.
(** A sequence of calls. *)
Fixpoint bcalls (w : bimage) (l : list string) : option bimage :=
  match l with
  | [] => Some w
  | b :: t => match bnormalize w b with Some w' => bcalls w' t | None => None end
  end.
(** np.argmax: the first NaN, or the first of the greatest numbers. *)
Fixpoint first_that (p : b64 -> bool) (l : list b64) : nat :=
  match l with [] => 0 | y :: t => if p y then 0 else S (first_that p t) end.
Definition bargmax (l : list b64) : nat :=
  let x := bmax l in if is_nan x then first_that is_nan l else first_that (fun y => Beqb y x) l.
(** wavefieldtransforms.py:126-131 *)
Definition bpeak_row (w : bimage) (j : nat) : nat := bargmax (bcolumn (bpower w) j).
