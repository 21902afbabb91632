(* Model of the offsets of the receivers, of the trimming by offset, of the distance of the array centre and of the
   resolution limit with every operation in double precision
   (/repo/swprocess/array1d.py:136-147, 155-156 and 192-219).  As in FloatModel.v there is no overflow,
   infinity or NaN.  Simplification: a receiver is given by its position. *)
From Verif Require Export FloatModel FloatStatModel.

(** array1d.py:141 *)
Definition offset (sx p : R) : R := Rabs (RN (sx - p)).
(** array1d.py:206-212: the receivers kept. *)
Fixpoint trim_loop (sx lo hi : R) (ps : list R) : list R :=
  match ps with
  | [] => []
  | p :: t =>
      let rest := if Rlt_dec hi (offset sx p) then [] else trim_loop sx lo hi t in
      if Rlt_dec lo (offset sx p) then if Rlt_dec (offset sx p) hi then p :: rest else rest else rest
  end.
(** array1d.py:214-219: None is the ValueError. *)
Definition trim_offsets (sx lo hi : R) (ps : list R) : option (list R) :=
  match trim_loop sx lo hi ps with [] => None | l => Some l end.
(** array1d.py:135-142; their np.mean is array1d.py:156. *)
Definition offsets (sx : R) (ps : list R) : list R := map (offset sx) ps.
(** array1d.py:147: [pi_] is np.pi; None is the ValueError of min() for a single receiver. *)
Definition kres (pi_ : R) (ps : list R) : option R :=
  match diffs ps with [] => None | d :: t => Some (RN (pi_ / least d t)) end.
