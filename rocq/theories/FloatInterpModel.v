(* Model of the resampling of dispersion curves in double precision (/repo/swprocess/peakssuite.py:617-630); SuiteModel.v has
   it in exact arithmetic.  As in FloatModel.v there is no overflow, infinity or NaN among the given numbers. *)
From Verif Require Export FloatModel.

(** np.interp, to which scipy's interp1d leads for one-dimensional doubles, for a place [v] inside the range of the points
    (x, y) [a :: l] (increasing x). *)
Fixpoint interp_from (a : R * R) (l : list (R * R)) (v : R) : R :=
  match l with
  | [] => snd a
  | b :: t =>
      if Rle_dec (fst b) v then interp_from b t v
      else if Req_EM_T (fst a) v then snd a
      else RN (RN (RN (RN (snd b - snd a) / RN (fst b - fst a)) * RN (v - fst a)) + snd a)
  end.
(** peakssuite.py:623-629: one entry of a row; None stands for np.nan (`bounds_error=False, fill_value=np.nan`, or no point
    at all). *)
Definition resample (points : list (R * R)) (v : R) : option R :=
  match points with
  | [] => None
  | a :: t => if Rlt_dec v (fst a) then None else if Rlt_dec (fst (last t a)) v then None else Some (interp_from a t v)
  end.
