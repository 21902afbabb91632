(* Model of the values of the slant stack (/repo/swprocess/wavefieldtransforms.py:441-490) in double precision, see FloatSlantModel.v
   for the amplitudes that are read. *)
From Verif Require Export FloatSlantModel FloatStatModel.

(** A receiver: its position (wavefieldtransforms.py:462-463, the nearest one at zero) and its trace. *)
Definition receiver : Type := R * (Z -> R).
(** wavefieldtransforms.py:481-482 *)
Definition read (dt v : R) (tau : Z) (r : receiver) : R := amplitude (snd r) dt (fst r) v tau.
(** wavefieldtransforms.py:465 and 483 for two neighbouring receivers; Python computes (0.5*diff)*(...). *)
Definition piece (dt v : R) (tau : Z) (r r' : receiver) : R :=
  RN (RN (/ 2 * RN (fst r' - fst r)) * RN (read dt v tau r' + read dt v tau r)).
(** wavefieldtransforms.py:483: one column of `integral`. *)
Fixpoint pieces (dt v : R) (tau : Z) (rs : list receiver) : list R :=
  match rs with
  | r :: ((r' :: _) as t) => piece dt v tau r r' :: pieces dt v tau t
  | _ => []
  end.
(** wavefieldtransforms.py:484-485: the value at one velocity and intercept time.  np.sum adds the pieces in some order, described by a
    tree of additions (FloatStatModel.v); nothing to add gives zero. *)
Definition summation (dt v : R) (tau : Z) (rs : list receiver) (y : R) : Prop :=
  match pieces dt v tau rs with
  | [] => y = 0
  | l => exists t, Permutation (leaves t) l /\ y = fsum t
  end.
