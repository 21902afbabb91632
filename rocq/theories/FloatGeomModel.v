(* Model of the logarithmic trial velocities in double precision (/repo/swprocess/wavefieldtransforms.py:51-57,
   np.geomspace); see FloatModel.v and FloatAxisModel.v (np.linspace). *)
From Verif Require Export FloatModel FloatAxisModel.

(** np.geomspace(start, stop, n) for positive numbers and n >= 2, entry number i (wavefieldtransforms.py:55, 57):
    10 to the powers np.linspace(log10(start), log10(stop), n), whose first and last entries are replaced by start and
    stop.  [log10_] and [pow10_] are those of the C library, which numpy calls. *)
Definition geomspace_at (log10_ pow10_ : R -> R) (start stop : R) (n i : Z) : R :=
  if Z.eqb i 0 then start
  else if Z.eqb i (n - 1) then stop
  else pow10_ (linspace_at (log10_ start) (log10_ stop) n i).
