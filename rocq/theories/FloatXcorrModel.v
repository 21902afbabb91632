(* Model of the alignment of two records by cross-correlation in double precision
   (/repo/swprocess/activetimeseries.py:289-352); SeriesModel.v has it in exact arithmetic.  As in FloatModel.v there is no
   overflow, infinity or NaN. *)
From Verif Require Export FloatModel FloatSlantModel FloatStatModel FloatNormModel.

(** scipy.signal.correlate(a, b), entry number k, by its direct method: the rounded products a[l] * b[l-k+M-1] of the
    samples that exist, added in the order of the tree [t]. *)
Definition pairs (a b : list R) (k : nat) : list (R * R) :=
  flat_map (fun l => let m := (Z.of_nat l - Z.of_nat k + Z.of_nat (length b) - 1)%Z in
    if andb (0 <=? m)%Z (m <? Z.of_nat (length b))%Z then [(nth l a 0, nth (Z.to_nat m) b 0)] else []) (seq 0 (length a)).
Definition products (a b : list R) (k : nat) : list R := map (fun p => RN (fst p * snd p)) (pairs a b k).
Definition entry_of (a b : list R) (k : nat) (x : R) : Prop := exists t, Permutation (leaves t) (products a b k) /\ x = fsum t.
Definition correlation_of (a b corr : list R) : Prop :=
  length corr = (length a + length b - 1)%nat /\ forall k, (k < length corr)%nat -> entry_of a b k (nth k corr 0).
(** activetimeseries.py:345-352 for the correlation [corr] and the record [b]. *)
Definition shifted (k : Z) (b : list R) : list R :=
  if (0 <? k)%Z then repeat 0 (Z.to_nat k) ++ firstn (length b - Z.to_nat k) b
  else if (k <? 0)%Z then skipn (Z.to_nat (Z.abs k)) b ++ repeat 0 (Z.to_nat (Z.abs k))
  else b.
Definition crosscorr_shift (corr b : list R) : Z * list R :=
  let shifts := (Z.of_nat (argmax corr) + 1 - Z.of_nat (length b))%Z in (shifts, shifted shifts b).
