(* Property C23, continued: what cross-correlation stores, for all velocities. *)
From Verif Require Import NumFacts SeriesModel SeriesSpec ArrayModel ArraySpec ArrayProofs ArrayMatrixProofs XcorrSpec XcorrProofs.
Local Open Scope nat_scope.

(** ** C23.  Whatever the velocities (zero is refused, see C23_zero_divisor) and however short the
    source record: the stored trace is the part [first, last) of the [m] lags from -(n - 1) on,
    where first and last are the intended lags plus n as Python's slices understand them. *)
Theorem C23_outcome : forall a srcamp srcdt vmin vmax mn mx,
  sensors a <> [] -> nearest_offset a mn -> farthest_offset a mx ->
  srcdt <> 0%Qc -> vmin <> 0%Qc -> vmax <> 0%Qc -> srcamp <> [] ->
  (forall s, In s (sensors a) -> amp (ser s) <> [] /\ (1 <= nstacks (ser s))%Z) ->
  let n := Z.of_nat (length srcamp) in
  exists a', xcorrelate a srcamp srcdt vmin vmax = (a', Ok tt) /\ src a' = src a /\
    Forall2 (fun s s' =>
       let m := (Z.of_nat (length (amp (ser s))) + n - 1)%Z in
       let first := kept_end m (n + intended_first_lag srcdt mn vmax) in
       let last := kept_end m (n + intended_end_lag srcdt mx vmin) in
       sx s' = sx s /\ sy s' = sy s /\ sz s' = sz s /\ dt (ser s') = dt (ser s) /\
       nstacks (ser s') = nstacks (ser s) /\ delay (ser s') = 0%Qc /\ multiple (ser s') = 1%Z /\
       Z.of_nat (length (amp (ser s'))) = Z.max 0 (last - first) /\
       forall k, k < length (amp (ser s')) ->
         nth k (amp (ser s')) 0%Qc = similarity (amp (ser s)) srcamp (first - (n - 1) + Z.of_nat k))
      (sensors a) (sensors a').
Proof. exact xcorrelate_outcome. Qed.
Print Assumptions C23_outcome.
(** A source record of three samples of 0.1 s: the first lag, five samples before zero, is
    counted from the end of the seven lags. *)
Example C23_outcome_nonvacuous :
  let s := mkSensor (mkSeries [QcZ 1; QcZ 2; QcZ 3; QcZ 4; QcZ 5] (Q2Qc (1 # 10)) 1 0 1) 0 0 0 in
  let a := mkArray [s] (mkSource 0 0 0) in
  nearest_offset a 0%Qc /\ farthest_offset a 0%Qc /\
  intended_first_lag (Q2Qc (1 # 10)) 0 (QcZ 3000) = (-5)%Z /\ kept_end 7 (3 + -5) = 5%Z.
Proof.
  assert (Z0 : Qcabs (0 - 0) = 0%Qc) by (apply Qc_is_canon; reflexivity).
  split; [|split; [|split; vm_compute; reflexivity]];
    (split; [eexists; split; [left; reflexivity|]; apply Qceqb_eq; vm_compute; reflexivity|]);
    intros s [<-|[]]; apply Qcleb_le; vm_compute; reflexivity.
Qed.
