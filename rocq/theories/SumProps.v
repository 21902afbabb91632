(* C133: what two sources contribute to a record adds up. *)
From Verif Require Import NumFacts PyFacts ArrayModel TransformModel SpectrumModel BeamModel SumSpec SumProofs SumOpsProofs.
Local Open Scope nat_scope.
Local Open Scope list_scope.

(** Removing the trend from a sum of records. *)
Theorem C133_detrend : forall a b, same_layout a b -> array_detrend (added a b) = added (array_detrend a) (array_detrend b).
Proof. exact array_detrend_added. Qed.
Print Assumptions C133_detrend.

(** Trimming, padding and muting a sum of records; the results again have one layout, so that steps can follow each other. *)
Theorem C133_operations : forall a b a' b', same_layout a b ->
  (forall st en, array_trim a st en = (a', Ok tt) -> array_trim b st en = (b', Ok tt) -> array_trim (added a b) st en = (added a' b', Ok tt) /\ same_layout a' b') /\
  (forall df, array_zero_pad a df = (a', Ok tt) -> array_zero_pad b df = (b', Ok tt) -> array_zero_pad (added a b) df = (added a' b', Ok tt) /\ same_layout a' b') /\
  (forall taper ss se, mute a taper ss se = (a', Ok tt) -> mute b taper ss se = (b', Ok tt) -> mute (added a b) taper ss se = (added a' b', Ok tt) /\ same_layout a' b').
Proof. intros a b a' b' Y. split; [intros; now apply array_trim_added|split; intros; [now apply array_pad_added|now apply mute_added]]. Qed.
Print Assumptions C133_operations.

(** Correlating a sum of records with a source signal. *)
Theorem C133_xcorrelate : forall a b w d vmin vmax a' b', same_layout a b -> xcorrelate a w d vmin vmax = (a', Ok tt) -> xcorrelate b w d vmin vmax = (b', Ok tt) ->
  xcorrelate (added a b) w d vmin vmax = (added a' b', Ok tt).
Proof. exact xcorrelate_added. Qed.
Print Assumptions C133_xcorrelate.

(** The slant stack of a sum is the sum of two slant stacks of the same shape; a refusal is the same for all three. *)
Theorem C133_slant_stack : forall a b vels, same_layout a b ->
  (forall ra rb, slant_stack a vels = Ok ra -> slant_stack b vels = Ok rb -> map (@List.length Qc) ra = map (@List.length Qc) rb /\ slant_stack (added a b) vels = Ok (map2 (map2 Qcplus) ra rb)) /\
  (forall e, slant_stack a vels = Err e -> slant_stack b vels = Err e /\ slant_stack (added a b) vels = Err e).
Proof. intros a b vels Y. split; [intros ra rb A B; split; [exact (shape_added a b vels ra rb Y A B)|exact (slant_added a b vels ra rb Y A B)]|intros e; exact (slant_refused a b vels e Y)]. Qed.
Print Assumptions C133_slant_stack.

(** So is the complex image, at the same frequencies. *)
Theorem C133_image : forall a b vels fmin fmax fa fb ra rb, same_layout a b -> slant_transform a vels fmin fmax = Ok (fa, ra) -> slant_transform b vels fmin fmax = Ok (fb, rb) ->
  fb = fa /\ slant_transform (added a b) vels fmin fmax = Ok (fa, map2 (map2 Cadd) ra rb).
Proof. exact image_added. Qed.
Print Assumptions C133_image.

(** * Concrete cases *)
Local Definition rec (f : Z -> Z) (x : Z) : sensor := mkSensor (mkSeries (map (fun k => QcZ (f k)) [0; 1; 4; 2; 5; 3; 7; 1]%Z) (Q2Qc (1 # 10)) 1%Z 0%Qc 1%Z) (QcZ x) 0%Qc 0%Qc.
Local Definition shot (f : Z -> Z) : array := mkArray [rec f 0; rec (fun k => f (k + 1)%Z) 1; rec f 3] (mkSource (QcZ (-1)) 0%Qc 0%Qc).
Local Definition one := shot (fun k => k).
Local Definition two := shot (fun k => k * k - 3)%Z.
Example C133_layout : same_layout one two.
Proof. split; [|reflexivity]. repeat constructor. Qed.
Local Definition same_rows (r s : result (list (list Qc))) : bool :=
  match r, s with Ok x, Ok y => forallb (fun p => forallb (fun q => Qceqb (fst q) (snd q)) (combine (fst p) (snd p))) (combine x y) && Nat.eqb (List.length x) (List.length y) | _, _ => false end.
Local Definition rows_sum (r s : result (list (list Qc))) : result (list (list Qc)) := match r, s with Ok x, Ok y => Ok (map2 (map2 Qcplus) x y) | _, _ => Err ValueError end.
Example C133_slant_example : same_rows (slant_stack (added one two) [QcZ 10; QcZ 20]) (rows_sum (slant_stack one [QcZ 10; QcZ 20]) (slant_stack two [QcZ 10; QcZ 20])) = true
  /\ match slant_stack one [QcZ 10; QcZ 20] with Ok r => map (@List.length Qc) r | _ => [] end = [4; 4]%nat
  /\ same_rows (slant_stack (added one two) [QcZ 10; QcZ 20]) (slant_stack one [QcZ 10; QcZ 20]) = false.
Proof. split; [vm_compute; reflexivity|split; vm_compute; reflexivity]. Qed.
Example C133_refused : slant_stack one [0%Qc] = Err OverflowError.
Proof. reflexivity. Qed.
Local Definition lengths (r : array * result unit) : list nat := match r with (a, Ok _) => map (fun s => List.length (amp (ser s))) (sensors a) | _ => [] end.
Example C133_correlated : lengths (xcorrelate one [1%Qc; QcZ 2] (Q2Qc (1 # 10)) (QcZ 4) 1%Qc) = lengths (xcorrelate two [1%Qc; QcZ 2] (Q2Qc (1 # 10)) (QcZ 4) 1%Qc)
  /\ lengths (xcorrelate one [1%Qc; QcZ 2] (Q2Qc (1 # 10)) (QcZ 4) 1%Qc) <> [].
Proof. split; [vm_compute; reflexivity|vm_compute; discriminate]. Qed.
Example C133_image_example : match slant_transform one [QcZ 10; QcZ 20] 0%Qc (QcZ 3), slant_transform two [QcZ 10; QcZ 20] 0%Qc (QcZ 3) with Ok (f, p), Ok (g, q) => [List.length f; List.length p; List.length g; List.length q] | _, _ => [] end = [3; 2; 3; 2]%nat.
Proof. lazy. reflexivity. Qed.
Example C133_operations_example : lengths (array_trim one (Q2Qc (2 # 10)) (Q2Qc (5 # 10))) = [4; 4; 4]%nat /\ lengths (array_trim two (Q2Qc (2 # 10)) (Q2Qc (5 # 10))) = [4; 4; 4]%nat /\
  lengths (array_zero_pad one 1%Qc) = [10; 10; 10]%nat /\ lengths (array_zero_pad two 1%Qc) = [10; 10; 10]%nat /\
  lengths (mute one (repeat 1%Qc) None None) = [8; 8; 8]%nat /\ lengths (mute two (repeat 1%Qc) None None) = [8; 8; 8]%nat.
Proof. split; [vm_compute; reflexivity|]. split; [vm_compute; reflexivity|]. split; [vm_compute; reflexivity|]. split; [vm_compute; reflexivity|]. split; vm_compute; reflexivity. Qed.
