(* Theorems on the functions that are modelled in double precision (FloatModel.v). *)
From Coq Require Import Lra Lia.
From Verif Require Import FloatModel FloatSpec FloatProofs.

(** C93: an SU coordinate with the scalar -10^e is read as the double nearest to i/10^e: the
    later round() changes nothing. *)
Theorem C93_coordinate : forall i e, (0 <= e <= 9)%Z -> (Z.abs i <= 2 ^ 40)%Z ->
  read_divided i e = RN (IZR i / IZR (10 ^ e)).
Proof. exact read_divided_nearest. Qed.
Print Assumptions C93_coordinate.
Example C93_coordinate_case : read_divided 2500 3 = 5 / 2.
Proof.
  rewrite C93_coordinate by lia. replace (IZR 2500 / IZR (10 ^ 3)) with (5 / 2) by (change (10 ^ 3)%Z with 1000%Z; field).
  apply round_generic; [apply valid_rnd_N|]. apply generic_format_FLT. exists (Float radix2 5 (-1)); try easy.
Qed.

(** With the scalar 10^e it is read exactly. *)
Theorem C93_multiplied : forall i e, (0 <= e)%Z -> read_multiplied i e = (i * 10 ^ e)%Z.
Proof. exact read_multiplied_exact. Qed.
Print Assumptions C93_multiplied.

(** Every coordinate and delay that can come out of an SU file written by the program is written as
    the same integer again, and read as the same double. *)
Theorem C93_stable : forall k, (Z.abs k <= 2 ^ 31)%Z ->
  write_thousandths (read_divided k 3) = k /\ write_thousandths (read_delay k) = k /\
  read_divided (write_thousandths (read_divided k 3)) 3 = read_divided k 3 /\
  read_delay (write_thousandths (read_delay k)) = read_delay k.
Proof.
  intros k Hk. rewrite read_divided_nearest by lia. change (10 ^ 3)%Z with 1000%Z. unfold read_delay.
  rewrite written_back by exact Hk. rewrite read_divided_nearest by lia. change (10 ^ 3)%Z with 1000%Z. repeat split.
Qed.
Print Assumptions C93_stable.
Example C93_stable_case : write_thousandths (read_delay (-500)) = (-500)%Z /\ write_thousandths (read_divided 46001 3) = 46001%Z.
Proof. split; [apply (C93_stable (-500)); lia|apply (C93_stable 46001); lia]. Qed.

(** Any position up to about 2147 km comes back from the file within half a millimetre (and 10 nm
    for the rounding errors), and fits the 32-bit field. *)
Theorem C93_half_millimetre : forall x, Rabs x <= 2147483 ->
  (Z.abs (write_thousandths x) <= 2 ^ 31)%Z /\ Rabs (read_divided (write_thousandths x) 3 - x) <= 50001 / 100000000.
Proof. intros x Hx. split; [apply written_near, Hx|apply read_back_near, Hx]. Qed.
Print Assumptions C93_half_millimetre.
Example C93_half_millimetre_case : Rabs (PI) <= 2147483.
Proof. rewrite Rabs_pos_eq; [|left; apply PI_RGT_0]. assert (H := PI_4). lra. Qed.

(** C94: one step of stacking in doubles differs from the exact weighted mean by at most four
    rounding errors of the size of the larger sample. *)
Theorem C94_one_record : forall a n b m M, (1 <= n)%Z -> (1 <= m)%Z -> Rabs a <= M -> Rabs b <= M ->
  Rabs (stack2 a n b m - mean [(a, n); (b, m)]) <= 4 * u * M + tiny.
Proof.
  intros a n b m M Hn Hm Ha Hb. unfold mean, weighted, total. rewrite Rplus_0_r, Z.add_0_r. now apply stack2_error.
Qed.
Print Assumptions C94_one_record.

(** Over a whole history of appended records, of any counts, the stack stays within a rounding error
    per record of the exact mean of all of them, and the count is exact. *)
Theorem C94_history : forall a n l M, counts_ok ((a, n) :: l) M -> (Z.of_nat (length l) <= 2 ^ 40)%Z ->
  snd (stack_all a n l) = total ((a, n) :: l) /\
  Rabs (fst (stack_all a n l) - mean ((a, n) :: l)) <= IZR (Z.of_nat (length l)) * (8 * u * M + 2 * tiny).
Proof. exact stack_history. Qed.
Print Assumptions C94_history.
Example C94_history_case : counts_ok [(1 / 3, 1%Z); (- (1 / 7), 5%Z); (1, 2%Z)] 1.
Proof.
  unfold counts_ok. repeat apply Forall_cons; [..|apply Forall_nil]; (split; [cbn; lia|cbn; apply Rabs_le; lra]).
Qed.

(** C95: receivers read from a file that are exactly k centimetres apart (in the millimetres of
    the file) have, in doubles too, a spacing, and it is the double nearest to k/100. *)
Theorem C95_equal : forall cs k, (2 <= length cs)%nat -> Forall (fun c => (Z.abs c <= 900000000)%Z) cs ->
  (forall i, (S i < length cs)%nat -> (nth (S i) cs 0 - nth i cs 0 = 10 * k)%Z) ->
  spacing (map (fun c => read_divided c 3) cs) = Some (RN (IZR k / 100)).
Proof. exact spacing_of_millimetres. Qed.
Print Assumptions C95_equal.
Example C95_equal_case : spacing (map (fun c => read_divided c 3) [100; 310; 520]%Z) = Some (RN (21 / 100)).
Proof.
  apply (C95_equal _ 21); [cbn; lia|repeat constructor; cbn; lia|].
  intros [|[|i]] H; cbn in *; lia.
Qed.

(** The same for any positions whose steps are within 4.9 mm of k centimetres. *)
Theorem C95_accepted : forall p k, near_origin p -> (2 <= length p)%nat ->
  (forall i, (S i < length p)%nat -> Rabs (step p i - IZR k / 100) <= 49 / 10000) ->
  spacing p = Some (RN (IZR k / 100)).
Proof. exact spacing_found. Qed.
Print Assumptions C95_accepted.

(** Steps that differ by 10.1 mm are refused. *)
Theorem C95_refused : forall p i j, near_origin p -> (S i < length p)%nat -> (S j < length p)%nat ->
  101 / 10000 <= step p i - step p j -> spacing p = None.
Proof. exact spacing_uneven. Qed.
Print Assumptions C95_refused.
Example C95_refused_case : spacing [0; 1; 3] = None.
Proof.
  apply (C95_refused _ 1 0); [|cbn; lia|cbn; lia|unfold step; cbn; lra].
  unfold near_origin. repeat apply Forall_cons; [..|apply Forall_nil]; apply Rabs_le; lra.
Qed.

(** A spacing that is found: all steps agree within 10.0001 mm, and the spacing is near each of them. *)
Theorem C95_found : forall p s, near_origin p -> spacing p = Some s ->
  (2 <= length p)%nat /\ (forall i j, (S i < length p)%nat -> (S j < length p)%nat -> Rabs (step p i - step p j) <= 100001 / 10000000) /\
  (forall i, (S i < length p)%nat -> - 5011 / 1000000 <= step p i - s <= 15011 / 1000000).
Proof. exact spacing_found_near. Qed.
Print Assumptions C95_found.
