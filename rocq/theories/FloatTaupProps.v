(* Theorems on the values of the slant stack in double precision. *)
From Coq Require Import Lra Lia.
From Verif Require Import FloatModel FloatSpec FloatProofs FloatSlantModel FloatSlantSpec FloatStatModel FloatTaupModel FloatTaupSpec FloatTaupProofs.
Local Open Scope R_scope.

(** ** C119 *)
(** Each value is the trapezoidal rule over the receivers, up to the error of the amplitudes that are read and some rounding errors
    for each receiver, times the length of the line, in whatever order the pieces are added. *)
Theorem C119_value : forall dt v A T tau rs y, line_ok dt v A T rs -> rs <> [] -> T <= 1099511627776 -> INR (length rs) <= 1073741824 ->
  summation dt v tau rs y ->
  let E := reading_error A T in
  Rabs (y - trapezoids dt v tau rs) <=
  aperture rs * (E + (5 + 3 * INR (length rs)) * (u * (A + E))) + 2 * INR (length rs) * (tiny * (5 * (A + E) + 1)).
Proof. intros dt v A T tau rs y [O F] N HT L S. exact (summation_near dt v A T tau HT rs y O F N L S). Qed.
Print Assumptions C119_value.
(** A single receiver has no pieces: the value is zero. *)
Lemma one_receiver : forall dt v tau r y, summation dt v tau [r] y <-> y = 0.
Proof. intros dt v tau r y. reflexivity. Qed.
(** For every order of the additions there is a value. *)
Lemma some_value : forall dt v tau r r' rs t, Permutation (leaves t) (pieces dt v tau (r :: r' :: rs)) -> summation dt v tau (r :: r' :: rs) (fsum t).
Proof. intros dt v tau r r' rs t H. unfold summation. cbn [pieces]. exists t. split; [exact H|reflexivity]. Qed.
(* up to 100 receivers on 100 m, samples of at most 1, moveouts of up to 1000 samples: nine digits *)
Example C119_digits : forall dt v tau rs y, line_ok dt v 1 1000 rs -> rs <> [] -> INR (length rs) <= 100 -> aperture rs <= 100 ->
  summation dt v tau rs y -> Rabs (y - trapezoids dt v tau rs) <= / 1000000000.
Proof.
  intros dt v tau rs y H N L Ap S. pose proof (C119_value dt v 1 1000 tau rs y H N ltac:(lra) ltac:(lra) S) as Q. cbv zeta in Q.
  eapply Rle_trans; [exact Q|]. clear Q. pose proof tiny_pos as T0. pose proof tiny_small as T1.
  pose proof u_pos as U0. assert (U1 : u <= / 9000000000000000) by (rewrite u_value; lra).
  set (E := reading_error 1 1000). assert (E1 : 0 <= E <= 12009 * u + 16 * tiny) by (unfold E, reading_error; lra).
  set (n := INR (length rs)) in *. assert (n0 : 0 <= n) by apply pos_INR.
  assert (P1 : 0 <= u * (1 + E) <= 2 * u). { split; [apply Rmult_le_pos; lra|]. replace (2 * u) with (u * 2) by ring. apply Rmult_le_compat_l; lra. }
  assert (P2 : (5 + 3 * n) * (u * (1 + E)) <= 305 * (2 * u)) by (apply Rmult_le_compat; lra).
  assert (P20 : 0 <= (5 + 3 * n) * (u * (1 + E))) by (apply Rmult_le_pos; lra).
  assert (P3 : aperture rs * (E + (5 + 3 * n) * (u * (1 + E))) <= 100 * (12009 * u + 16 * tiny + 305 * (2 * u))).
  { apply Rle_trans with (100 * (E + (5 + 3 * n) * (u * (1 + E)))); [apply Rmult_le_compat_r; lra|]. apply Rmult_le_compat_l; lra. }
  assert (P4 : tiny * (5 * (1 + E) + 1) <= tiny * 20) by (apply Rmult_le_compat_l; lra).
  assert (P40 : 0 <= tiny * (5 * (1 + E) + 1)) by (apply Rmult_le_pos; lra).
  assert (P5 : 2 * n * (tiny * (5 * (1 + E) + 1)) <= 200 * (tiny * 20)) by (apply Rmult_le_compat; lra). lra.
Qed.
(* three receivers at 0, 2 and 5 m with a pulse, one sample each millisecond, 100 m/s *)
Definition pulse (k : Z) : Z -> R := fun i => if Z.eqb i k then 1 else 0.
Definition line : list receiver := [(0, pulse 3); (2, pulse 23); (5, pulse 53)].
Example C119_case : line_ok (1 / 1000) 100 1 1000 line /\ line <> [] /\ INR (length line) <= 100 /\ aperture line <= 100 /\
  trapezoids (1 / 1000) 100 3 line = 5.
Proof.
  assert (K : forall z, (Z.abs z <= 2 ^ 53)%Z -> FloatModel.double (IZR z)) by (intros z Hz; rewrite <- (RN_int z Hz); apply RN_double).
  assert (P : forall k i, Rabs (pulse k i) <= 1). { intros k i. unfold pulse. destruct (Z.eqb i k); rewrite ?Rabs_R0, ?Rabs_R1; lra. }
  split; [|split; [discriminate|split; [|split]]].
  - split; [cbn; lra|]. unfold sizes_ok. repeat apply Forall_cons; try apply Forall_nil; cbn [fst snd].
    + split; [apply K; lia|]. split; [apply P|]. split; [left; lra|lra].
    + split; [apply K; lia|]. split; [apply P|]. split; [right; lra|lra].
    + split; [apply K; lia|]. split; [apply P|]. split; [right; lra|lra].
  - cbn. lra.
  - unfold aperture. cbn. lra.
  - unfold line. cbn [trapezoids fst snd]. unfold arrival. cbn [fst snd].
    assert (F : forall z k, interp (pulse k) (IZR z) = pulse k z).
    { intros z k. unfold interp. rewrite Zfloor_IZR. lra. }
    replace (3 + 0 / (100 * (1 / 1000))) with (IZR 3) by lra. replace (3 + 2 / (100 * (1 / 1000))) with (IZR 23) by lra.
    replace (3 + 5 / (100 * (1 / 1000))) with (IZR 53) by lra. rewrite !F. cbn. lra.
Qed.
