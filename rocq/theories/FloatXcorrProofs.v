(* Proofs about cross-correlation in double precision. *)
From Coq Require Import Lra Lia.
From Verif Require Import PyFacts FloatModel FloatSpec FloatProofs FloatSlantModel FloatSlantProofs FloatStatModel FloatStatSpec FloatStatProofs FloatNormModel FloatNormProofs FloatXcorrModel FloatXcorrSpec.

Lemma first_equal_nth x l : In x l -> (first_equal x l < length l)%nat /\ nth (first_equal x l) l 0 = x.
Proof.
  induction l as [|y t IH]; [easy|]. intros H. cbn [first_equal]. destruct (Req_EM_T y x) as [E|E]; [cbn; split; [lia|exact E]|].
  destruct H as [H|H]; [contradiction|]. destruct (IH H). cbn. split; [lia|auto].
Qed.
Lemma argmax_nth l : l <> [] -> (argmax l < length l)%nat /\ forall k, (k < length l)%nat -> nth k l 0 <= nth (argmax l) l 0.
Proof.
  intros H. destruct (np_max_spec l H) as [I M]. destruct (first_equal_nth _ _ I) as [L E]. unfold argmax. split; [exact L|].
  intros k Hk. rewrite E. apply M, nth_In, Hk.
Qed.
(** The place of the best delay. *)
Definition delay_of (b : list R) (k : nat) : Z := (Z.of_nat k + 1 - Z.of_nat (length b))%Z.
Lemma best_found E a b corr d : a <> [] -> b <> [] -> length corr = (length a + length b - 1)%nat ->
  (forall k, (k < length corr)%nat -> Rabs (nth k corr 0 - correlation a b (delay_of b k)) <= E) ->
  best_by (2 * E) a b d -> fst (crosscorr_shift corr b) = d.
Proof.
  intros Ha Hb L H [O B]. assert (La : (0 < length a)%nat) by (destruct a; [easy|cbn; lia]). assert (Lb : (0 < length b)%nat) by (destruct b; [easy|cbn; lia]).
  assert (Hc : corr <> []) by (intros ->; cbn in L; lia). destruct (argmax_nth corr Hc) as [A M]. cbn [fst crosscorr_shift].
  set (k := argmax corr) in *. change (delay_of b k = d). unfold overlap in O. set (kd := Z.to_nat (d - 1 + Z.of_nat (length b))).
  assert (Kd : (kd < length corr)%nat) by (unfold kd; lia). assert (Ed : delay_of b kd = d) by (unfold delay_of, kd; lia).
  destruct (Z.eq_dec (delay_of b k) d) as [Q|Q]; [exact Q|exfalso].
  assert (Ov : overlap a b (delay_of b k)) by (unfold overlap, delay_of; lia). pose proof (B _ Ov Q) as B1. pose proof (H k A) as H1. pose proof (H kd Kd) as H2.
  rewrite Ed in H2. pose proof (M kd Kd) as M1. apply Rabs_le_inv in H1. apply Rabs_le_inv in H2. lra.
Qed.

(** Rounding errors of one entry. *)
Lemma Rsum_app l m : Rsum (l ++ m) = Rsum l + Rsum m.
Proof. induction l as [|x l IH]; cbn [app Rsum]; [lra|rewrite IH; lra]. Qed.
Lemma pairs_sum (g : R -> R -> R) a b k : (forall x, g x 0 = 0) ->
  Rsum (map (fun p => g (fst p) (snd p)) (pairs a b k)) = sum_to (length a) (fun l => g (nth l a 0) (sample b (Z.of_nat l - delay_of b k))).
Proof.
  intros G. unfold pairs. set (n := length a) at 1 2. clearbody n. induction n as [|n IH]; [reflexivity|].
  replace (seq 0 (S n)) with (seq 0 n ++ [n]) by (rewrite seq_S; reflexivity). rewrite flat_map_app, map_app, Rsum_app, IH. cbn [sum_to flat_map app]. f_equal.
  unfold sample, delay_of. replace (Z.of_nat n - (Z.of_nat k + 1 - Z.of_nat (length b)))%Z with (Z.of_nat n - Z.of_nat k + Z.of_nat (length b) - 1)%Z by lia.
  set (m := (Z.of_nat n - Z.of_nat k + Z.of_nat (length b) - 1)%Z). destruct (Z.leb_spec 0 m) as [H1|H1]; cbn [andb].
  - destruct (Z.ltb_spec m 0); [lia|]. destruct (Z.ltb_spec m (Z.of_nat (length b))) as [H2|H2].
    + cbn [map Rsum app fst snd]. lra.
    + cbn [map Rsum app]. rewrite (nth_overflow b) by lia. now rewrite G.
  - destruct (Z.ltb_spec m 0); [|lia]. cbn [map Rsum app]. now rewrite G.
Qed.
Lemma pairs_length a b k : (length (pairs a b k) <= length a)%nat.
Proof.
  unfold pairs. rewrite <- (seq_length (length a) 0) at 2. generalize (seq 0 (length a)) as s. induction s as [|l s IH]; [cbn; lia|].
  cbn [flat_map length]. rewrite app_length. destruct (andb _ _); cbn [length]; lia.
Qed.
Lemma products_error l : Rabs (Rsum (map (fun p : R * R => RN (fst p * snd p)) l) - Rsum (map (fun p => fst p * snd p) l)) <= u * Rsum (map (fun p => Rabs (fst p * snd p)) l) + INR (length l) * (tiny / 32) /\
  Rsum (map Rabs (map (fun p : R * R => RN (fst p * snd p)) l)) <= (1 + u) * Rsum (map (fun p => Rabs (fst p * snd p)) l) + INR (length l) * (tiny / 32).
Proof.
  pose proof tiny_pos as T. induction l as [|[x y] l [I1 I2]]; [cbn [map Rsum length INR]; rewrite Rminus_0_r, Rabs_R0; lra|].
  cbn [map Rsum length fst snd]. rewrite S_INR. pose proof (RN_error (x * y)) as E. split.
  - match goal with |- Rabs (?a + ?b - (?c + ?d)) <= _ => replace (a + b - (c + d)) with ((a - c) + (b - d)) by ring end.
    apply Rle_trans with (1 := Rabs_triang _ _). lra.
  - assert (Q : Rabs (RN (x * y)) <= Rabs (x * y) + (u * Rabs (x * y) + tiny / 32)).
    { replace (RN (x * y)) with (x * y + (RN (x * y) - x * y)) by ring. apply Rle_trans with (1 := Rabs_triang _ _). lra. }
    lra.
Qed.
Lemma size_nonneg a b d : 0 <= size a b d.
Proof. unfold size. generalize (length a) as n. induction n as [|n IH]; cbn [sum_to]; [lra|]. match goal with |- _ <= _ + Rabs ?x => pose proof (Rabs_pos x) end. lra. Qed.
Lemma entry_error a b k x : INR (length a) <= 1073741824 -> entry_of a b k x ->
  Rabs (x - correlation a b (delay_of b k)) <= allowed (length a) (size a b (delay_of b k)).
Proof.
  intros Hn (t & Lt & ->). pose proof u_pos as U0. pose proof tiny_pos as T0. assert (U1 : u <= / 1000000000000000) by (rewrite u_value; lra).
  assert (Fd : Forall double (products a b k)) by (apply Forall_forall; intros y Hy; apply in_map_iff in Hy; destruct Hy as (p & <- & _); apply RN_double).
  assert (Ln : (1 <= length (leaves t))%nat).
  { clear. induction t as [y|t1 IH1 t2 IH2]; cbn [leaves length]; [lia|]. rewrite app_length. lia. }
  assert (Lp : length (leaves t) = length (pairs a b k)) by (rewrite (Permutation_length Lt); apply map_length).
  pose proof (pairs_length a b k) as Pl. pose proof (le_INR _ _ Pl) as Pr. rewrite <- Lp in Pr.
  pose proof (le_INR _ _ Ln) as N1. cbn [INR] in N1.
  pose proof (perm_error t _ Lt Fd ltac:(rewrite <- (Permutation_length Lt); lra)) as E. rewrite <- (Permutation_length Lt) in E. destruct (products_error (pairs a b k)) as [P1 P2]. fold (products a b k) in P1, P2.
  rewrite (pairs_sum Rmult a b k ltac:(intros; ring)) in P1. fold (correlation a b (delay_of b k)) in P1.
  rewrite (pairs_sum (fun x y => Rabs (x * y)) a b k ltac:(intros; cbv beta; rewrite Rmult_0_r; apply Rabs_R0)) in P1, P2. fold (size a b (delay_of b k)) in P1, P2.
  pose proof (size_nonneg a b (delay_of b k)) as S0. set (s := size a b (delay_of b k)) in *. set (c := correlation a b (delay_of b k)) in *. rewrite <- Lp in P1, P2.
  set (m := INR (length (leaves t))) in *. set (n := INR (length a)) in *.
  replace (fsum t - c) with ((fsum t - Rsum (products a b k)) + (Rsum (products a b k) - c)) by ring. apply Rle_trans with (1 := Rabs_triang _ _).
  assert (Q1 : 1.01 * (m - 1) * u * Rsum (map Rabs (products a b k)) <= 1.01 * (m - 1) * u * ((1 + u) * s + m * (tiny / 32))).
  { apply Rmult_le_compat_l; [|exact P2]. apply Rmult_le_pos; [apply Rmult_le_pos; lra|lra]. }
  assert (Mu : (m - 1) * u <= / 100000) by (apply Rle_trans with (1073741824 * u); [apply Rmult_le_compat_r; lra|lra]).
  assert (Mt : 0 <= m * tiny) by (apply Rmult_le_pos; lra).
  assert (Mt' : m * tiny <= n * tiny) by (apply Rmult_le_compat_r; lra).
  assert (Q2 : (m - 1) * u * (m * tiny) <= / 100000 * (m * tiny)) by (apply Rmult_le_compat_r; lra).
  assert (Us : 0 <= u * s) by (apply Rmult_le_pos; lra).
  assert (Q3 : (m - 1) * (u * s) * (1 + u) <= (m - 1) * (u * s) * (1001 / 1000)).
  { apply Rmult_le_compat_l; [apply Rmult_le_pos; lra|lra]. }
  assert (Q4 : m * (u * s) <= n * (u * s)) by (apply Rmult_le_compat_r; lra). unfold allowed. fold n.
  assert (Q5 : 0 <= (m - 1) * (u * s)) by (apply Rmult_le_pos; lra). 
  lra.
Qed.
(** The shift moves samples and adds zeros. *)
Lemma shifted_length k b : (Z.abs k <= Z.of_nat (length b))%Z -> length (shifted k b) = length b.
Proof.
  intros H. unfold shifted. destruct (Z.ltb_spec 0 k); [rewrite app_length, repeat_length, firstn_length; lia|].
  destruct (Z.ltb_spec k 0); [rewrite app_length, repeat_length, skipn_length; lia|reflexivity].
Qed.
Lemma shifted_nth k b j : (Z.abs k <= Z.of_nat (length b))%Z -> (j < length b)%nat -> nth j (shifted k b) 0 = sample b (Z.of_nat j - k).
Proof.
  intros H Hj. unfold shifted, sample. destruct (Z.ltb_spec 0 k) as [K|K].
  - destruct (Z.ltb_spec (Z.of_nat j - k) 0) as [L|L].
    + rewrite app_nth1 by (rewrite repeat_length; lia). apply nth_repeat.
    + rewrite app_nth2 by (rewrite repeat_length; lia). rewrite repeat_length, nth_firstn_lt by lia. f_equal. lia.
  - destruct (Z.ltb_spec (Z.of_nat j - k) 0) as [L|L]; [lia|]. destruct (Z.ltb_spec k 0) as [K'|K'].
    + destruct (Nat.lt_ge_cases (j + Z.to_nat (Z.abs k)) (length b)) as [Q|Q].
      * rewrite app_nth1 by (rewrite skipn_length; lia). rewrite nth_skipn. f_equal. lia.
      * rewrite app_nth2 by (rewrite skipn_length; lia). rewrite nth_repeat, nth_overflow; [reflexivity|lia].
    + f_equal. lia.
Qed.
