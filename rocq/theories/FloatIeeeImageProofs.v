(* Proofs on normalised images with infinities, NaN and overflow. *)
From Coq Require Import Lra Lia.
From Verif Require Import FloatModel FloatSpec FloatProofs FloatSlantModel FloatNormModel FloatNormSpec FloatNormProofs FloatNormProps
  FloatIeeeModel FloatIeeeProofs FloatIeeeImageModel FloatIeeeImageSpec.
Local Open Scope R_scope.
Local Notation double := FloatModel.double.
Local Notation fin := (fun x : b64 => is_finite x = true).

Lemma one_value : is_finite (of_Z 1) = true /\ B2R (of_Z 1) = 1.
Proof. destruct (of_Z_spec 1) as [F [V _]]; [lia|]. split; [exact F|exact V]. Qed.
Lemma bmax_real : forall l, Forall fin l -> is_finite (bmax l) = true /\ B2R (bmax l) = np_max (map B2R l).
Proof.
  intros [|x l] F; [split; reflexivity|]. inversion F; subst. unfold bmax, np_max, greatest. cbn [map]. now apply fold_real.
Qed.

(** One operation on two numbers whose result is in range. *)
Definition safe (bop : b64 -> b64 -> b64) (op : R -> R -> R) (x y : b64) : Prop :=
  is_finite (bop x y) = true /\ B2R (bop x y) = RN (op (B2R x) (B2R y)).

Lemma row_one bop op x row : Forall (fun y => safe bop op y x) row ->
  Forall fin (map (fun y => bop y x) row) /\ map B2R (map (fun y => bop y x) row) = map (fun y => RN (op y (B2R x))) (map B2R row).
Proof.
  induction 1 as [|y row [F V] _ [IF IV]]; cbn; [split; constructor|]. split; [now constructor|]. now rewrite V, IV.
Qed.
Lemma row_each bop op l : forall row, Forall (fun p => safe bop op (fst p) (snd p)) (combine row l) ->
  Forall fin (bmap2 bop row l) /\ map B2R (bmap2 bop row l) = map2 (fun y x => RN (op y x)) (map B2R row) (map B2R l).
Proof.
  induction l as [|x l IH]; intros [|y row] H; cbn; try (split; [constructor|reflexivity]).
  inversion H as [|? ? [F V] H']; subst. cbn in F, V. destruct (IH row H') as [IF IV]. split; [now constructor|].
  unfold map2 in *. cbn. unfold bmap2 in IV. rewrite V, IV. reflexivity.
Qed.
Definition value_factor (f : bfactor) : factor := match f with BOne x => One (B2R x) | BEach l => Each (map B2R l) end.
Definition safe_factor (bop : b64 -> b64 -> b64) (op : R -> R -> R) (m : list (list b64)) (f : bfactor) : Prop :=
  match f with
  | BOne x => Forall (Forall (fun y => safe bop op y x)) m
  | BEach l => Forall (fun row => Forall (fun p => safe bop op (fst p) (snd p)) (combine row l)) m
  end.
Lemma by_factor_real bop op m f : safe_factor bop op m f ->
  all_finite (by_bfactor bop m f) /\ values (by_bfactor bop m f) = by_factor op (values m) (value_factor f).
Proof.
  unfold all_finite, values. destruct f as [x|l]; cbn [safe_factor by_bfactor by_factor value_factor]; intros H.
  - induction H as [|row m Hr _ [IF IV]]; cbn; [split; [constructor|reflexivity]|]. destruct (row_one bop op x row Hr) as [F V].
    split; [now constructor|]. now rewrite V, IV.
  - induction H as [|row m Hr _ [IF IV]]; cbn; [split; [constructor|reflexivity]|]. destruct (row_each bop op l row Hr) as [F V].
    split; [now constructor|]. now rewrite V, IV.
Qed.
Lemma abs_real m : all_finite m -> all_finite (map (map Babs) m) /\ values (map (map Babs) m) = map (map Rabs) (values m).
Proof.
  unfold all_finite, values. induction 1 as [|row m Hr _ [IF IV]]; cbn; [split; [constructor|reflexivity]|]. split.
  - constructor; [|exact IF]. apply Forall_map. apply Forall_impl with (2 := Hr). intros x Hx. now rewrite is_finite_Babs.
  - rewrite IV. f_equal. rewrite !map_map. apply map_ext. intros x. apply B2R_Babs.
Qed.
Lemma column_real m j : values [bcolumn m j] = [column (values m) j].
Proof.
  unfold values, bcolumn, column. cbn. f_equal. rewrite !map_map. apply map_ext. intros row.
  change 0 with (B2R (B754_zero false : b64)). now rewrite map_nth.
Qed.
Lemma column_finite m j : all_finite m -> Forall fin (bcolumn m j).
Proof.
  intros F. unfold bcolumn. apply Forall_map. apply Forall_impl with (2 := F). intros row Hr.
  destruct (nth_in_or_default j row (B754_zero false)) as [I| ->]; [|reflexivity]. rewrite Forall_forall in Hr. now apply Hr.
Qed.
Lemma concat_finite m : all_finite m -> Forall fin (List.concat m).
Proof. induction 1; cbn; [constructor|]. apply Forall_app. now split. Qed.
Lemma max_all_real m : all_finite m -> is_finite (bmax_all m) = true /\ B2R (bmax_all m) = max_all (values m).
Proof.
  intros F. unfold bmax_all, max_all, values. rewrite <- concat_map. apply bmax_real. now apply concat_finite.
Qed.
Lemma max_columns_real m : all_finite m -> Forall fin (bmax_columns m) /\ map B2R (bmax_columns m) = max_columns (values m).
Proof.
  intros F. unfold bmax_columns, max_columns.
  assert (W : width (values m) = bwidth m) by (destruct m; cbn; [reflexivity|apply map_length]). rewrite W. rewrite map_map. split.
  - apply Forall_map. apply Forall_forall. intros j _. now apply bmax_real, column_finite.
  - apply map_ext. intros j. destruct (bmax_real (bcolumn m j)) as [_ V]; [now apply column_finite|]. rewrite V. f_equal.
    pose proof (column_real m j) as C. cbn in C. now injection C.
Qed.

(** ** The state after some calls: either nothing is normalised, or all powers are at most one. *)
Definition finite_factor (f : bfactor) : Prop := match f with BOne x => is_finite x = true | BEach l => Forall fin l end.
Definition unit_power (m : list (list b64)) : Prop := Forall (Forall (fun x => Rabs (B2R x) <= 1)) m.
Definition state (w : bimage) : Prop :=
  all_finite (bpower w) /\ finite_factor (bto_abs w) /\ (bto_abs w = BOne (of_Z 1) \/ unit_power (bpower w)).
Definition value (w : bimage) : image := mk (values (bpower w)) (value_factor (bto_abs w)).

Lemma mult_safe x y : is_finite x = true -> is_finite y = true -> Rabs (B2R x) <= 1 -> safe bmult Rmult x y.
Proof.
  intros Fx Fy H. apply mult_ok; auto. apply Rle_lt_trans with (Rabs (B2R y)).
  - apply RN_abs_le.
    + rewrite <- B2R_Babs. apply double_B2R.
    + rewrite Rabs_mult. pose proof (Rabs_pos (B2R y)) as P. apply Rle_trans with (1 * Rabs (B2R y)); [apply Rmult_le_compat_r; lra|lra].
  - exact (abs_B2R_lt_emax 53 1024 y).
Qed.
Lemma mult_one x : is_finite x = true -> safe bmult Rmult x (of_Z 1).
Proof.
  intros Fx. destruct one_value as [F1 V1]. apply mult_ok; auto. rewrite V1, Rmult_1_r. rewrite RN_id by apply double_B2R.
  exact (abs_B2R_lt_emax 53 1024 x).
Qed.
Lemma div_safe x y : is_finite x = true -> 0 < B2R y -> Rabs (B2R x) <= B2R y -> safe bdiv Rdiv x y /\ Rabs (B2R (bdiv x y)) <= 1.
Proof.
  intros Fx P H. assert (Q : Rabs (RN (B2R x / B2R y)) <= 1).
  { apply RN_abs_le; [apply double_1|]. unfold Rdiv. rewrite Rabs_mult, (Rabs_pos_eq (/ _)) by (apply Rlt_le, Rinv_0_lt_compat; lra).
    apply Rmult_le_reg_r with (B2R y); [exact P|]. rewrite Rmult_assoc, Rinv_l by lra. lra. }
  destruct (div_ok x y Fx) as [F V]; [lra| |].
  - eapply Rle_lt_trans; [exact Q|]. change 1 with (bpow radix2 0). apply bpow_lt. lia.
  - split; [split; [exact F|exact V]|]. rewrite V. exact Q.
Qed.
Lemma product_safe w : state w -> safe_factor bmult Rmult (bpower w) (bto_abs w).
Proof.
  intros (F & G & [E|U]).
  - rewrite E. cbn. apply Forall_impl with (2 := F). intros row Hr. apply Forall_impl with (2 := Hr). intros x. apply mult_one.
  - unfold all_finite, unit_power in *. destruct (bto_abs w) as [y|l]; cbn in *.
    + rewrite Forall_forall in *. intros row Hr. pose proof (F row Hr) as F'. pose proof (U row Hr) as U'. rewrite Forall_forall in *.
      intros x Hx. apply mult_safe; auto.
    + rewrite Forall_forall in *. intros row Hr. pose proof (F row Hr) as F'. pose proof (U row Hr) as U'. rewrite Forall_forall in *.
      intros [x y] Hx. apply mult_safe; cbn; [apply F'|apply G|apply U']; eauto using in_combine_l, in_combine_r.
Qed.

(** The magnitudes a call works with. *)
Definition magnitudes (w : image) : list (list R) := map (map Rabs) (by_factor Rmult (power w) (to_abs w)).
Definition bmagnitudes (w : bimage) : list (list b64) := map (map Babs) (by_bfactor bmult (bpower w) (bto_abs w)).
Lemma magnitudes_real w : state w -> all_finite (bmagnitudes w) /\ values (bmagnitudes w) = magnitudes (value w).
Proof.
  intros H. destruct (by_factor_real bmult Rmult _ _ (product_safe w H)) as [F V]. destruct (abs_real _ F) as [F' V'].
  split; [exact F'|]. unfold bmagnitudes, magnitudes. cbn [power to_abs value]. rewrite V', V. reflexivity.
Qed.
Lemma np_max_ge l x : In x l -> x <= np_max l.
Proof. intros I. destruct l as [|y l]; [easy|]. apply (np_max_spec (y :: l)); [discriminate|exact I]. Qed.

Definition rectangular (nc : nat) (m : list (list b64)) : Prop := Forall (fun row => List.length row = nc) m.
(** Every column of the magnitudes has a positive entry. *)
Definition alive (nc : nat) (m : list (list R)) : Prop := (forall j, (j < nc)%nat -> 0 < np_max (column m j)) /\ 0 < max_all m.

Lemma step_real nc w b : state w -> rectangular nc (bpower w) -> (forall l, bto_abs w = BEach l -> List.length l = nc) ->
  alive nc (magnitudes (value w)) ->
  match bnormalize w b with
  | None => normalize (value w) b = None
  | Some w' => state w' /\ rectangular nc (bpower w') /\ (forall l, bto_abs w' = BEach l -> List.length l = nc) /\ normalize (value w) b = Some (value w')
  end.
Proof.
  intros H Rc Lf [Al Aa]. destruct (magnitudes_real w H) as [F V].
  assert (Rm : rectangular nc (bmagnitudes w)).
  { unfold rectangular, bmagnitudes, by_bfactor in *. destruct (bto_abs w) as [x|l]; rewrite map_map; apply Forall_map; apply Forall_impl with (2 := Rc); intros row Hr.
    - now rewrite !map_length.
    - rewrite map_length. unfold bmap2. rewrite map_length, combine_length, (Lf l eq_refl), Hr. apply Nat.min_id. }
  unfold bnormalize, normalize. fold (bmagnitudes w). fold (magnitudes (value w)). rewrite <- V. rewrite <- V in Al, Aa. set (m := bmagnitudes w) in *.
  assert (Pos : forall row x, In row m -> In x row -> 0 <= B2R x).
  { intros row x Hr Hx. unfold m, bmagnitudes in Hr. apply in_map_iff in Hr. destruct Hr as (r0 & <- & _). apply in_map_iff in Hx.
    destruct Hx as (z & <- & _). rewrite B2R_Babs. apply Rabs_pos. }
  destruct (String.eqb b "none"); [|destruct (String.eqb b "absolute-maximum"); [|destruct (String.eqb b "frequency-maximum"); [|reflexivity]]].
  - split; [split; [exact F|split; [apply one_value|now left]]|]. split; [exact Rm|]. split; [discriminate|].
    unfold value. cbn [bpower bto_abs value_factor]. destruct one_value as [_ ->]. reflexivity.
  - destruct (max_all_real m F) as [Fm Vm].
    assert (K : Forall (Forall (fun x => safe bdiv Rdiv x (bmax_all m) /\ Rabs (B2R (bdiv x (bmax_all m))) <= 1)) m).
    { apply Forall_forall. intros row Hr. apply Forall_forall. intros x Hx. unfold all_finite in F. rewrite Forall_forall in F.
      pose proof (F row Hr) as F'. rewrite Forall_forall in F'. apply div_safe; [now apply F'|rewrite Vm; exact Aa|].
      rewrite Vm, Rabs_pos_eq by now apply (Pos row). apply np_max_ge. unfold values. rewrite <- concat_map. apply in_map. apply in_concat. eauto. }
    assert (S : safe_factor bdiv Rdiv m (BOne (bmax_all m))).
    { cbn. apply Forall_impl with (2 := K). intros row Hr. apply Forall_impl with (2 := Hr). tauto. }
    destruct (by_factor_real _ _ _ _ S) as [Fd Vd]. split; [split; [exact Fd|split; [exact Fm|right]]|].
    + unfold unit_power. cbn. apply Forall_map. apply Forall_impl with (2 := K). intros row Hr. apply Forall_map. apply Forall_impl with (2 := Hr). tauto.
    + split; [cbn; unfold rectangular; apply Forall_map; apply Forall_impl with (2 := Rm); intros row Hr; now rewrite map_length|].
      split; [discriminate|]. unfold value. cbn [bpower bto_abs]. rewrite Vd. cbn [value_factor]. rewrite Vm. reflexivity.
  - destruct (max_columns_real m F) as [Fm Vm].
    assert (Lc : List.length (bmax_columns m) = nc \/ m = []).
    { destruct m as [|row m']; [now right|left]. unfold bmax_columns. rewrite map_length, seq_length. cbn. now inversion Rm. }
    assert (K : Forall (fun row => Forall (fun p => safe bdiv Rdiv (fst p) (snd p) /\ Rabs (B2R (bdiv (fst p) (snd p))) <= 1) (combine row (bmax_columns m))) m).
    { apply Forall_forall. intros row Hr. apply Forall_forall. intros [x y] Hx.
      assert (Ne : m <> []) by (intros Q; rewrite Q in Hr; destruct Hr). destruct Lc as [Lc|Lc]; [|easy].
      unfold all_finite in F. rewrite Forall_forall in F. pose proof (F row Hr) as F'. rewrite Forall_forall in F'.
      assert (Lr : List.length row = nc) by (unfold rectangular in Rm; rewrite Forall_forall in Rm; now apply Rm).
      destruct (In_nth _ _ (B754_zero false, B754_zero false) Hx) as (j & Hj & Ej). rewrite combine_length, Lr, Lc, Nat.min_id in Hj.
      rewrite combine_nth in Ej by (transitivity nc; [exact Lr|symmetry; exact Lc]). injection Ej as Ex Ey.
      assert (Vy : B2R y = np_max (column (values m) j)).
      { assert (W : bwidth m = nc) by (unfold bmax_columns in Lc; now rewrite map_length, seq_length in Lc).
        rewrite <- Ey. unfold bmax_columns. rewrite (nth_map_in _ _ _ 0%nat) by (rewrite seq_length; lia).
        rewrite seq_nth by lia. cbn [Nat.add]. destruct (bmax_real (bcolumn m j)) as [_ Q]; [apply column_finite; unfold all_finite; now apply Forall_forall|].
        rewrite Q. f_equal. pose proof (column_real m j) as C. cbn in C. now injection C. }
      cbn [fst snd]. apply div_safe.
      - apply F'. now apply in_combine_l in Hx.
      - rewrite Vy. now apply Al.
      - rewrite Vy. rewrite Rabs_pos_eq by (apply (Pos row); [exact Hr|now apply in_combine_l in Hx]). apply np_max_ge. unfold column.
        rewrite <- Ex. apply in_map_iff. exists (map B2R row). split; [|unfold values; now apply in_map].
        change 0 with (B2R (B754_zero false : b64)). now rewrite map_nth. }
    assert (S : safe_factor bdiv Rdiv m (BEach (bmax_columns m))).
    { cbn. apply Forall_impl with (2 := K). intros row Hr. apply Forall_impl with (2 := Hr). tauto. }
    destruct (by_factor_real _ _ _ _ S) as [Fd Vd]. split; [split; [exact Fd|split; [exact Fm|right]]|].
    + unfold unit_power. cbn. apply Forall_map. apply Forall_impl with (2 := K). intros row Hr. unfold bmap2. apply Forall_map. apply Forall_impl with (2 := Hr). tauto.
    + destruct Lc as [Lc|Lc].
      * split; [|split].
        -- cbn. unfold rectangular. apply Forall_map. apply Forall_impl with (2 := Rm). intros row Hr. unfold bmap2. rewrite map_length, combine_length, Hr, Lc. apply Nat.min_id.
        -- cbn. intros l Q. injection Q as <-. exact Lc.
        -- unfold value. cbn [bpower bto_abs]. rewrite Vd. cbn [value_factor]. rewrite Vm. reflexivity.
      * exfalso. rewrite Lc in Aa. cbn in Aa. unfold max_all in Aa. cbn in Aa. lra.
Qed.

(** ** Sequences of calls *)
Lemma bcalls_snoc l b : forall w, bcalls w (l ++ [b]) = match bcalls w l with Some w' => bnormalize w' b | None => None end.
Proof. induction l as [|c l IH]; intros w; cbn; [destruct (bnormalize w b); reflexivity|]. destruct (bnormalize w c); [apply IH|reflexivity]. Qed.
Lemma calls_snoc l b : forall w, calls w (l ++ [b]) = match calls w l with Some w' => normalize w' b | None => None end.
Proof. induction l as [|c l IH]; intros w; cbn; [destruct (normalize w b); reflexivity|]. destruct (normalize w c); [apply IH|reflexivity]. Qed.

Lemma at_in_column m i j : 0 < at_ m i j -> at_ m i j <= np_max (column m j).
Proof.
  intros P. apply np_max_ge. unfold column, at_ in *. destruct (Nat.lt_ge_cases i (List.length m)) as [H|H].
  - apply in_map_iff. exists (nth i m []). split; [reflexivity|now apply nth_In].
  - rewrite (nth_overflow m) in P by exact H. destruct j; cbn in P; lra.
Qed.
Lemma at_in_all m i j : 0 < at_ m i j -> at_ m i j <= max_all m.
Proof.
  intros P. apply np_max_ge. unfold at_ in *. destruct (Nat.lt_ge_cases i (List.length m)) as [H|H].
  - apply in_concat. exists (nth i m []). split; [now apply nth_In|]. destruct (Nat.lt_ge_cases j (List.length (nth i m []))) as [K|K].
    + now apply nth_In.
    + rewrite nth_overflow in P by exact K. lra.
  - rewrite (nth_overflow m) in P by exact H. destruct j; cbn in P; lra.
Qed.
Lemma powers_of nr nc m : recorded_image nr nc m -> powers nr nc (values m).
Proof.
  intros (L & Rc & F & P & _). split; [unfold values; now rewrite map_length|]. unfold values. apply Forall_map.
  rewrite Forall_forall in *. intros row Hr. split; [rewrite map_length; now apply Rc|]. apply Forall_map. pose proof (P row Hr) as Q.
  rewrite Forall_forall in *. intros x Hx. split; [apply double_B2R|now apply Q].
Qed.
Lemma alive_after nr nc m l w : (0 < nr)%nat -> (0 < nc)%nat -> powers nr nc m -> in_range nr nc m -> INR (List.length l) <= 1099511627776 ->
  calls (mk m (One 1)) l = Some w -> alive nc (magnitudes w).
Proof.
  intros H1 H2 P I L C. assert (C' : calls (mk m (One 1)) (l ++ ["none"%string]) = Some (mk (magnitudes w) (One 1))).
  { rewrite calls_snoc, C. reflexivity. }
  assert (Pos : forall j, (j < nc)%nat -> exists i, 0 < at_ (magnitudes w) i j).
  { intros j Hj. destruct I as [Lo Hi]. destruct (Lo j Hj) as (i & Hi' & B). exists i.
    pose proof (any_error nr nc m l _ H1 H2 P (conj Lo Hi) L C' i j Hi' Hj) as Q. cbn [power] in Q. unfold allowed in Q.
    set (x := at_ m i j) in *. assert (U := u_value). pose proof u_pos as U0.
    assert (P400 : 0 < / IZR (2 ^ 400)) by (apply Rinv_0_lt_compat, IZR_lt; reflexivity).
    assert (P600 : / IZR (2 ^ 600) = / IZR (2 ^ 400) * / IZR (2 ^ 200)).
    { rewrite <- Rinv_mult. f_equal. rewrite <- mult_IZR. f_equal. }
    assert (P200 : 0 < / IZR (2 ^ 200) <= / 1000000000000000000000000000000).
    { split; [apply Rinv_0_lt_compat, IZR_lt; reflexivity|]. apply Rinv_le; [lra|]. apply IZR_le. intros K. discriminate K. }
    assert (S : / IZR (2 ^ 600) <= x * / 1000000000000000000000000000000) by (rewrite P600; apply Rmult_le_compat; lra).
    assert (T0 : 0 < / IZR (2 ^ 600)) by (apply Rinv_0_lt_compat, IZR_lt; reflexivity).
    assert (ux : u * x <= / 9000000000000000 * x) by (apply Rmult_le_compat_r; [lra|rewrite U; lra]).
    assert (ux0 : 0 <= u * x) by (apply Rmult_le_pos; lra).
    assert (n0 := pos_INR (List.length l)).
    assert (Z : 4 * INR (List.length l) * (u * x + / IZR (2 ^ 600)) <= 4 * 1099511627776 * (u * x + / IZR (2 ^ 600))).
    { apply Rmult_le_compat_r; lra. }
    apply Rabs_le_inv in Q. lra. }
  split.
  - intros j Hj. destruct (Pos j Hj) as (i & Q). eapply Rlt_le_trans; [exact Q|now apply at_in_column].
  - destruct (Pos 0%nat H2) as (i & Q). eapply Rlt_le_trans; [exact Q|now apply at_in_all].
Qed.
Lemma calls_real nr nc m l : (0 < nr)%nat -> (0 < nc)%nat -> recorded_image nr nc m -> INR (List.length l) <= 1099511627776 ->
  match bcalls (raw m) l with
  | None => calls (mk (values m) (One 1)) l = None
  | Some w => state w /\ rectangular nc (bpower w) /\ (forall k, bto_abs w = BEach k -> List.length k = nc) /\ calls (mk (values m) (One 1)) l = Some (value w)
  end.
Proof.
  intros H1 H2 Rc. pose proof (powers_of nr nc m Rc) as P. destruct Rc as (_ & Rm & F & _ & I).
  induction l as [|b l IH] using rev_ind; intros L.
  - cbn. split; [split; [exact F|split; [apply one_value|now left]]|]. split; [exact Rm|]. split; [discriminate|].
    unfold value, raw. cbn [bpower bto_abs value_factor]. destruct one_value as [_ ->]. reflexivity.
  - rewrite app_length, plus_INR in L. cbn in L. assert (L' : INR (List.length l) <= 1099511627776) by lra. specialize (IH L').
    rewrite bcalls_snoc, calls_snoc. destruct (bcalls (raw m) l) as [w|]; [|now rewrite IH].
    destruct IH as (S & Rw & Lw & C). rewrite C. apply (step_real nc w b S Rw Lw). exact (alive_after nr nc (values m) l _ H1 H2 P I L' C).
Qed.

(** ** Peaks *)
Lemma peak_real w j : all_finite (bpower w) -> bpeak_row w j = peak_row (value w) j.
Proof.
  intros F. unfold bpeak_row, peak_row, bargmax, argmax. cbn [power value].
  pose proof (column_finite (bpower w) j F) as Fc. pose proof (column_real (bpower w) j) as C. cbn in C. injection C as C. rewrite <- C.
  destruct (bmax_real _ Fc) as [Fm Vm]. rewrite <- Vm. set (x := bmax (bcolumn (bpower w) j)) in *.
  assert (N : is_nan x = false) by (destruct x; try discriminate; reflexivity). rewrite N. clearbody x. clear Vm C.
  induction Fc as [|y l Fy _ IH]; cbn; [reflexivity|]. rewrite Beqb_correct by assumption.
  case Req_bool_spec; intros Q; destruct (Req_EM_T (B2R y) (B2R x)) as [Q'|Q']; try contradiction; [reflexivity|]. now rewrite IH.
Qed.

Lemma refines nr nc m l : (0 < nr)%nat -> (0 < nc)%nat -> recorded_image nr nc m -> INR (List.length l) <= 1099511627776 ->
  match bcalls (raw m) l with
  | None => calls (mk (values m) (One 1)) l = None
  | Some w => all_finite (bpower w) /\ exists w', calls (mk (values m) (One 1)) l = Some w' /\ values (bpower w) = power w' /\
      forall j, bpeak_row w j = peak_row w' j
  end.
Proof.
  intros H1 H2 Rc L. pose proof (calls_real nr nc m l H1 H2 Rc L) as H. destruct (bcalls (raw m) l) as [w|]; [|exact H].
  destruct H as ((F & _) & _ & _ & C). split; [exact F|]. exists (value w). split; [exact C|]. split; [reflexivity|]. intros j. now apply peak_real.
Qed.
(** Only the names of the calls decide whether they succeed. *)
Lemma bnormalize_known w b : known b <-> exists w', bnormalize w b = Some w'.
Proof.
  unfold known, bnormalize. destruct (String.eqb_spec b "none"), (String.eqb_spec b "absolute-maximum"), (String.eqb_spec b "frequency-maximum");
    split; intros H; eauto; try tauto. destruct H as [w' H]. discriminate.
Qed.
Lemma bcalls_known l : forall w, Forall known l -> exists w', bcalls w l = Some w'.
Proof.
  induction l as [|b l IH]; intros w H; [now exists w|]. inversion H; subst. cbn.
  destruct (proj1 (bnormalize_known w b)) as [w' E]; [assumption|]. rewrite E. now apply IH.
Qed.
