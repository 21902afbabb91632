(* Proofs about the dense regions of a data matrix. *)
From Verif Require Import StatsModel StatsSpec PyFacts NumFacts SuiteProofs StatsProofs.
From Coq Require Import Permutation.
Local Open Scope nat_scope.
Local Open Scope list_scope.

Lemma sum_cons a l : list_sum (a :: l) = a + list_sum l. Proof. reflexivity. Qed.
Lemma sum_app l k : list_sum (l ++ k) = list_sum l + list_sum k.
Proof. induction l as [|a l IH]; auto. cbn [app]. rewrite !sum_cons, IH. lia. Qed.
Lemma sum_add {A} (f g : A -> nat) l : list_sum (map (fun x => f x + g x) l) = list_sum (map f l) + list_sum (map g l).
Proof. induction l as [|a l IH]; auto. cbn [map]. rewrite !sum_cons, IH. lia. Qed.
Lemma sum_ext {A} (f g : A -> nat) l : (forall x, In x l -> f x = g x) -> list_sum (map f l) = list_sum (map g l).
Proof. intros H. f_equal. now apply map_ext_in. Qed.
Lemma sum_over_S a b f : a <= b -> sum_over a (S b) f = sum_over a b f + f b.
Proof.
  intros L. unfold sum_over. replace (S b - a) with (S (b - a)) by lia. rewrite seq_S, map_app, sum_app. cbn [map].
  rewrite sum_cons. change (list_sum []) with 0. replace (a + (b - a)) with b by lia. lia.
Qed.
Lemma sum_over_nil a f : sum_over a a f = 0. Proof. unfold sum_over. now rewrite Nat.sub_diag. Qed.
Lemma sum_over_one a f : sum_over a (S a) f = f a. Proof. rewrite sum_over_S, sum_over_nil by auto. reflexivity. Qed.
Lemma sum_over_add a b f g : sum_over a b (fun x => f x + g x) = sum_over a b f + sum_over a b g.
Proof. apply sum_add. Qed.
Lemma sum_over_ext a b f g : (forall x, a <= x < b -> f x = g x) -> sum_over a b f = sum_over a b g.
Proof. intros H. apply sum_ext. intros x I. apply in_seq in I. apply H. lia. Qed.
Definition one (x : flt) : nat := if is_nan x then 0 else 1.
Lemma values_row m r0 c0 r1 c1 : r0 <= r1 ->
  values_in m r0 c0 (S r1) c1 = values_in m r0 c0 r1 c1 + sum_over c0 c1 (fun j => one (cell m r1 j)).
Proof. intros L. unfold values_in. now rewrite sum_over_S. Qed.
Lemma values_col m r0 c0 r1 c1 : c0 <= c1 ->
  values_in m r0 c0 r1 (S c1) = values_in m r0 c0 r1 c1 + sum_over r0 r1 (fun i => one (cell m i c1)).
Proof.
  intros L. unfold values_in. rewrite <- sum_over_add. apply sum_over_ext. intros i _. now rewrite sum_over_S.
Qed.
Lemma cut_eq {A} (d : A) a b l : b <= List.length l -> cut a b l = map (fun j => nth j l d) (seq a (b - a)).
Proof.
  intros L. apply (nth_ext_len d).
  - unfold cut. rewrite firstn_length, skipn_length, map_length, seq_length. lia.
  - intros i Hi. assert (i < b - a) by (unfold cut in Hi; rewrite firstn_length in Hi; lia).
    unfold cut. rewrite nth_firstn_lt, nth_skipn by auto. rewrite nth_map_seq by auto. reflexivity.
Qed.
Lemma count_map {A} (f : A -> flt) l : count_observed (map f l) = list_sum (map (fun x => one (f x)) l).
Proof.
  unfold count_observed, observed, one. induction l as [|a l IH]; auto. cbn [map filter]. rewrite sum_cons, <- IH.
  destruct (is_nan (f a)); reflexivity.
Qed.
Lemma row_count n m i a b : rectangular n m -> i < List.length m -> b <= n ->
  count_observed (cut a b (nth i m [])) = sum_over a b (fun j => one (cell m i j)) /\ List.length (cut a b (nth i m [])) = b - a.
Proof.
  intros R Hi Hb. assert (L : List.length (nth i m []) = n) by (apply R, nth_In; auto).
  rewrite (cut_eq NaN) by lia. rewrite count_map, map_length, seq_length. auto.
Qed.
Lemma col_count m j a b : b <= List.length m ->
  count_observed (column j (cut a b m)) = sum_over a b (fun i => one (cell m i j)) /\ List.length (column j (cut a b m)) = b - a.
Proof.
  intros Hb. rewrite (cut_eq []) by auto. unfold column. rewrite map_map, count_map, map_length, seq_length. auto.
Qed.
Lemma dense_spec thr n t : dense thr n t = true <-> (thr <= QcN n / QcN t)%Qc.
Proof. unfold dense. apply Qcleb_le. Qed.

Section Growth.
  Variables (ncols : nat) (m : matrix) (thr : Qc).
  Hypothesis R : rectangular ncols m.
  Notation nrows := (List.length m).
  Definition region_ok r0 c0 r1 c1 : Prop := has_density m thr ((r0, c0), (r1, c1)).
  (** what the loop knows about the region so far *)
  Definition known r0 c0 c_row c_col n_vals totaln (off : nat) : Prop :=
    r0 <= c_row /\ c_row < nrows /\ c0 <= c_col /\ c_col < ncols /\
    n_vals = values_in m r0 c0 (c_row + 1) (c_col + 1) + off /\ totaln = cells_in r0 c0 (c_row + 1) (c_col + 1).
  Definition taller r0 c0 r c off : bool :=
    dense thr (values_in m r0 c0 (S (r + 1)) (c + 1) + off) (cells_in r0 c0 (S (r + 1)) (c + 1)).
  Definition wider r0 c0 r c off : bool :=
    dense thr (values_in m r0 c0 (r + 1) (S (c + 1)) + off) (cells_in r0 c0 (r + 1) (S (c + 1))).
  Lemma grow_spec off r0 c0 fuel : forall c_row c_col n_vals totaln,
    known r0 c0 c_row c_col n_vals totaln off -> dense thr n_vals totaln = true ->
    (nrows - c_row) + (ncols - c_col) <= fuel + 1 ->
    1 <= fuel ->
    exists r c n t, grow nrows ncols m thr fuel r0 c0 c_row c_col n_vals totaln = Some (r, c) /\
      known r0 c0 r c n t off /\ dense thr n t = true /\ c_col <= c /\ c_row <= r /\
      (r + 1 < nrows -> taller r0 c0 r c off = false) /\ (c + 1 < ncols -> wider r0 c0 r c off = false).
  Proof.
    induction fuel as [|k IH]; intros c_row c_col nv tn K D F F1; [lia|].
    destruct K as (A1 & A2 & A3 & A4 & A5 & A6). cbn [grow].
    set (s1 := if Nat.ltb (c_row + 1) nrows then _ else _).
    assert (S1 : exists rf r n t, s1 = (rf, r, n, t) /\ known r0 c0 r c_col n t off /\ dense thr n t = true /\
      (rf = true -> r = c_row /\ (c_row + 1 < nrows -> taller r0 c0 c_row c_col off = false)) /\ (rf = false -> r = c_row + 1)).
    { unfold s1; clear s1. cbv zeta. destruct (Nat.ltb_spec (c_row + 1) nrows) as [H|H].
      - destruct (row_count ncols m (c_row + 1) c0 (c_col + 1) R H ltac:(lia)) as [Cn Ln]. rewrite Cn, Ln.
        assert (En : nv + sum_over c0 (c_col + 1) (fun j => one (cell m (c_row + 1) j)) = values_in m r0 c0 (S (c_row + 1)) (c_col + 1) + off)
          by (rewrite values_row by lia; lia).
        assert (Et : tn + (c_col + 1 - c0) = cells_in r0 c0 (S (c_row + 1)) (c_col + 1))
          by (rewrite A6; unfold cells_in; replace (S (c_row + 1) - r0) with (S (c_row + 1 - r0)) by lia; lia).
        rewrite En, Et. fold (taller r0 c0 c_row c_col off). destruct (taller r0 c0 c_row c_col off) eqn:E.
        + eexists _, _, _, _. split; [reflexivity|]. split; [|split; [exact E|split; [discriminate|auto]]].
          unfold known. replace (c_row + 1 + 1) with (S (c_row + 1)) by lia. repeat split; lia.
        + eexists _, _, _, _. split; [reflexivity|]. unfold known. repeat split; auto; discriminate.
      - eexists _, _, _, _. split; [reflexivity|]. unfold known. repeat split; auto; try discriminate. lia. }
    destruct S1 as (rf & r & n & t & -> & (B1 & B2 & B3 & B4 & B5 & B6) & D1 & Rt & Rf).
    set (s2 := if Nat.ltb (c_col + 1) ncols then _ else _).
    assert (S2 : exists cf c n t, s2 = (cf, c, n, t) /\ known r0 c0 r c n t off /\ dense thr n t = true /\
      (cf = true -> c = c_col /\ (c_col + 1 < ncols -> wider r0 c0 r c_col off = false)) /\ (cf = false -> c = c_col + 1)).
    { unfold s2; clear s2. cbv zeta. destruct (Nat.ltb_spec (c_col + 1) ncols) as [H|H].
      - destruct (col_count m (c_col + 1) r0 (r + 1) ltac:(lia)) as [Cn Ln]. rewrite Cn, Ln.
        assert (En : n + sum_over r0 (r + 1) (fun i => one (cell m i (c_col + 1))) = values_in m r0 c0 (r + 1) (S (c_col + 1)) + off)
          by (rewrite values_col by lia; lia).
        assert (Et : t + (r + 1 - r0) = cells_in r0 c0 (r + 1) (S (c_col + 1)))
          by (rewrite B6; unfold cells_in; replace (S (c_col + 1) - c0) with (S (c_col + 1 - c0)) by lia; lia).
        rewrite En, Et. fold (wider r0 c0 r c_col off). destruct (wider r0 c0 r c_col off) eqn:E.
        + eexists _, _, _, _. split; [reflexivity|]. split; [|split; [exact E|split; [discriminate|auto]]].
          unfold known. replace (c_col + 1 + 1) with (S (c_col + 1)) by lia. repeat split; lia.
        + eexists _, _, _, _. split; [reflexivity|]. unfold known. repeat split; auto; discriminate.
      - eexists _, _, _, _. split; [reflexivity|]. unfold known. repeat split; auto; try discriminate. lia. }
    destruct S2 as (cf & c & n2 & t2 & -> & K2 & D2 & Ct & Cf).
    destruct (rf && cf)%bool eqn:E.
    - exists r, c, n2, t2. split; auto. split; auto. split; auto. apply andb_true_iff in E. destruct E as [-> ->].
      destruct (Rt eq_refl) as [-> Tt], (Ct eq_refl) as [-> Tc]. auto.
    - assert (Q : c_row <= r /\ c_col <= c /\ (c_row < r \/ c_col < c)).
      { destruct rf, cf; cbn in E; try discriminate;
          try destruct (Rt eq_refl); try specialize (Rf eq_refl); try destruct (Ct eq_refl); try specialize (Cf eq_refl); lia. }
      destruct (IH r c n2 t2 K2 D2) as (r' & c' & n' & t' & E1 & E2 & E3 & E4 & E5 & E6).
      + destruct K2 as (X1 & X2 & X3 & X4 & _). lia.
      + destruct K2 as (X1 & X2 & X3 & X4 & _). lia.
      + exists r', c', n', t'. split; auto. split; auto. split; auto. split; [lia|]. split; [lia|auto].
  Qed.
  Hypothesis Thr : (thr <= 1)%Qc.
  Lemma dense_all n : n <> 0 -> dense thr n n = true.
  Proof.
    intros N. apply dense_spec. replace (QcN n / QcN n)%Qc with 1%Qc; auto. field. intros E. apply N.
    apply (QcN_inj n 0). rewrite E. reflexivity.
  Qed.
  Lemma known_start r0 c0 : r0 < nrows -> c0 < ncols -> known r0 c0 r0 c0 1 1 (if is_nan (cell m r0 c0) then 1 else 0).
  Proof.
    intros H1 H2. unfold known. repeat split; auto.
    - unfold values_in. rewrite !Nat.add_1_r, !sum_over_one. destruct (is_nan (cell m r0 c0)); reflexivity.
    - unfold cells_in. replace (r0 + 1 - r0) with 1 by lia. replace (c0 + 1 - c0) with 1 by lia. reflexivity.
  Qed.
  (** one region *)
  Lemma grow_start r0 c0 : r0 < nrows -> c0 < ncols -> exists r c,
    grow nrows ncols m thr ((nrows - r0) + (ncols - c0)) r0 c0 r0 c0 1 1 = Some (r, c) /\
    inside nrows ncols ((r0, c0), (r + 1, c + 1)) /\
    (value m r0 c0 -> has_density m thr ((r0, c0), (r + 1, c + 1)) /\
      (r + 1 < nrows -> ~ has_density m thr ((r0, c0), (S (r + 1), c + 1))) /\
      (c + 1 < ncols -> ~ has_density m thr ((r0, c0), (r + 1, S (c + 1))))).
  Proof.
    intros H1 H2. destruct (grow_spec (if is_nan (cell m r0 c0) then 1 else 0) r0 c0 ((nrows - r0) + (ncols - c0)) r0 c0 1 1)
      as (r & c & n & t & E & (K1 & K2 & K3 & K4 & K5 & K6) & D & G1 & G2 & Tt & Tw);
      auto using known_start, dense_all; try lia.
    exists r, c. split; auto. split; [cbn; lia|]. unfold value. intros V. rewrite V in *. rewrite Nat.add_0_r in K5. unfold has_density. subst n t.
    split; [now apply dense_spec|]. unfold taller, wider in *. rewrite Nat.add_0_r in *. split.
    - intros H Q. apply dense_spec in Q. rewrite Tt in Q; auto; discriminate.
    - intros H Q. apply dense_spec in Q. rewrite Tw in Q; auto; discriminate.
  Qed.
  (** the regions, from left to right *)
  Fixpoint chain (c : nat) (gs : list region) : Prop :=
    match gs with
    | [] => c = ncols
    | g :: t => snd (fst g) = c /\ c < snd (snd g) /\ chain (snd (snd g)) t
    end.
  Lemma next_row_value c i : next_row ncols m c = Ok i -> c < ncols /\ i < nrows /\ value m i c /\
    (forall k, k < i -> ~ value m k c).
  Proof.
    unfold next_row. destruct (Nat.ltb_spec c ncols) as [H|H]; [|discriminate].
    destruct (where_ (map observed (column c m))) as [|x l] eqn:E; [discriminate|]. intros Q. injection Q as ->.
    assert (I : In i (where_ (map observed (column c m)))) by (rewrite E; now left).
    assert (Li : i < nrows) by (apply where_lt in I; unfold column in I; now rewrite !map_length in I).
    assert (Vc : forall k, k < nrows -> nth k (map observed (column c m)) false = observed (cell m k c)).
    { intros k Hk. unfold column. rewrite map_map. rewrite (nth_map_lt _ m k false []) by auto. reflexivity. }
    split; auto. split; auto. split.
    - apply where_in in I. rewrite Vc in I by auto. unfold value. unfold observed in I. now apply negb_true_iff.
    - intros k Hk V. assert (Ik : In k (where_ (map observed (column c m)))).
      { apply where_in. rewrite Vc by lia. unfold observed. now rewrite V. }
      pose proof (where_sorted (map observed (column c m))) as Ss. rewrite E in *. inversion Ss as [|? ? _ Fa]; subst.
      rewrite Forall_forall in Fa. destruct Ik as [->|Ik]; [lia|]. specialize (Fa k Ik). lia.
  Qed.
  Definition maximal (g : region) : Prop :=
    let '((r0, c0), (r1, c1)) := g in
    (r1 < nrows -> ~ has_density m thr ((r0, c0), (S r1, c1))) /\ (c1 < ncols -> ~ has_density m thr ((r0, c0), (r1, S c1))).
  Lemma regions_from_ok fuel : forall r0 c0 gs, r0 < nrows -> c0 < ncols ->
    regions_from nrows ncols m thr fuel r0 c0 = Ok gs ->
    chain c0 gs /\ (forall g, In g gs -> inside nrows ncols g) /\ List.length gs <= fuel /\
    (exists g0 rest, gs = g0 :: rest /\ fst g0 = (r0, c0) /\
       (forall g, In g rest -> value m (fst (fst g)) (snd (fst g)))) /\
    (forall g, In g gs -> value m (fst (fst g)) (snd (fst g)) -> has_density m thr g /\ maximal g) /\
    (exists g, last gs ((0,0),(0,0)) = g /\ fst (snd g) = nrows).
  Proof.
    induction fuel as [|k IH]; intros r0 c0 gs H1 H2 E; [discriminate|]. cbn [regions_from] in E.
    destruct (grow_start r0 c0 H1 H2) as (r & c & Gr & In0 & De). rewrite Gr in E.
    assert (Md : value m r0 c0 -> has_density m thr ((r0, c0), (r + 1, c + 1)) /\ maximal ((r0, c0), (r + 1, c + 1)))
      by (intros V; destruct (De V) as (X & Y); split; auto).
    destruct (Nat.eqb (r + 1) nrows && Nat.eqb (c + 1) ncols)%bool eqn:B.
    - injection E as <-. apply andb_true_iff in B. destruct B as [Br Bc]. apply Nat.eqb_eq in Br, Bc.
      split; [cbn in *; lia|]. split; [intros g [<-|[]]; auto|]. split; [cbn; lia|]. split; [exists ((r0, c0), (r + 1, c + 1)), []; cbn; tauto|].
      split; [intros g [<-|[]]; auto|]. eexists. split; [reflexivity|]. cbn. auto.
    - destruct (next_row ncols m (c + 1)) as [i|] eqn:Nr; [|discriminate]. cbn [bind] in E.
      destruct (next_row_value _ _ Nr) as (Lc & Li & V & _).
      destruct (regions_from nrows ncols m thr k i (c + 1)) as [rest|] eqn:Rf; [|discriminate]. cbn [bind] in E. injection E as <-.
      destruct (IH i (c + 1) rest Li Lc Rf) as (C1 & C2 & C3 & (g0 & rr & -> & F0 & Fv) & C5 & (gl & C6 & C7)).
      split; [cbn [chain fst snd]; cbn in In0; split; [auto|split; [lia|exact C1]]|].
      split; [intros g [<-|I]; auto|]. split; [cbn in *; lia|].
      split; [exists ((r0, c0), (r + 1, c + 1)), (g0 :: rr); split; [auto|split; [auto|]]|].
      + intros g [<-|I]; auto. rewrite F0. exact V.
      + split; [intros g [<-|I]; auto|]. exists gl. split; auto.
  Qed.
  Lemma regions_from_err fuel : forall r0 c0 e, r0 < nrows -> c0 < ncols ->
    regions_from nrows ncols m thr fuel r0 c0 = Err e -> e = IndexError \/ (e = ValueError /\ c0 + fuel < ncols).
  Proof.
    induction fuel as [|k IH]; intros r0 c0 e H1 H2 E; [injection E as <-; right; split; auto; lia|]. cbn [regions_from] in E.
    destruct (grow_start r0 c0 H1 H2) as (r & c & Gr & In0 & De). rewrite Gr in E.
    destruct (Nat.eqb (r + 1) nrows && Nat.eqb (c + 1) ncols)%bool; [discriminate|].
    destruct (next_row ncols m (c + 1)) as [i|e'] eqn:Nr; cbn [bind] in E.
    - destruct (next_row_value _ _ Nr) as (Lc & Li & V & _).
      destruct (regions_from nrows ncols m thr k i (c + 1)) as [rest|e'] eqn:Rf; [discriminate|]. injection E as ->.
      destruct (IH i (c + 1) e Li Lc Rf) as [->|[-> L]]; auto. right. split; auto. cbn in In0. lia.
    - injection E as ->. unfold next_row in Nr. destruct (Nat.ltb (c + 1) ncols); [|injection Nr as <-; auto].
      destruct (where_ _); [injection Nr as <-; auto|discriminate].
  Qed.
  Lemma chain_column gs : forall c j, chain c gs -> c <= j < ncols ->
    exists k g, nth_error gs k = Some g /\ has_column j g /\
      forall k' g', nth_error gs k' = Some g' -> has_column j g' -> k' = k.
  Proof.
    assert (Ge : forall gs c g, chain c gs -> In g gs -> c <= snd (fst g)).
    { clear gs. induction gs as [|g0 gs IH]; intros c g Ch I; [destruct I|]. cbn [chain] in Ch. destruct Ch as (A & B & Ch). destruct I as [<-|I]; [lia|].
      specialize (IH _ g Ch I). lia. }
    induction gs as [|g gs IH]; intros c j Ch Hj; [cbn in Ch; lia|]. cbn [chain] in Ch. pose proof Ch as Ch0. destruct Ch as (A & B & Ch).
    destruct (Nat.lt_ge_cases j (snd (snd g))) as [H|H].
    - exists 0, g. split; auto. split; [unfold has_column; lia|]. intros [|k'] g' E Hc; auto. exfalso. cbn in E.
      apply nth_error_In in E. specialize (Ge gs _ g' Ch E). unfold has_column in Hc. lia.
    - destruct (IH (snd (snd g)) j Ch ltac:(lia)) as (k & g' & E & Hc & U). exists (S k), g'. split; auto. split; auto.
      intros [|k'] g2 E2 H2; [injection E2 as <-; unfold has_column in H2; lia|]. f_equal. eapply U; eauto.
  Qed.
  (** without missing values there is one region *)
  Lemma full_values r0 c0 r1 c1 : (forall i j, i < nrows -> j < ncols -> value m i j) -> r1 <= nrows -> c1 <= ncols ->
    values_in m r0 c0 r1 c1 = cells_in r0 c0 r1 c1.
  Proof.
    intros V H1 H2. unfold values_in, cells_in.
    assert (K : forall a b c, sum_over a b (fun _ => c) = (b - a) * c).
    { intros a b c. unfold sum_over. generalize (b - a) as n. intros n. generalize a as x. induction n as [|n IH]; intros x; auto. cbn [seq map]. rewrite sum_cons, IH. lia. }
    rewrite (sum_over_ext r0 r1 _ (fun _ => c1 - c0)); [apply K|]. intros i Hi.
    rewrite (sum_over_ext c0 c1 _ (fun _ => 1)); [rewrite K; lia|]. intros j Hj. rewrite (V i j) by lia. reflexivity.
  Qed.
  Lemma full_region fuel : (forall i j, i < nrows -> j < ncols -> value m i j) -> 0 < nrows -> 0 < ncols ->
    regions_from nrows ncols m thr (S fuel) 0 0 = Ok [((0, 0), (nrows, ncols))].
  Proof.
    intros V H1 H2. cbn [regions_from]. destruct (grow_start 0 0 H1 H2) as (r & c & -> & (I1 & I2 & I3 & I4) & De).
    destruct (De (V 0 0 H1 H2)) as (_ & T & W).
    assert (D : forall r1 c1, 0 < r1 <= nrows -> 0 < c1 <= ncols -> has_density m thr ((0, 0), (r1, c1))).
    { intros r1 c1 X Y. unfold has_density. rewrite full_values by (auto; lia). apply dense_spec, dense_all. unfold cells_in. nia. }
    assert (r + 1 = nrows) by (destruct (Nat.lt_ge_cases (r + 1) nrows) as [L|]; [exfalso; apply (T L), D|]; lia).
    assert (c + 1 = ncols) by (destruct (Nat.lt_ge_cases (c + 1) ncols) as [L|]; [exfalso; apply (W L), D|]; lia).
    rewrite H, H0, !Nat.eqb_refl. reflexivity.
  Qed.
End Growth.

Lemma count_app l k : count_observed (l ++ k) = count_observed l + count_observed k.
Proof. unfold count_observed. now rewrite filter_app, app_length. Qed.
Lemma calc_density_spec n m r0 c0 r1 c1 : rectangular n m -> inside (List.length m) n ((r0, c0), (r1, c1)) ->
  calc_density m (r0, c0) (r1 - 1, c1 - 1) = (QcN (values_in m r0 c0 r1 c1) / QcN (cells_in r0 c0 r1 c1))%Qc.
Proof.
  intros R (H1 & H2 & H3 & H4). unfold calc_density. cbn [fst snd].
  replace (r1 - 1 + 1) with r1 by lia. replace (c1 - 1 + 1) with c1 by lia.
  replace ((c1 - 1 - c0 + 1) * (r1 - 1 - r0 + 1)) with (cells_in r0 c0 r1 c1)
    by (unfold cells_in; rewrite Nat.mul_comm; f_equal; lia).
  do 2 f_equal. rewrite (cut_eq [] r0 r1 m) by auto. rewrite map_map. unfold values_in, sum_over at 1.
  assert (K : forall i, In i (seq r0 (r1 - r0)) -> i < List.length m) by (intros i I; apply in_seq in I; lia).
  induction (seq r0 (r1 - r0)) as [|i l IH]; auto. cbn [map List.concat]. rewrite count_app, sum_cons, IH by (intros; apply K; now right).
  f_equal. now apply (row_count n m i c0 c1 R (K i (or_introl eq_refl)) H4).
Qed.
(** * The whole function *)
Lemma identify_regions_ok n m thr gs : rectangular n m -> (thr <= 1)%Qc -> 0 < List.length m -> 0 < n ->
  identify_regions n m thr = Ok gs ->
  (forall g, In g gs -> inside (List.length m) n g) /\
  (forall j, j < n -> exists k g, nth_error gs k = Some g /\ has_column j g /\
     forall k' g', nth_error gs k' = Some g' -> has_column j g' -> k' = k) /\
  (value m 0 0 -> forall g, In g gs -> has_density m thr g /\ maximal n m thr g) /\
  List.length gs <= 100 /\ fst (snd (last gs ((0, 0), (0, 0)))) = List.length m.
Proof.
  intros R T H1 H2 E. destruct (regions_from_ok n m thr R T 100 0 0 gs H1 H2 E) as (C & I & L & (g0 & rest & -> & F0 & Fv) & D & (g & Lg & Rg)).
  split; auto. split; [intros j Hj; eapply chain_column; eauto; lia|]. split; [|split; [auto|now rewrite Lg]].
  intros V g1 I1. apply D; auto. destruct I1 as [<-|I1]; [now rewrite F0|auto].
Qed.
Lemma identify_regions_err n m thr e : rectangular n m -> (thr <= 1)%Qc -> 0 < List.length m -> 0 < n ->
  identify_regions n m thr = Err e -> e = IndexError \/ (e = ValueError /\ 100 < n).
Proof. intros R T H1 H2 E. destruct (regions_from_err n m thr R T 100 0 0 e H1 H2 E) as [->|[-> L]]; auto. Qed.
