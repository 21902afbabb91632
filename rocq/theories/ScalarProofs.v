From Verif Require Import NumFacts PyFacts SeriesModel ArrayModel HeaderModel HeaderSpec HeaderProofs ScalarSpec.

Lemma round_tie x : Qcabs (QcZ (round_half_even x) - x)%Qc = half -> Z.even (round_half_even x) = true.
Proof.
  destruct (Qcfloor_spec x) as [H1 H2]. unfold round_half_even, half. intros H. revert H.
  destruct (Qcltb_spec (x - QcZ (Qcfloor x)) (Q2Qc (1 # 2))).
  - unfold Qcabs. qcases; intros H; exfalso; qclra.
  - destruct (Qcltb_spec (Q2Qc (1 # 2)) (x - QcZ (Qcfloor x))).
    + unfold Qcabs. rewrite QcZ_add, QcZ_1. qcases; intros H; exfalso; qclra.
    + intros _. destruct (Z.even (Qcfloor x)) eqn:E; [exact E|]. rewrite Z.add_1_r, Z.even_succ, <- Z.negb_even, E. reflexivity.
Qed.
Lemma Qcabs_scale u y : (0 < u)%Qc -> Qcabs (y * u)%Qc = (Qcabs y * u)%Qc.
Proof.
  intros P. unfold Qcabs. destruct (Qcltb_spec y 0) as [A|A], (Qcltb_spec (y * u)%Qc 0) as [B|B]; try ring; exfalso; qcnra.
Qed.
Lemma round_unit u v : (0 < u)%Qc -> nearest_multiple u v (QcZ (round_half_even (v / u)) * u)%Qc.
Proof.
  intros P. assert (Nu : u <> 0%Qc) by now apply Qcpos_neq0. exists (round_half_even (v / u)). split; [reflexivity|].
  replace (QcZ (round_half_even (v / u)) * u - v)%Qc with ((QcZ (round_half_even (v / u)) - v / u) * u)%Qc by (field; exact Nu).
  rewrite (Qcabs_scale u _ P). fold half. split.
  - rewrite Qcabs_minus. apply Qcmult_le_compat_r; [apply round_half_even_near|]. now apply Qclt_le_weak.
  - intros E. apply round_tie. apply (f_equal (fun z => z / u)%Qc) in E.
    replace (Qcabs (QcZ (round_half_even (v / u)) - v / u) * u / u)%Qc with (Qcabs (QcZ (round_half_even (v / u)) - v / u)%Qc) in E by (field; exact Nu).
    replace (half * u / u)%Qc with half in E by (field; exact Nu). exact E.
Qed.
(** There is only one. *)
Lemma nearest_unique u v x y : (0 < u)%Qc -> nearest_multiple u v x -> nearest_multiple u v y -> x = y.
Proof.
  intros P (k & -> & A & B) (l & -> & C & D). fold half in *.
  enough (k = l) as -> by reflexivity.
  assert (E : (Qcabs (QcZ k * u - v) <= half * u /\ Qcabs (QcZ l * u - v) <= half * u)%Qc) by auto.
  assert (F : forall m n : Z, (Qcabs (QcZ m * u - v) <= half * u)%Qc -> (Qcabs (QcZ n * u - v) <= half * u)%Qc ->
     (m < n)%Z -> n = (m + 1)%Z /\ Qcabs (QcZ m * u - v)%Qc = (half * u)%Qc /\ Qcabs (QcZ n * u - v)%Qc = (half * u)%Qc).
  { intros m n X Y L. assert (Q : (QcZ n * u - QcZ m * u <= u)%Qc).
    { unfold Qcabs, half in *. revert X Y. qcases; intros; qclra. }
    assert (n = (m + 1)%Z).
    { enough (n - m <= 1)%Z by lia. apply QcZ_le. rewrite QcZ_sub, QcZ_1. apply Qcnot_lt_le. intros Z1.
      assert ((1 * u < (QcZ n - QcZ m) * u)%Qc) by (apply Qcmult_lt_compat_r; assumption).
      replace ((QcZ n - QcZ m) * u)%Qc with (QcZ n * u - QcZ m * u)%Qc in H by ring. qclra. }
    subst n. rewrite QcZ_add, QcZ_1 in *. split; [reflexivity|].
    replace ((QcZ m + 1) * u - v)%Qc with ((QcZ m * u - v) + u)%Qc in * by ring.
    set (w := (QcZ m * u - v)%Qc) in *. unfold Qcabs, half in *. revert X Y. qcases; intros; split; qclra. }
  destruct (Z.lt_trichotomy k l) as [L|[L|L]]; [|exact L|]; exfalso.
  - destruct (F k l (proj1 E) (proj2 E) L) as (-> & G & H). pose proof (B G) as B'. pose proof (D H) as D'.
    rewrite Z.add_1_r, Z.even_succ, <- Z.negb_even, B' in D'. discriminate.
  - destruct (F l k (proj2 E) (proj1 E) L) as (-> & G & H). pose proof (D G) as B'. pose proof (B H) as D'.
    rewrite Z.add_1_r, Z.even_succ, <- Z.negb_even, B' in D'. discriminate.
Qed.
Lemma decade_pos s u : decade_of s u -> (0 < u)%Qc.
Proof.
  intros [(_ & ->)|(k & K & _ & ->)]; [reflexivity|].
  assert (P : (0 < QcZ (10 ^ k))%Qc) by (rewrite <- QcZ_0; apply QcZ_lt; apply Z.pow_pos_nonneg; lia).
  destruct (s <? 0)%Z; [|exact P]. apply Qcdiv_pos; [reflexivity|exact P].
Qed.
Lemma nearest_exact u v x : (0 < u)%Qc -> nearest_multiple u v x -> (x = v <-> exists k, v = (QcZ k * u)%Qc).
Proof.
  intros P Hn. split; [intros <-; destruct Hn as (k & E & _); eauto|]. intros (k & E).
  apply (nearest_unique u v); auto. exists k. split; [exact E|].
  assert (Z0 : Qcabs (v - v)%Qc = 0%Qc) by (replace (v - v)%Qc with 0%Qc by ring; reflexivity). rewrite Z0. unfold half in *.
  assert (Q : (0 < Q2Qc (1 # 2) * u)%Qc) by (replace 0%Qc with (0 * u)%Qc by ring; apply Qcmult_lt_compat_r; [exact P|reflexivity]).
  split; [now apply Qclt_le_weak|]. intros F. rewrite <- F in Q. discriminate.
Qed.

Lemma scaled_nearest i j s : s <> 0%Z -> exists x u, scaled i j s = Ok x /\ decade_of s u /\
  nearest_multiple u (meant (if (s <? 0)%Z then i else j) s) x.
Proof.
  intros Nz. unfold scaled, meant. destruct (Z.eqb_spec s 0) as [|_]; [contradiction|].
  destruct (ilog10_spec (Z.abs s)) as (K & R); [lia|]. set (k := ilog10 (Z.abs s)) in *.
  assert (P : (0 < QcZ (10 ^ k))%Qc) by (rewrite <- QcZ_0; apply QcZ_lt; apply Z.pow_pos_nonneg; lia).
  assert (NZ : QcZ (10 ^ k) <> 0%Qc) by now apply Qcpos_neq0.
  set (u := (if (s <? 0)%Z then 1 / QcZ (10 ^ k) else QcZ (10 ^ k))%Qc).
  assert (Du : decade_of s u) by (right; exists k; auto).
  assert (Pu := decade_pos s u Du). assert (Nu : u <> 0%Qc) by now apply Qcpos_neq0.
  assert (PU : (pow10 (- Z.sgn s * k) * u)%Qc = 1%Qc).
  { unfold u, pow10. destruct (Z.ltb_spec s 0) as [L|L].
    - replace (- Z.sgn s * k)%Z with k by lia. replace (0 <=? k)%Z with true by lia. field. exact NZ.
    - replace (- Z.sgn s * k)%Z with (- k)%Z by lia. destruct (Z.leb_spec 0 (- k)).
      + replace k with 0%Z by lia. reflexivity.
      + rewrite Z.opp_involutive. field. exact NZ. }
  assert (RU : forall v, round_nd v (- Z.sgn s * k) = (QcZ (round_half_even (v / u)) * u)%Qc).
  { intros v. unfold round_nd. set (p := pow10 _) in *.
    assert (Np : p <> 0%Qc) by (intros E; rewrite E in PU; apply (f_equal this) in PU; discriminate).
    replace (v * p)%Qc with (v / u)%Qc.
    - replace (QcZ (round_half_even (v / u)) / p)%Qc with (QcZ (round_half_even (v / u)) * (p * u) / p)%Qc by (rewrite PU; field; exact Np). field. exact Np.
    - replace (v / u)%Qc with (v * (p * u) / u)%Qc by (rewrite PU; field; exact Nu). field. exact Nu. }
  rewrite RU. eexists _, u. split; [reflexivity|]. split; [exact Du|].
  destruct (Z.ltb_spec s 0) as [L|L].
  - replace (0 <? s)%Z with false by lia. rewrite Z.abs_neq by lia. apply round_unit. exact Pu.
  - replace (0 <? s)%Z with true by lia. apply round_unit. exact Pu.
Qed.
Lemma decade_unique s u v : decade_of s u -> decade_of s v -> u = v.
Proof.
  intros [(Z0 & ->)|(k & K & R & ->)] [(Z1 & ->)|(l & L & Q & ->)]; [reflexivity|subst s; exfalso|subst s; exfalso|].
  - assert (0 < 10 ^ l)%Z by (apply Z.pow_pos_nonneg; lia). lia.
  - assert (0 < 10 ^ k)%Z by (apply Z.pow_pos_nonneg; lia). lia.
  - enough (k = l) as -> by reflexivity. destruct (Z.lt_trichotomy k l) as [X|[X|X]]; [|exact X|]; exfalso.
    + assert (10 ^ (k + 1) <= 10 ^ l)%Z by (apply Z.pow_le_mono_r; lia). lia.
    + assert (10 ^ (l + 1) <= 10 ^ k)%Z by (apply Z.pow_le_mono_r; lia). lia.
Qed.
(** With the scalar 0 read as 1. *)
Lemma reset_nearest i j s x : scaled i j (if (s =? 0)%Z then 1%Z else s) = Ok x ->
  exists u, decade_of s u /\ nearest_multiple u (meant (if (s <? 0)%Z then i else j) s) x.
Proof.
  intros H. destruct (Z.eqb_spec s 0) as [->|Nz].
  - destruct (scaled_nearest i j 1) as (x' & u & E & D & Nm); [lia|]. rewrite H in E. injection E as <-.
    exists u. cbn in Nm |- *. rewrite Z.mul_1_r in Nm.
    split; [|exact Nm]. left. split; [reflexivity|]. apply (decade_unique 1); [exact D|]. right. exists 0%Z. cbn. split; [lia|]. split; [lia|reflexivity].
  - destruct (scaled_nearest i j s Nz) as (x' & u & E & D & Nm). rewrite H in E. injection E as <-. eauto.
Qed.

Lemma receiver_all tr h mx my s : su_like (t_header tr) h -> from_trace tr mx my = Ok s ->
  exists u x y, decade_of (recorded_scalar h) u /\
    nearest_multiple u (meant (or_default (h_gx h) 0%Z) (recorded_scalar h)) x /\
    nearest_multiple u (meant (or_default (if (recorded_scalar h <? 0)%Z then h_gy h else h_gx h) 0%Z) (recorded_scalar h)) y /\
    sx s = mx x /\ sy s = my y /\ sz s = 0%Qc.
Proof.
  intros L H. destruct (read_su tr h L) as (x & y & Ex & Ey & R). rewrite R in H.
  destruct (_ && _); [|discriminate]. injection H as <-. cbn [sx sy sz].
  apply reset_nearest in Ex as (u & D & A). apply reset_nearest in Ey as (v & D' & B).
  rewrite (decade_unique _ _ _ D' D) in B. exists u, x, y. split; [exact D|].
  split; [destruct (_ <? _)%Z; exact A|]. split; [destruct (_ <? _)%Z; exact B|]. auto.
Qed.
Lemma source_all f tr h mx my sc ix iy : (f = F_su /\ t_header tr = Su h) \/ (f = F_segy /\ t_header tr = Segy h /\ sc <> 0%Z) ->
  h_scale h = Value sc -> h_sx h = Value ix -> h_sy h = Value iy ->
  h_units h = Value 0%Z \/ h_units h = Value 1%Z ->
  exists u x y, decade_of sc u /\ nearest_multiple u (meant ix sc) x /\ nearest_multiple u (meant iy sc) y /\
    parse_source f mx my tr = Ok (mkSource (mx x) (my y) 0%Qc).
Proof.
  intros F Es Ex Ey U.
  assert (CU : check_units h = Ok tt) by (unfold check_units; destruct U as [-> | ->]; reflexivity).
  set (sc' := if (sc =? 0)%Z then 1%Z else sc).
  assert (Nz : sc' <> 0%Z) by (unfold sc'; destruct (Z.eqb_spec sc 0); lia).
  destruct (scaled_ok ix ix sc' Nz) as (x & Qx). destruct (scaled_ok iy iy sc' Nz) as (y & Qy).
  destruct (reset_nearest ix ix sc x Qx) as (u & D & A). destruct (reset_nearest iy iy sc y Qy) as (v & D' & B).
  rewrite (decade_unique _ _ _ D' D) in B. exists u, x, y. split; [exact D|].
  split; [destruct (_ <? _)%Z; exact A|]. split; [destruct (_ <? _)%Z; exact B|].
  destruct F as [(-> & E)|(-> & E & N0)]; unfold parse_source; rewrite E, CU, Es, Ex, Ey; cbn [bind item_get]; fold sc'.
  - rewrite Qx. cbn [bind]. rewrite Qy. reflexivity.
  - assert (sc' = sc) as Q by (unfold sc'; destruct (Z.eqb_spec sc 0); [contradiction|reflexivity]). rewrite Q in Qx, Qy.
    rewrite Qx. cbn [bind]. rewrite Qy. reflexivity.
Qed.
Lemma segy_zero tr h mx my : t_header tr = Segy h -> h_scale h = Value 0%Z -> h_units h = Value 0%Z \/ h_units h = Value 1%Z ->
  (exists ix, h_sx h = Value ix) -> parse_source F_segy mx my tr = Err OverflowError.
Proof.
  intros E Es U (ix & Ex). unfold parse_source. rewrite E, Es, Ex.
  assert (CU : check_units h = Ok tt) by (unfold check_units; destruct U as [-> | ->]; reflexivity). rewrite CU. reflexivity.
Qed.
