(* Proofs about reading and writing files (HeaderModel.v). *)
From Verif Require Import PyFacts NumFacts SeriesModel SeriesSpec SeriesProofs.
From Verif Require Import ArrayModel ArraySpec ArrayProofs HeaderModel HeaderSpec.

(** ** Decimal logarithm and rounding *)
Lemma ilog10_fuel_spec fuel : forall z, (0 < z)%Z -> (z < 2 ^ Z.of_nat (S fuel))%Z ->
  (0 <= ilog10_fuel fuel z /\ 10 ^ ilog10_fuel fuel z <= z < 10 ^ (ilog10_fuel fuel z + 1))%Z.
Proof.
  induction fuel as [|k IH]; intros z P B.
  - cbn in B |- *. lia.
  - cbn [ilog10_fuel]. destruct (Z.ltb_spec z 10) as [L|L].
    + cbn. lia.
    + assert (H : (0 < z / 10)%Z) by lia.
      assert (H2 : (z / 10 < 2 ^ Z.of_nat (S k))%Z).
      { rewrite Nat2Z.inj_succ, Z.pow_succ_r in B by lia. lia. }
      destruct (IH _ H H2) as (N & A & C).
      assert (E1 : (10 ^ (1 + ilog10_fuel k (z / 10)) = 10 * 10 ^ ilog10_fuel k (z / 10))%Z)
        by (rewrite Z.pow_add_r by lia; reflexivity).
      assert (E2 : (10 ^ (1 + ilog10_fuel k (z / 10) + 1) = 10 * 10 ^ (ilog10_fuel k (z / 10) + 1))%Z)
        by (rewrite <- Z.add_assoc, Z.pow_add_r by lia; reflexivity).
      rewrite E1, E2. split; [lia|]. 
      remember (10 ^ ilog10_fuel k (z / 10))%Z as a. remember (10 ^ (ilog10_fuel k (z / 10) + 1))%Z as b.
      clear Heqa Heqb E1 E2 IH. lia.
Qed.
Lemma ilog10_spec z : (0 < z)%Z -> (0 <= ilog10 z /\ 10 ^ ilog10 z <= z < 10 ^ (ilog10 z + 1))%Z.
Proof.
  intros P. apply ilog10_fuel_spec; auto.
  rewrite Nat2Z.inj_succ, Z2Nat.id by apply Z.log2_nonneg. now apply Z.log2_spec.
Qed.
Lemma ilog10_pow k : (0 <= k)%Z -> ilog10 (10 ^ k) = k.
Proof.
  intros K. assert (P : (0 < 10 ^ k)%Z) by (apply Z.pow_pos_nonneg; lia).
  destruct (ilog10_spec _ P) as (N & A & B).
  apply Z.pow_le_mono_r_iff in A; [|lia|lia]. apply Z.pow_lt_mono_r_iff in B; lia.
Qed.

Lemma pow10_pos nd : (0 < pow10 nd)%Qc.
Proof.
  unfold pow10. destruct (Z.leb_spec 0 nd).
  - rewrite <- QcZ_0, QcZ_lt. apply Z.pow_pos_nonneg; lia.
  - apply Qcdiv_pos; [reflexivity|]. rewrite <- QcZ_0, QcZ_lt. apply Z.pow_pos_nonneg; lia.
Qed.
Lemma div_mul_cancel x p : p <> 0%Qc -> (x * p / p = x)%Qc.
Proof. intros H. field; auto. Qed.
Lemma round_nd_exact x nd m : (x * pow10 nd = QcZ m)%Qc -> round_nd x nd = x.
Proof.
  intros E. unfold round_nd. rewrite E, round_half_even_QcZ, <- E.
  apply div_mul_cancel, Qcpos_neq0, pow10_pos.
Qed.
Lemma round_nd_near x nd : (Qcabs (x - round_nd x nd) <= half / pow10 nd)%Qc.
Proof.
  pose proof (pow10_pos nd) as P. pose proof (Qcpos_neq0 _ P) as P0.
  unfold round_nd. set (p := pow10 nd) in *. set (r := round_half_even (x * p)).
  pose proof (round_half_even_near (x * p)) as H. fold r in H.
  replace (x - QcZ r / p)%Qc with ((x * p - QcZ r) / p)%Qc by (field; auto).
  unfold Qcdiv at 1. rewrite Qcabs_mult, (Qcabs_pos (/ p)) by (apply Qclt_le_weak, Qcinv_pos, P).
  apply Qcmult_le_compat_r; auto. apply Qclt_le_weak, Qcinv_pos, P.
Qed.
Lemma round_mono x y : (x <= y)%Qc -> (round_half_even x <= round_half_even y)%Z.
Proof.
  intros L. pose proof (Qcfloor_mono _ _ L) as M. unfold round_half_even.
  destruct (Z.eq_dec (Qcfloor x) (Qcfloor y)) as [E|E].
  - rewrite E. set (f := Qcfloor y) in *. cbv zeta.
    destruct (Qcltb_spec (x - QcZ f) (Q2Qc (1#2))), (Qcltb_spec (y - QcZ f) (Q2Qc (1#2))),
      (Qcltb_spec (Q2Qc (1#2)) (x - QcZ f)), (Qcltb_spec (Q2Qc (1#2)) (y - QcZ f));
      destruct (Z.even f); try lia; exfalso; clear M E; qclra.
  - cbv zeta. generalize (Z.even (Qcfloor x)) (Z.even (Qcfloor y)). intros b c.
    destruct (Qcltb (x - QcZ (Qcfloor x)) (Q2Qc (1#2))), (Qcltb (y - QcZ (Qcfloor y)) (Q2Qc (1#2))),
      (Qcltb (Q2Qc (1#2)) (x - QcZ (Qcfloor x))), (Qcltb (Q2Qc (1#2)) (y - QcZ (Qcfloor y))), b, c; lia.
Qed.

(** ** Coordinates *)
Lemma scaled_error i j s : s <> 0%Z -> exists x, scaled i j s = Ok x /\
  (Qcabs (x - meant (if (s <? 0)%Z then i else j) s) <= half * (if (s <? 0)%Z then 1 / QcZ (10 ^ ilog10 (- s)) else QcZ (10 ^ ilog10 s)))%Qc.
Proof.
  intros N. unfold scaled, meant. destruct (Z.eqb_spec s 0) as [|_]; [contradiction|].
  destruct (Z.ltb_spec s 0) as [L|L].
  - replace (0 <? s)%Z with false by lia. rewrite Z.abs_neq by lia.
    eexists. split; [reflexivity|]. rewrite Qcabs_minus.
    replace (- Z.sgn s * ilog10 (- s))%Z with (ilog10 (- s)) by lia.
    eapply Qcle_trans; [apply round_nd_near|]. unfold pow10.
    destruct (ilog10_spec (- s)) as (K & _); [lia|]. replace (0 <=? ilog10 (- s))%Z with true by lia.
    apply Qceq_le. field. intros E. rewrite <- QcZ_0 in E. apply QcZ_inj in E.
    pose proof (Z.pow_pos_nonneg 10 (ilog10 (- s))). lia.
  - replace (0 <? s)%Z with true by lia. rewrite Z.abs_eq by lia.
    eexists. split; [reflexivity|]. rewrite Qcabs_minus.
    replace (- Z.sgn s * ilog10 s)%Z with (- ilog10 s)%Z by lia.
    eapply Qcle_trans; [apply round_nd_near|]. unfold pow10.
    destruct (ilog10_spec s) as (K & _); [lia|].
    assert (NZ : QcZ (10 ^ ilog10 s) <> 0%Qc).
    { intros E. rewrite <- QcZ_0 in E. apply QcZ_inj in E. pose proof (Z.pow_pos_nonneg 10 (ilog10 s)). lia. }
    apply Qceq_le.
    destruct (Z.leb_spec 0 (- ilog10 s)).
    + replace (ilog10 s) with 0%Z by lia. change (QcZ (10 ^ (- 0))) with 1%Qc. change (QcZ (10 ^ 0)) with 1%Qc. field. discriminate.
    + rewrite Z.opp_involutive. field. repeat split; auto; discriminate.
Qed.
Lemma scaled_exact i j s : s <> 0%Z -> standard_scalar s ->
  scaled i j s = Ok (meant (if (s <? 0)%Z then i else j) s).
Proof.
  intros N [|(k & K & [->| ->])]; [contradiction| |]; assert (P : (0 < 10 ^ k)%Z) by (apply Z.pow_pos_nonneg; lia);
    assert (NZ : QcZ (10 ^ k) <> 0%Qc) by (intros E; rewrite <- QcZ_0 in E; apply QcZ_inj in E; lia);
    unfold scaled, meant; destruct (Z.eqb_spec (10 ^ k) 0), (Z.eqb_spec (- 10 ^ k) 0); try lia.
  - replace (10 ^ k <? 0)%Z with false by lia. replace (0 <? 10 ^ k)%Z with true by lia.
    rewrite Z.abs_eq, ilog10_pow by lia. replace (- Z.sgn (10 ^ k) * k)%Z with (- k)%Z by lia.
    f_equal. apply round_nd_exact with (m := j). rewrite QcZ_mul. unfold pow10.
    destruct (Z.leb_spec 0 (- k)).
    + assert (k = 0%Z) as -> by lia. cbn. change (QcZ 1) with 1%Qc. ring.
    + rewrite Z.opp_involutive. field. auto.
  - replace (- 10 ^ k <? 0)%Z with true by lia. replace (0 <? - 10 ^ k)%Z with false by lia.
    rewrite Z.abs_neq, Z.opp_involutive, ilog10_pow by lia. replace (- Z.sgn (- 10 ^ k) * k)%Z with k by lia.
    f_equal. apply round_nd_exact with (m := i). unfold pow10. replace (0 <=? k)%Z with true by lia.
    field. auto.
Qed.
Lemma scaled_ok i j s : s <> 0%Z -> exists x, scaled i j s = Ok x.
Proof. intros H. destruct (scaled_error i j s H) as (x & E & _). eauto. Qed.
Lemma standard_reset s : standard_scalar s -> standard_scalar (if (s =? 0)%Z then 1%Z else s).
Proof. intros H. destruct (Z.eqb_spec s 0); auto. right. exists 0%Z. cbn. lia. Qed.
Lemma meant_reset i s : meant i (if (s =? 0)%Z then 1%Z else s) = meant i s.
Proof. destruct (Z.eqb_spec s 0) as [->|]; auto. unfold meant. cbn. f_equal. lia. Qed.

(** ** from_trace *)
Lemma new_sensor_spec d dl x y z ns de :
  new_sensor d dl x y z ns de =
  if (1 <=? ns)%Z && Qcleb de 0%Qc then Ok (mkSensor (mkSeries d dl ns de 1) x y z) else Err ValueError.
Proof.
  unfold new_sensor, new_series. destruct (Z.leb_spec ns 0).
  - replace (1 <=? ns)%Z with false by lia. reflexivity.
  - replace (1 <=? ns)%Z with true by lia. destruct (Qcltb_spec 0 de), (Qcleb_spec de 0); auto; exfalso; qclra.
Qed.
Lemma read_seg2 tr h mx my : t_header tr = Seg2 h ->
  from_trace tr mx my =
  let ns := or_default (g_stack h) 1%Z in let de := or_default (g_delay h) 0%Qc in
  if (1 <=? ns)%Z && Qcleb de 0%Qc
  then Ok (mkSensor (mkSeries (t_data tr) (t_delta tr) ns de 1) (mx (or_default (g_receiver h) 0%Qc)) (my 0%Qc) 0%Qc)
  else Err ValueError.
Proof.
  intros E. unfold from_trace. rewrite E. unfold from_trace_seg2, from_trace_plain. rewrite new_sensor_spec.
  cbv zeta. destruct (g_stack h), (g_delay h), (g_receiver h); reflexivity.
Qed.
Lemma read_su tr h : su_like (t_header tr) h ->
  let ns := recorded_stacks h in let de := recorded_delay h in
  let sc := if (recorded_scalar h =? 0)%Z then 1%Z else recorded_scalar h in
  exists x y, scaled (or_default (h_gx h) 0%Z) (or_default (h_gx h) 0%Z) sc = Ok x /\
    scaled (or_default (h_gy h) 0%Z) (or_default (h_gx h) 0%Z) sc = Ok y /\
    forall mx my, from_trace tr mx my =
  if (1 <=? ns)%Z && Qcleb de 0%Qc
  then Ok (mkSensor (mkSeries (t_data tr) (t_delta tr) ns de 1) (mx x) (my y) 0%Qc)
  else Err ValueError.
Proof.
  intros E ns de sc. assert (S : sc <> 0%Z) by (unfold sc; destruct (Z.eqb_spec (recorded_scalar h) 0); lia).
  destruct (scaled_ok (or_default (h_gx h) 0%Z) (or_default (h_gx h) 0%Z) sc S) as (x & Ex).
  destruct (scaled_ok (or_default (h_gy h) 0%Z) (or_default (h_gx h) 0%Z) sc S) as (y & Ey).
  exists x, y. split; auto. split; auto. intros mx my.
  assert (H : from_trace tr mx my = from_trace_su tr h mx my) by (unfold from_trace; destruct E as [-> | ->]; reflexivity).
  rewrite H. unfold from_trace_su. cbv zeta.
  change (@safely_get) with (@or_default). fold (recorded_scalar h).
  change (if (recorded_scalar h =? 0)%Z then 1%Z else recorded_scalar h) with sc.
  rewrite Ex. cbn [bind]. rewrite Ey. cbn [bind].
  unfold from_trace_plain. rewrite new_sensor_spec.
  assert (NS : (if (or_default (h_nstack h) 1 =? 0)%Z then 1%Z else or_default (h_nstack h) 1%Z) = ns).
  { unfold ns, recorded_stacks. destruct (h_nstack h) as [| |[]]; reflexivity. }
  rewrite NS. reflexivity.
Qed.
Lemma from_trace_valid tr mx my :
  match from_trace tr mx my with
  | Ok s => (1 <= nstacks (ser s))%Z /\ (delay (ser s) <= 0)%Qc /\ amp (ser s) = t_data tr /\
            dt (ser s) = t_delta tr /\ multiple (ser s) = 1%Z /\ sz s = 0%Qc
  | Err e => e = ValueError \/ t_header tr = OtherFormat /\ e = NotImplementedError
  end.
Proof.
  destruct (t_header tr) as [h|h|h| |] eqn:E.
  - rewrite (read_seg2 _ _ _ _ E). cbv zeta.
    destruct (Z.leb_spec 1 (or_default (g_stack h) 1%Z)), (Qcleb_spec (or_default (g_delay h) 0%Qc) 0); cbn; auto 10.
  - destruct (read_su tr h (or_introl E)) as (x & y & _ & _ & R). rewrite R.
    destruct (Z.leb_spec 1 (recorded_stacks h)), (Qcleb_spec (recorded_delay h) 0); cbn; auto 10.
  - destruct (read_su tr h (or_intror E)) as (x & y & _ & _ & R). rewrite R.
    destruct (Z.leb_spec 1 (recorded_stacks h)), (Qcleb_spec (recorded_delay h) 0); cbn; auto 10.
  - unfold from_trace. rewrite E. auto.
  - unfold from_trace. rewrite E. auto.
Qed.

Lemma receiver_x tr h mx my s : su_like (t_header tr) h -> standard_scalar (recorded_scalar h) ->
  from_trace tr mx my = Ok s -> sx s = mx (meant (or_default (h_gx h) 0%Z) (recorded_scalar h)).
Proof.
  intros L S H. destruct (read_su tr h L) as (x & y & Ex & _ & R). rewrite R in H.
  destruct (_ && _); [|discriminate]. injection H as <-. cbn.
  rewrite scaled_exact in Ex by (try (destruct (Z.eqb_spec (recorded_scalar h) 0); lia); now apply standard_reset).
  rewrite meant_reset in Ex. destruct (_ <? _)%Z; now injection Ex as <-.
Qed.
Lemma receiver_y tr h mx my s : su_like (t_header tr) h -> standard_scalar (recorded_scalar h) ->
  from_trace tr mx my = Ok s ->
  sy s = my (meant (or_default (if (recorded_scalar h <? 0)%Z then h_gy h else h_gx h) 0%Z) (recorded_scalar h)).
Proof.
  intros L S H. destruct (read_su tr h L) as (x & y & _ & Ey & R). rewrite R in H.
  destruct (_ && _); [|discriminate]. injection H as <-. cbn.
  rewrite scaled_exact in Ey by (try (destruct (Z.eqb_spec (recorded_scalar h) 0); lia); now apply standard_reset).
  rewrite meant_reset in Ey. injection Ey as <-. f_equal. f_equal.
  destruct (Z.eqb_spec (recorded_scalar h) 0) as [->|]; [reflexivity|]. destruct (_ <? _)%Z; reflexivity.
Qed.
Lemma source_coords f tr h mx my sc ix iy : (f = F_su /\ t_header tr = Su h) \/ (f = F_segy /\ t_header tr = Segy h /\ sc <> 0%Z) ->
  standard_scalar sc -> h_scale h = Value sc -> h_sx h = Value ix -> h_sy h = Value iy ->
  h_units h = Value 0%Z \/ h_units h = Value 1%Z ->
  parse_source f mx my tr = Ok (mkSource (mx (meant ix sc)) (my (meant iy sc)) 0%Qc).
Proof.
  intros F S Es Ex Ey U.
  assert (CU : check_units h = Ok tt) by (unfold check_units; destruct U as [-> | ->]; reflexivity).
  destruct F as [(-> & E)|(-> & E & N)]; unfold parse_source; rewrite E, CU, Es, Ex, Ey; cbn [bind item_get].
  - rewrite !scaled_exact by (try (destruct (Z.eqb_spec sc 0); lia); now apply standard_reset).
    cbn [bind]. rewrite !meant_reset. destruct (_ <? _)%Z; reflexivity.
  - rewrite !scaled_exact by auto. cbn [bind]. destruct (_ <? _)%Z; reflexivity.
Qed.
Lemma source_units f tr h mx my : (f = F_su /\ t_header tr = Su h) \/ (f = F_segy /\ t_header tr = Segy h) ->
  (forall u, h_units h = Value u -> u <> 0%Z /\ u <> 1%Z) -> h_units h <> Missing -> parse_source f mx my tr = Err ValueError.
Proof.
  intros F U M. assert (CU : check_units h = Err ValueError).
  { unfold check_units. destruct (h_units h) as [| |u]; try congruence. destruct (U u eq_refl).
    destruct (Z.eqb_spec u 0), (Z.eqb_spec u 1); tauto. }
  destruct F as [(-> & E)|(-> & E)]; unfold parse_source; rewrite E, CU; reflexivity.
Qed.
