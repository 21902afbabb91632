(* Proofs about Array1D.to_file and from_files. *)
From Verif Require Import PyFacts NumFacts SeriesModel SeriesSpec SeriesProofs.
From Verif Require Import ArrayModel ArraySpec ArrayProofs ArrayMatrixProofs HeaderModel HeaderSpec HeaderProofs.

(** ** Round trip *)
Definition on_grid (u : Z) (x : Qc) : Qc := (QcZ (round_half_even (x * QcZ u)) / QcZ u)%Qc.
Definition back (s : sensor) : sensor :=
  mkSensor (mkSeries (amp (ser s)) (on_grid 1000000 (dt (ser s)))
              (if (nstacks (ser s) - 1 =? 0)%Z then 1%Z else (nstacks (ser s) - 1)%Z)
              (on_grid 1000 (delay (ser s))) 1)
    (on_grid 1000 (sx s)) (on_grid 1000 (sy s)) 0%Qc.
Definition back_source (s : source) : source :=
  mkSource (on_grid 1000 (src_x s)) (on_grid 1000 (src_y s)) 0%Qc.

Lemma on_grid_near u x : (0 < u)%Z -> (Qcabs (on_grid u x - x) <= half / QcZ u)%Qc.
Proof.
  intros U. assert (P : (0 < QcZ u)%Qc) by (rewrite <- QcZ_0, QcZ_lt; lia). pose proof (Qcpos_neq0 _ P) as P0.
  unfold on_grid. set (r := round_half_even (x * QcZ u)).
  pose proof (round_half_even_near (x * QcZ u)) as H. fold r in H.
  replace (QcZ r / QcZ u - x)%Qc with (- ((x * QcZ u - QcZ r) / QcZ u))%Qc by (field; auto).
  rewrite Qcabs_opp. unfold Qcdiv at 1. rewrite Qcabs_mult, (Qcabs_pos (/ QcZ u)) by (apply Qclt_le_weak, Qcinv_pos, P).
  apply Qcmult_le_compat_r; auto. apply Qclt_le_weak, Qcinv_pos, P.
Qed.
Lemma on_grid_exact u x : (0 < u)%Z -> whole u x -> on_grid u x = x.
Proof.
  intros U (i & ->). assert (P : QcZ u <> 0%Qc) by (apply Qcpos_neq0; rewrite <- QcZ_0, QcZ_lt; lia).
  unfold on_grid. replace (QcZ i / QcZ u * QcZ u)%Qc with (QcZ i) by (field; auto). now rewrite round_half_even_QcZ.
Qed.
Lemma on_grid_nonpos u x : (0 < u)%Z -> (x <= 0)%Qc -> (on_grid u x <= 0)%Qc.
Proof.
  intros U L. assert (P : (0 < QcZ u)%Qc) by (rewrite <- QcZ_0, QcZ_lt; lia). unfold on_grid.
  rewrite Qcle_div by auto.
  assert (H : (x * QcZ u <= 0)%Qc).
  { replace 0%Qc with (0 * QcZ u)%Qc by ring. apply Qcmult_le_compat_r; auto. now apply Qclt_le_weak. }
  apply round_mono in H. change (round_half_even 0) with 0%Z in H.
  replace (0 * QcZ u)%Qc with (QcZ 0) by (rewrite QcZ_0; ring). now rewrite QcZ_le.
Qed.
Lemma pack_ok b z z' : pack b z = Ok z' -> z' = z.
Proof. unfold pack. destruct (_ && _); congruence. Qed.
Lemma pack_unsigned_ok b z z' : pack_unsigned b z = Ok z' -> z' = z.
Proof. unfold pack_unsigned. destruct (_ && _); congruence. Qed.
Lemma bind_ok {A B} (r : result A) (f : A -> result B) b : bind r f = Ok b -> exists a, r = Ok a /\ f a = Ok b.
Proof. destruct r; cbn; [eauto|discriminate]. Qed.

Lemma write_sensor_spec s0 s t : write_sensor s0 s = Ok t ->
  t = mkTrace (amp (ser s)) (on_grid 1000000 (dt (ser s)))
        (Su (mkSu (Value 1%Z) (Value (-1000)%Z) (Value (millimetre (src_x s0))) (Value (millimetre (src_y s0)))
               (Value (millimetre (sx s))) (Value (millimetre (sy s)))
               (Value (nstacks (ser s) - 1)%Z) (Value (millimetre (delay (ser s)))))).
Proof.
  unfold write_sensor. intros H.
  repeat (apply bind_ok in H as (? & ?P & H); first [apply pack_ok in P|apply pack_unsigned_ok in P]; subst).
  injection H as <-. reflexivity.
Qed.
Lemma meant_mm i : meant i (-1000) = (QcZ i / QcZ 1000)%Qc.
Proof. reflexivity. Qed.
Lemma standard_1000 : standard_scalar (-1000).
Proof. right. exists 3%Z. split; [lia|]. right. reflexivity. Qed.
Lemma read_written s0 s t mx my : write_sensor s0 s = Ok t ->
  from_trace t mx my =
  (if (1 <=? nstacks (ser (back s)))%Z && Qcleb (delay (ser (back s))) 0
   then Ok (map_sensor mx my (back s)) else Err ValueError) /\
  t_header t <> OtherFormat /\ fmt_of (t_header t) = Some F_su /\
  parse_source F_su mx my t = Ok (map_source mx my (back_source s0)).
Proof.
  intros W. apply write_sensor_spec in W. subst t. split; [|split; [discriminate|split; [reflexivity|]]].
  - destruct (read_su (mkTrace (amp (ser s)) (on_grid 1000000 (dt (ser s)))
        (Su (mkSu (Value 1%Z) (Value (-1000)%Z) (Value (millimetre (src_x s0))) (Value (millimetre (src_y s0)))
               (Value (millimetre (sx s))) (Value (millimetre (sy s)))
               (Value (nstacks (ser s) - 1)%Z) (Value (millimetre (delay (ser s)))))))
       _ (or_introl eq_refl)) as (x & y & Ex & Ey & R).
    rewrite R. cbn [recorded_scalar h_scale or_default] in Ex, Ey.
    rewrite scaled_exact in Ex, Ey by (try apply standard_1000; discriminate).
    injection Ex as <-. injection Ey as <-.
    assert (NS : recorded_stacks (mkSu (Value 1%Z) (Value (-1000)%Z) (Value (millimetre (src_x s0))) (Value (millimetre (src_y s0)))
               (Value (millimetre (sx s))) (Value (millimetre (sy s)))
               (Value (nstacks (ser s) - 1)%Z) (Value (millimetre (delay (ser s))))) = nstacks (ser (back s))).
    { cbn. destruct (nstacks (ser s) - 1)%Z; reflexivity. }
    rewrite NS. reflexivity.
  - rewrite (source_coords F_su _ (mkSu (Value 1%Z) (Value (-1000)%Z) (Value (millimetre (src_x s0))) (Value (millimetre (src_y s0)))
               (Value (millimetre (sx s))) (Value (millimetre (sy s)))
               (Value (nstacks (ser s) - 1)%Z) (Value (millimetre (delay (ser s))))) mx my (-1000)
               (millimetre (src_x s0)) (millimetre (src_y s0))); auto using standard_1000.
Qed.

Lemma mapM_map {A B C} (f : A -> result B) (g : C -> A -> Prop) (h : C -> B) l m :
  Forall2 g l m -> (forall c a, In c l -> g c a -> f a = Ok (h c)) -> mapM f m = Ok (map h l).
Proof.
  intros F H. apply mapM_ok. induction F as [|c a l m G F IH]; constructor.
  - apply H; auto. now left.
  - apply IH. intros. apply H; auto. now right.
Qed.
Lemma rev_last {A} (l : list A) : l <> [] -> exists x t, rev l = x :: t /\ In x l.
Proof.
  intros N. destruct (rev l) as [|x t] eqn:E.
  - apply (f_equal (@rev A)) in E. rewrite rev_involutive in E. cbn in E. congruence.
  - exists x, t. split; auto. apply in_rev. rewrite E. now left.
Qed.

Section RT.
  Context {F K : Type} (read : option K -> F -> result (list trace)).

  Lemma read_back_all a stream kw f mx my :
    sensors a <> [] -> (forall s, In s (sensors a) -> (1 <= nstacks (ser s))%Z /\ (delay (ser s) <= 0)%Qc) ->
    to_file a true = Ok stream -> read kw f = Ok stream ->
    from_files read mx my kw [f] =
    new_array (map (fun s => map_sensor mx my (back s)) (sensors a)) (map_source mx my (back_source (src a))).
  Proof.
    intros N H W R. cbn [to_file] in W. apply mapM_ok in W.
    unfold from_files. rewrite R. cbn [bind].
    assert (M : mapM (fun t => from_trace t mx my) stream = Ok (map (fun s => map_sensor mx my (back s)) (sensors a))).
    { eapply mapM_map; [exact W|]. intros s t Hs E. cbv beta in E. destruct (read_written _ _ _ mx my E) as (-> & _).
      destruct (H s Hs) as [A B].
      replace (1 <=? nstacks (ser (back s)))%Z with true
        by (symmetry; apply Z.leb_le; cbn [back ser nstacks]; destruct (Z.eqb_spec (nstacks (ser s) - 1) 0); lia).
      replace (Qcleb (delay (ser (back s))) 0) with true
        by (symmetry; apply Qcleb_le; cbn [back ser delay]; now apply on_grid_nonpos). reflexivity. }
    rewrite M. cbn [bind].
    assert (NS : stream <> []) by (intros ->; inversion W; subst; congruence).
    destruct (rev_last stream NS) as (t & r & -> & Ht).
    destruct (Forall2_In_r _ _ _ _ W Ht) as (s & Hs & E). cbv beta in E.
    destruct (read_written _ _ _ mx my E) as (_ & _ & -> & P). rewrite P. cbn [bind].
    destruct (new_array _ _); reflexivity.
  Qed.
End RT.

Lemma back_near s : near_copy s (back s).
Proof.
  assert (E : (half / QcZ 1000)%Qc = half_unit) by (apply Qc_is_canon; reflexivity).
  assert (E2 : (half / QcZ 1000000)%Qc = Q2Qc (1 # 2000000)) by (apply Qc_is_canon; reflexivity).
  unfold near_copy. rewrite <- E, <- E2. cbn [back sx sy ser amp delay dt].
  repeat split; apply on_grid_near; lia.
Qed.
Lemma map_id_sensor s : map_sensor (fun x => x) (fun y => y) s = s.
Proof. destruct s; reflexivity. Qed.
Lemma map_id_source s : map_source (fun x => x) (fun y => y) s = s.
Proof. destruct s; reflexivity. Qed.
Lemma sort_increasing l : increasing (map sx l) -> NoDup (map sx l) -> sort_sensors l = l.
Proof. intros I N. apply increasing_perm_unique; auto using sort_sorted, sort_perm. Qed.
Lemma increasing_NoDup l : increasing l -> NoDup l.
Proof.
  induction 1 as [|x l S IH F]; constructor; auto. intros H. rewrite Forall_forall in F.
  specialize (F _ H). exact (Qclt_not_eq _ _ F eq_refl).
Qed.
Lemma on_grid_lt x y : (x < y)%Qc -> millimetre x <> millimetre y -> (on_grid 1000 x < on_grid 1000 y)%Qc.
Proof.
  intros L N. unfold on_grid, millimetre in *.
  assert (H : (x * QcZ 1000 <= y * QcZ 1000)%Qc).
  { apply Qcmult_le_compat_r; [now apply Qclt_le_weak|discriminate]. }
  apply round_mono in H. 
  assert (H2 : (round_half_even (x * QcZ 1000) < round_half_even (y * QcZ 1000))%Z) by lia.
  rewrite Qclt_div by reflexivity.
  replace (QcZ (round_half_even (y * QcZ 1000)) / QcZ 1000 * QcZ 1000)%Qc with (QcZ (round_half_even (y * QcZ 1000))) by (field; discriminate).
  now rewrite QcZ_lt.
Qed.
Lemma grid_eq x y : on_grid 1000 x = on_grid 1000 y <-> millimetre x = millimetre y.
Proof.
  unfold on_grid, millimetre. split; intros H; [|now rewrite H].
  apply (f_equal (fun v => v * QcZ 1000)%Qc) in H.
  assert (E : forall r, (QcZ r / QcZ 1000 * QcZ 1000 = QcZ r)%Qc) by (intros r; field; discriminate).
  rewrite !E in H. now apply QcZ_inj in H.
Qed.
Lemma back_increasing l : increasing (map sx l) -> NoDup (map (fun s => millimetre (sx s)) l) ->
  increasing (map sx (map back l)).
Proof.
  induction l as [|s l IH]; cbn [map]; intros I N; [constructor|].
  inversion I as [|? ? I' F]; inversion N as [|? ? NI N']; subst. constructor; [now apply IH|].
  rewrite Forall_forall in F |- *. intros v Hv. apply in_map_iff in Hv as (b & <- & Hb).
  apply in_map_iff in Hb as (t & <- & Ht). cbn [back sx]. apply on_grid_lt.
  - apply F. now apply in_map.
  - intros E. apply NI. rewrite E. now apply (in_map (fun s => millimetre (sx s))).
Qed.
Lemma back_agree s t : agree s t -> agree (back s) (back t).
Proof. intros (A & B & C & D). unfold agree. cbn [back ser dt nstacks delay amp]. rewrite A, B, C. auto. Qed.

Section RT2.
  Context {F K : Type} (read : option K -> F -> result (list trace)).

  Lemma read_back_near a stream kw f :
    consistent a -> (forall s, In s (sensors a) -> (1 <= nstacks (ser s))%Z /\ (delay (ser s) <= 0)%Qc) ->
    to_file a true = Ok stream -> read kw f = Ok stream ->
    (NoDup (map (fun s => millimetre (sx s)) (sensors a)) ->
       from_files read (fun x => x) (fun y => y) kw [f] = Ok (mkArray (map back (sensors a)) (back_source (src a)))) /\
    (~ NoDup (map (fun s => millimetre (sx s)) (sensors a)) ->
       from_files read (fun x => x) (fun y => y) kw [f] = Err ValueError).
  Proof.
    intros (N & I & A) H W R. rewrite (read_back_all read a stream kw f _ _ N H W R).
    rewrite map_id_source. rewrite (map_ext _ back) by (intros; apply map_id_sensor).
    assert (NE : map back (sensors a) <> []) by (destruct (sensors a); cbn; congruence).
    split; intros D.
    - assert (I2 := back_increasing _ I D). pose proof (increasing_NoDup _ I2) as D2.
      rewrite <- (sort_increasing _ I2 D2) at 2. apply new_array_ok. split; auto. split; auto.
      intros u v Hu Hv. apply in_map_iff in Hu as (s & <- & Hs). apply in_map_iff in Hv as (t & <- & Ht).
      apply back_agree. auto.
    - rewrite new_array_err; [destruct (map back (sensors a)); congruence|].
      intros (_ & _ & D2). apply D. clear - D2. induction (sensors a) as [|s l IH]; cbn [map] in *; [constructor|].
      inversion D2 as [|? ? NI D3]; subst. constructor; auto. intros E. apply NI.
      apply in_map_iff in E as (t & E & Ht). apply in_map_iff. exists (back t). split; [|now apply in_map].
      cbn [back sx]. now apply grid_eq.
  Qed.
  Lemma round_trip_near a stream kw f a' :
    consistent a -> (forall s, In s (sensors a) -> (1 <= nstacks (ser s))%Z /\ (delay (ser s) <= 0)%Qc) ->
    to_file a true = Ok stream -> read kw f = Ok stream ->
    from_files read (fun x => x) (fun y => y) kw [f] = Ok a' ->
    Forall2 near_copy (sensors a) (sensors a') /\
    (Qcabs (src_x (src a') - src_x (src a)) <= half_unit)%Qc /\ (Qcabs (src_y (src a') - src_y (src a)) <= half_unit)%Qc.
  Proof.
    intros C H W R E. destruct (read_back_near a stream kw f C H W R) as [P Q].
    assert (D : NoDup (map (fun s => millimetre (sx s)) (sensors a))).
    { destruct (ListDec.NoDup_dec Z.eq_dec (map (fun s => millimetre (sx s)) (sensors a))) as [|X]; auto.
      rewrite (Q X) in E. discriminate. }
    rewrite (P D) in E. injection E as <-. cbn [sensors src].
    assert (E : (half / QcZ 1000)%Qc = half_unit) by (apply Qc_is_canon; reflexivity). rewrite <- E.
    split; [|split; apply on_grid_near; lia].
    clear. induction (sensors a); constructor; auto using back_near.
  Qed.
  Lemma round_trip_exact a stream kw f :
    consistent a ->
    (forall s, In s (sensors a) -> whole 1000 (sx s) /\ whole 1000 (sy s) /\ whole 1000 (delay (ser s)) /\
       whole 1000000 (dt (ser s)) /\ nstacks (ser s) = 1%Z /\ (delay (ser s) <= 0)%Qc) ->
    whole 1000 (src_x (src a)) -> whole 1000 (src_y (src a)) ->
    to_file a true = Ok stream -> read kw f = Ok stream ->
    exists a', from_files read (fun x => x) (fun y => y) kw [f] = Ok a' /\
      Forall2 read_back (sensors a) (sensors a') /\
      src_x (src a') = src_x (src a) /\ src_y (src a') = src_y (src a) /\ src_z (src a') = 0%Qc.
  Proof.
    intros C H WX WY W R.
    assert (H2 : forall s, In s (sensors a) -> (1 <= nstacks (ser s))%Z /\ (delay (ser s) <= 0)%Qc)
      by (intros s Hs; destruct (H s Hs) as (_ & _ & _ & _ & -> & D); split; auto; lia).
    destruct (read_back_near a stream kw f C H2 W R) as [P _].
    eexists. split; [apply P|].
    - destruct C as (_ & I & _). apply increasing_NoDup in I. clear - I H.
      assert (X : forall s, In s (sensors a) -> whole 1000 (sx s)) by (intros; now apply H). clear H.
      induction (sensors a) as [|s l IH]; cbn [map] in *; [constructor|].
      inversion I as [|? ? NI I']; subst. constructor; [|apply IH; auto; intros; apply X; now right].
      intros E. apply NI. apply in_map_iff in E as (t & E & Ht). apply in_map_iff. exists t. split; auto.
      rewrite <- (on_grid_exact 1000 (sx s)), <- (on_grid_exact 1000 (sx t)); try lia; try (apply X; now (left + right)).
      now apply grid_eq.
    - cbn [sensors src back_source src_x src_y src_z]. rewrite !on_grid_exact by (auto; lia).
      split; auto. clear - H. induction (sensors a) as [|s l IH]; constructor; [|apply IH; intros; apply H; now right].
      destruct (H s (or_introl eq_refl)) as (X & Y & D & T & N & _).
      unfold read_back. cbn [back sx sy sz ser amp dt delay nstacks multiple]. rewrite N, !on_grid_exact by (auto; lia). auto 10.
  Qed.
End RT2.

(** ** Several files *)
Fixpoint stack_sensors (s : sensor) (l : list sensor) : sensor * result unit :=
  match l with
  | [] => (s, Ok tt)
  | n :: t => match sensor_stack_append s (ObjSensor n) with
              | (s', Ok _) => stack_sensors s' t
              | (s', Err e) => (s', Err e)
              end
  end.
Lemma sensor_stack_ok s n s' : sensor_stack_append s (ObjSensor n) = (s', Ok tt) ->
  same_place n s /\ compatible (ser s) (ser n) /\ s' = set_ser s (stack_data (ser s) (ser n)).
Proof.
  unfold sensor_stack_append. intros H. destruct (sensor_is_similar _ _ _) eqn:E; [|discriminate].
  apply sensor_is_similar_stack in E as (X & Y & Z & C). injection H as <-. unfold same_place. auto.
Qed.
Lemma stack_sensors_spec l : forall s s', (0 < nstacks (ser s))%Z -> Forall (fun n => (0 < nstacks (ser n))%Z) l ->
  stack_sensors s l = (s', Ok tt) ->
  same_place s' s /\ Forall (fun n => same_place n s /\ compatible (ser s) (ser n)) l /\
  stack_all (ser s) (map ser l) = (ser s', Ok tt).
Proof.
  induction l as [|n l IH]; intros s s' P Q H; cbn [stack_sensors] in H.
  - injection H as <-. split; [|split]; auto. unfold same_place; auto.
  - inversion Q as [|? ? Q1 Q2]; subst.
    destruct (sensor_stack_append s (ObjSensor n)) as [s1 [[]|e]] eqn:E; [|discriminate].
    apply sensor_stack_ok in E as (SP & C & ->).
    apply IH in H; [|cbn; lia|auto]. destruct H as (S1 & S2 & S3). cbn [set_ser sx sy sz ser] in *.
    split; [exact S1|]. split.
    + constructor; auto. eapply Forall_impl; [|exact S2]. intros m (A & B). split; [exact A|].
      destruct C as (C1 & C2 & C3), B as (B1 & B2 & B3). cbn in B1, B2, B3. rewrite length_map2, <- C3, Nat.min_id in B3.
      unfold compatible. auto.
    + cbn [map stack_all]. replace (stack_append (ser s) (ObjSeries (ser n))) with (stack_data (ser s) (ser n), @Ok unit tt); auto.
      symmetry. apply stack_append_ok. exact C.
Qed.

Lemma stack_traces_spec : forall l ts l', stack_traces l ts = Ok l' -> length ts = length l ->
  exists ns, Forall2 decodes ts ns /\ length l' = length l /\
    forall i d, i < length l -> sensor_stack_append (nth i l d) (ObjSensor (nth i ns d)) = (nth i l' d, Ok tt).
Proof.
  induction l as [|s l IH]; intros [|t ts] l' H L; try discriminate.
  - injection H as <-. exists []. split; [constructor|]. split; auto. cbn; lia.
  - cbn [stack_traces] in H. apply bind_ok in H as (n & D & H).
    destruct (sensor_stack_append s (ObjSensor n)) as [s1 [[]|e]] eqn:E; [|discriminate].
    apply bind_ok in H as (r & R & H). injection H as <-. injection L as L.
    destruct (IH ts r R L) as (ns & A & B & C). exists (n :: ns). split; [constructor; auto|].
    split; [cbn; lia|]. intros [|i] d Hi; cbn [nth]; auto. apply C. cbn in Hi; lia.
Qed.

Section Multi.
  Context {F K : Type} (read : option K -> F -> result (list trace)).

  Lemma stack_files_spec f mx my : forall fs a a', stack_files read f mx my a fs = Ok a' ->
    (forall x st, In x fs -> read None x = Ok st -> length st = length (sensors a)) ->
    exists S, Forall2 (fun x ns => exists st, read None x = Ok st /\ Forall2 decodes st ns) fs S /\
      src a' = src a /\ length (sensors a') = length (sensors a) /\
      forall i d, i < length (sensors a) ->
        stack_sensors (nth i (sensors a) d) (map (fun ns => nth i ns d) S) = (nth i (sensors a') d, Ok tt).
  Proof.
    induction fs as [|x fs IH]; intros a a' H L; cbn [stack_files] in H.
    - injection H as <-. exists []. repeat split; auto.
    - apply bind_ok in H as (st & R & H). apply bind_ok in H as (a1 & E & H).
      assert (LS : length st = length (sensors a)) by (apply (L x); [now left|auto]).
      unfold stack_file in E. destruct st as [|t0 st0]; [discriminate|].
      apply bind_ok in E as (sc & PS & E). destruct (source_eq sc (src a)); [|discriminate]. cbn [negb] in E.
      apply bind_ok in E as (l & ST & E). injection E as <-.
      destruct (stack_traces_spec _ _ _ ST LS) as (ns & A & B & C).
      destruct (IH _ _ H) as (S & P & Q & W & V).
      { intros y st HY RY. cbn [sensors]. rewrite B. apply (L y); [now right|auto]. }
      exists (ns :: S). cbn [sensors src] in *. split; [constructor; eauto|]. split; auto. split; [lia|].
      intros i d Hi. cbn [map stack_sensors]. rewrite C by auto. apply V. lia.
  Qed.
  Lemma from_files_split mx my kw f0 rest a : from_files read mx my kw (f0 :: rest) = Ok a ->
    exists a0 f, from_files read mx my kw [f0] = Ok a0 /\ stack_files read f mx my a0 rest = Ok a.
  Proof.
    unfold from_files. intros H. apply bind_ok in H as (st & R & H). apply bind_ok in H as (ss & M & H).
    destruct (rev st) as [|tr r] eqn:E; [discriminate|]. destruct (fmt_of (t_header tr)) as [f|] eqn:E2; [|discriminate].
    apply bind_ok in H as (s & P & H). apply bind_ok in H as (a0 & N & H).
    exists a0, f. rewrite R. cbn [bind]. rewrite M. cbn [bind]. rewrite E, E2, P. cbn [bind]. rewrite N. auto.
  Qed.
  Lemma from_files_base mx my kw f0 a : from_files read mx my kw [f0] = Ok a ->
    consistent a /\ Forall (fun s => (1 <= nstacks (ser s))%Z) (sensors a).
  Proof.
    unfold from_files. intros H. apply bind_ok in H as (st & R & H). apply bind_ok in H as (ss & M & H).
    destruct (rev st) as [|tr r] eqn:E; [discriminate|]. destruct (fmt_of (t_header tr)) as [f|] eqn:E2; [|discriminate].
    apply bind_ok in H as (s & P & H). apply bind_ok in H as (a0 & N & H). cbn in H. injection H as <-.
    destruct (new_array_spec _ _ _ N) as (C & PM & _). split; auto.
    apply Forall_forall. intros x Hx. apply (Permutation_in _ PM) in Hx.
    apply mapM_ok in M. destruct (Forall2_In_r _ _ _ _ M Hx) as (t & _ & D). cbv beta in D.
    pose proof (from_trace_valid t mx my) as V. rewrite D in V. apply V.
  Qed.

  Lemma Forall2_nth_r {A B} (R : A -> B -> Prop) l m i d : Forall2 R l m -> i < length m -> exists a, In a l /\ R a (nth i m d).
  Proof. intros H L. eapply Forall2_In_r; eauto. now apply nth_In. Qed.

  Lemma multi_mean mx my kw f0 rest a :
    from_files read mx my kw (f0 :: rest) = Ok a ->
    (forall x st, In x rest -> read None x = Ok st -> length st = length (sensors a)) ->
    exists a0 S, from_files read mx my kw [f0] = Ok a0 /\ src a = src a0 /\ length (sensors a) = length (sensors a0) /\
      Forall2 (fun x ns => exists st, read None x = Ok st /\ Forall2 decodes st ns /\ length st = length (sensors a0)) rest S /\
      forall i d, i < length (sensors a0) ->
        let r0 := nth i (sensors a0) d in let rs := map (fun ns => nth i ns d) S in let r := nth i (sensors a) d in
        Forall (fun n => same_place n r0) rs /\ same_place r r0 /\
        nstacks (ser r) = total_stacks (map ser (r0 :: rs)) /\
        dt (ser r) = dt (ser r0) /\ delay (ser r) = delay (ser r0) /\ length (amp (ser r)) = length (amp (ser r0)) /\
        forall k, k < length (amp (ser r)) ->
          nth k (amp (ser r)) 0%Qc = weighted_mean (map (fun s => (nstacks (ser s), nth k (amp (ser s)) 0%Qc)) (r0 :: rs)).
  Proof.
    intros H L. destruct (from_files_split _ _ _ _ _ _ H) as (a0 & f & H0 & ST).
    assert (LEN : length (sensors a) = length (sensors a0)).
    { clear - ST. revert a0 ST. induction rest as [|x rest IH]; intros a0 ST; cbn [stack_files] in ST; [now injection ST as <-|].
      apply bind_ok in ST as (st & R & ST). apply bind_ok in ST as (a1 & E & ST). rewrite (IH _ ST). clear - E.
      unfold stack_file in E. destruct st as [|t0 st0]; [discriminate|].
      apply bind_ok in E as (sc & PS & E). destruct (source_eq sc (src a0)); [|discriminate]. cbn [negb] in E.
      apply bind_ok in E as (l & ST & E). injection E as <-. cbn [sensors]. clear - ST.
      revert l ST. generalize (t0 :: st0). induction (sensors a0) as [|s l IH]; intros ts l' H.
      - cbn in H. now injection H as <-.
      - destruct ts as [|t ts]; cbn [stack_traces] in H; [now injection H as <-|].
        apply bind_ok in H as (n & D & H). destruct (sensor_stack_append s (ObjSensor n)) as [s1 [[]|e]]; [|discriminate].
        apply bind_ok in H as (r & R & H). injection H as <-. cbn. f_equal. eauto. }
    destruct (stack_files_spec f mx my rest a0 a ST) as (S & A & B & C & D).
    { intros x st HX RX. rewrite <- LEN. eauto. }
    exists a0, S. split; auto. split; auto. split; auto.
    assert (A' : Forall2 (fun x ns => exists st, read None x = Ok st /\ Forall2 decodes st ns /\ length st = length (sensors a0)) rest S).
    { rewrite LEN in L. clear - A L. induction A as [|x ns xs S (st & R & Q) A IH]; constructor.
      - exists st. split; auto. split; auto. apply (L x); auto. now left.
      - apply IH. intros. apply (L x0); auto. now right. }
    split; auto. intros i d Hi r0 rs r. specialize (D i d Hi). fold r0 rs r in D.
    destruct (from_files_base _ _ _ _ _ H0) as (C0 & P0). rewrite Forall_forall in P0.
    assert (PR : (0 < nstacks (ser r0))%Z) by (specialize (P0 r0 (nth_In _ _ Hi)); lia).
    assert (PS : Forall (fun n => (0 < nstacks (ser n))%Z) rs).
    { apply Forall_forall. intros n Hn. unfold rs in Hn. apply in_map_iff in Hn as (ns & <- & Hns).
      destruct (Forall2_In_r _ _ _ _ A' Hns) as (x & _ & st & _ & Q & LQ).
      assert (LN : i < length ns) by (rewrite <- (Forall2_length _ _ _ Q); lia).
      destruct (Forall2_nth_r _ _ _ i d Q LN) as (t & _ & DT). unfold decodes in DT.
      pose proof (from_trace_valid t (fun x => x) (fun y => y)) as V. rewrite DT in V. lia. }
    destruct (stack_sensors_spec rs r0 r PR PS D) as (SP & FA & SA).
    split; [eapply Forall_impl; [|exact FA]; intros n X; apply X|]. split; [exact SP|].
    destruct (stack_all_weighted_mean (ser r0) (map ser rs) PR) as (s' & E1 & E2 & E3 & E4 & _ & E5 & E6).
    { apply Forall_forall. intros s Hs. apply in_map_iff in Hs as (n & <- & Hn).
      rewrite Forall_forall in FA, PS. split; [apply PS|apply FA]; auto. }
    rewrite E1 in SA. injection SA as ->. cbn [map]. repeat split; auto.
    intros k Hk. rewrite E6 by lia. cbn [map]. now rewrite map_map.
  Qed.

  (** If every additional file has one stack count, the array stays consistent. *)
  Lemma multi_consistent mx my kw f0 rest a :
    from_files read mx my kw (f0 :: rest) = Ok a ->
    (forall x st, In x rest -> read None x = Ok st -> length st = length (sensors a)) ->
    (forall x st t u s r, In x rest -> read None x = Ok st -> In t st -> In u st -> decodes t s -> decodes u r ->
       nstacks (ser s) = nstacks (ser r)) ->
    consistent a.
  Proof.
    intros H L U. destruct (multi_mean _ _ _ _ _ _ H L) as (a0 & S & H0 & SR & LEN & A & D).
    destruct (from_files_base _ _ _ _ _ H0) as ((N & I & G) & _).
    destruct (sensors a0) as [|s0 l0] eqn:E0; [congruence|]. rewrite <- E0 in *. set (d := s0).
    assert (POS : map sx (sensors a) = map sx (sensors a0)).
    { apply (nth_ext_len 0%Qc); rewrite ?map_length; auto. intros i Hi.
      rewrite !(nth_map_lt sx _ _ _ d) by lia. destruct (D i d ltac:(lia)) as (_ & (X & _) & _). exact X. }
    assert (TOT : forall i j, i < length (sensors a0) -> j < length (sensors a0) ->
      total_stacks (map ser (map (fun ns => nth i ns d) S)) = total_stacks (map ser (map (fun ns => nth j ns d) S))).
    { intros i j Hi Hj. clear - A U Hi Hj. induction A as [|x ns xs S (st & R & Q & LQ) A IH]; [reflexivity|].
      cbn [map]. unfold total_stacks in *. cbn [map fold_right]. rewrite IH by (intros y1 y2 y3 y4 y5 y6 HX; exact (U y1 y2 y3 y4 y5 y6 (or_intror HX))).
      f_equal. pose proof (Forall2_length _ _ _ Q) as LN.
      destruct (Forall2_nth_r _ _ _ i d Q ltac:(lia)) as (t & Ht & DT).
      destruct (Forall2_nth_r _ _ _ j d Q ltac:(lia)) as (u & Hu & DU).
      exact (U x st t u _ _ (or_introl eq_refl) R Ht Hu DT DU). }
    split; [|split].
    - intros E. rewrite E in LEN. rewrite E0 in LEN. discriminate.
    - now rewrite POS.
    - intros s t Hs Ht. apply In_nth with (d := d) in Hs as (i & Hi & <-). apply In_nth with (d := d) in Ht as (j & Hj & <-).
      destruct (D i d ltac:(lia)) as (_ & _ & N1 & T1 & D1 & L1 & _). destruct (D j d ltac:(lia)) as (_ & _ & N2 & T2 & D2 & L2 & _).
      destruct (G (nth i (sensors a0) d) (nth j (sensors a0) d)) as (G1 & G2 & G3 & G4); [apply nth_In; lia|apply nth_In; lia|].
      unfold agree. rewrite T1, T2, D1, D2, L1, L2, N1, N2. split; auto. split; auto.
      unfold total_stacks in *. cbn [map fold_right]. rewrite G2, (TOT i j) by lia. reflexivity.
  Qed.

  (** ** Coordinate maps *)
  Lemma from_trace_mapped t mx my :
    from_trace t mx my = bind (from_trace t (fun x => x) (fun y => y)) (fun s => Ok (map_sensor mx my s)).
  Proof.
    unfold from_trace. destruct (t_header t) as [h|h|h| |]; auto.
    - unfold from_trace_seg2, from_trace_plain. rewrite !new_sensor_spec. destruct (_ && _); reflexivity.
    - unfold from_trace_su, from_trace_plain. cbv zeta.
      destruct (scaled _ _ _); [|reflexivity]. cbn [bind]. destruct (scaled _ _ _); [|reflexivity]. cbn [bind].
      rewrite !new_sensor_spec. destruct (_ && _); reflexivity.
    - unfold from_trace_su, from_trace_plain. cbv zeta.
      destruct (scaled _ _ _); [|reflexivity]. cbn [bind]. destruct (scaled _ _ _); [|reflexivity]. cbn [bind].
      rewrite !new_sensor_spec. destruct (_ && _); reflexivity.
  Qed.
  Lemma mapM_from_trace mx my l :
    mapM (fun t => from_trace t mx my) l =
    bind (mapM (fun t => from_trace t (fun x => x) (fun y => y)) l) (fun ss => Ok (map (map_sensor mx my) ss)).
  Proof.
    induction l as [|t l IH]; [reflexivity|]. cbn [mapM]. rewrite from_trace_mapped.
    destruct (from_trace t _ _); [|reflexivity]. cbn [bind]. rewrite IH.
    destruct (mapM (fun t : trace => from_trace t (fun x => x) (fun y => y)) l); reflexivity.
  Qed.
  Lemma parse_source_mapped f mx my t : f <> F_seg2 ->
    parse_source f mx my t = bind (parse_source f (fun x => x) (fun y => y) t) (fun s => Ok (map_source mx my s)).
  Proof.
    intros N. unfold parse_source. destruct f; [congruence| |].
    - destruct (t_header t) as [h|h|h| |]; auto. destruct (check_units h); auto. cbn [bind].
      destruct (item_get (h_scale h)) as [sc|]; auto. cbn [bind].
      destruct (item_get (h_sx h)); auto. cbn [bind]. destruct (scaled _ _ _); auto. cbn [bind].
      destruct (item_get (h_sy h)); auto. cbn [bind]. destruct (scaled _ _ _); auto.
    - destruct (t_header t) as [h|h|h| |]; auto. destruct (check_units h); auto. cbn [bind].
      destruct (item_get (h_scale h)) as [sc|]; auto. cbn [bind].
      destruct (item_get (h_sx h)); auto. cbn [bind]. destruct (scaled _ _ _); auto. cbn [bind].
      destruct (item_get (h_sy h)); auto. cbn [bind]. destruct (scaled _ _ _); auto.
  Qed.
  Lemma parse_source_seg2 mx my t :
    parse_source F_seg2 mx my t =
    bind (parse_source F_seg2 (fun x => x) (fun y => y) t) (fun s => Ok (map_source mx (fun y => y) s)).
  Proof. unfold parse_source. destruct (t_header t) as [h|h|h| |]; auto. destruct (attr_get (g_source h)); reflexivity. Qed.

  Lemma single_file_maps mx my kw f a' :
    (forall st t h, read kw f = Ok st -> In t st -> t_header t <> Seg2 h) ->
    (from_files read mx my kw [f] = Ok a' <->
     exists a, from_files read (fun x => x) (fun y => y) kw [f] = Ok a /\
       new_array (map (map_sensor mx my) (sensors a)) (map_source mx my (src a)) = Ok a').
  Proof.
    intros NS. unfold from_files. destruct (read kw f) as [st|e] eqn:R; cbn [bind]; [|split; [discriminate|intros (? & ? & _); discriminate]].
    rewrite mapM_from_trace.
    destruct (mapM _ st) as [ss|e]; cbn [bind]; [|split; [discriminate|intros (? & ? & _); discriminate]].
    destruct (rev st) as [|tr r] eqn:E; [split; [discriminate|intros (? & ? & _); discriminate]|].
    assert (HT : In tr st) by (apply in_rev; rewrite E; now left).
    destruct (fmt_of (t_header tr)) as [ff|] eqn:E2; [|split; [discriminate|intros (? & ? & _); discriminate]].
    assert (FF : ff <> F_seg2).
    { intros ->. destruct (t_header tr) as [h|h|h| |] eqn:E3; try discriminate. exact (NS st tr h eq_refl HT E3). }
    rewrite (parse_source_mapped ff mx my tr FF).
    destruct (parse_source ff _ _ tr) as [s|e]; cbn [bind]; [|split; [discriminate|intros (? & ? & _); discriminate]].
    split.
    - intros H. apply bind_ok in H as (b & H & B). cbn in B. injection B as ->.
      assert (BD : buildable ss).
      { assert (B : buildable (map (map_sensor mx my) ss)) by (apply (new_array_iff _ (map_source mx my s)); eauto).
        destruct B as (B1 & B2 & B3). split; [intros ->; now apply B1|]. split.
        - intros u v Hu Hv. exact (B2 (map_sensor mx my u) (map_sensor mx my v) (in_map _ _ _ Hu) (in_map _ _ _ Hv)).
        - rewrite map_map in B3. cbn [map_sensor sx] in B3. clear - B3.
          induction ss as [|u ss IH]; cbn [map] in *; [constructor|]. inversion B3; subst. constructor; auto.
          intros X. apply H1. apply in_map_iff in X as (v & EV & HV). apply in_map_iff. exists v. now rewrite EV. }
      rewrite (proj1 (new_array_ok ss s) BD). cbn [bind]. eexists. split; [reflexivity|]. cbn [sensors src].
      eapply new_array_order; [|exact H]. apply Permutation_map. symmetry. apply sort_perm.
    - intros (a & H & N). apply bind_ok in H as (b & H & B). cbn in B. injection B as ->.
      destruct (new_array_spec _ _ _ H) as (_ & P & <-).
      erewrite new_array_order; [reflexivity| |exact N]. now apply Permutation_map.
  Qed.

  (** ** The measured source signal *)
  Lemma add_all_spec ch : forall fs a r, add_all read ch a fs = Ok r ->
    (forall x st tr, In x fs -> read None x = Ok st -> pyget st ch = Ok tr -> length (t_data tr) = length a) ->
    exists ds, Forall2 (fun x d => exists st tr, read None x = Ok st /\ pyget st ch = Ok tr /\ d = t_data tr) fs ds /\
      length r = length a /\
      forall k, k < length a -> nth k r 0%Qc = (nth k a 0 + Qcsum (map (fun d => nth k d 0%Qc) ds))%Qc.
  Proof.
    induction fs as [|x fs IH]; intros a r H L; cbn [add_all] in H.
    - injection H as <-. exists []. split; [constructor|]. split; auto. intros. cbn. ring.
    - apply bind_ok in H as (st & R & H). apply bind_ok in H as (tr & G & H). apply bind_ok in H as (a1 & A & H).
      assert (LD : length (t_data tr) = length a) by (apply (L x st); auto; now left).
      unfold add_in_place in A. rewrite LD, Nat.eqb_refl in A. injection A as <-.
      assert (LA : length (map2 Qcplus a (t_data tr)) = length a) by (rewrite length_map2; lia).
      destruct (IH _ _ H) as (ds & F1 & F2 & F3).
      { intros y st' tr' HY RY GY. rewrite LA. apply (L y st'); auto. now right. }
      exists (t_data tr :: ds). split; [constructor; eauto|]. split; [lia|].
      intros k Hk. rewrite F3 by lia. rewrite (nth_map2 _ _ _ _ 0%Qc 0%Qc) by lia. cbn [map Qcsum fold_right].
      fold (Qcsum (map (fun d => nth k d 0%Qc) ds)). ring.
  Qed.
  Lemma source_signal_mean ch fs r d : source_signal read ch fs = Ok (r, d) ->
    (forall x y st su tr tu, In x fs -> In y fs -> read None x = Ok st -> read None y = Ok su ->
       pyget st ch = Ok tr -> pyget su ch = Ok tu -> length (t_data tr) = length (t_data tu)) ->
    exists trs, Forall2 (fun x tr => exists st, read None x = Ok st /\ pyget st ch = Ok tr) fs trs /\
      (exists t0, hd_error trs = Some t0 /\ d = t_delta t0 /\ length r = length (t_data t0)) /\
      forall k, k < length r ->
        nth k r 0%Qc = (Qcsum (map (fun tr => nth k (t_data tr) 0%Qc) trs) / QcN (length fs))%Qc.
  Proof.
    destruct fs as [|f0 rest]; [discriminate|]. cbn [source_signal]. intros H L.
    apply bind_ok in H as (st & R & H). apply bind_ok in H as (tr & G & H). apply bind_ok in H as (a & A & H).
    injection H as <- <-.
    destruct (add_all_spec ch rest _ _ A) as (ds & F1 & F2 & F3).
    { intros x s' t' HX RX GX. apply (L x f0 s' st t' tr); auto; [now right|now left]. }
    assert (X : exists trs, Forall2 (fun x tr => exists st, read None x = Ok st /\ pyget st ch = Ok tr) rest trs /\ ds = map t_data trs).
    { clear - F1. induction F1 as [|x d xs ds (st & tr & R & G & ->) F9 IH]; [exists []; split; [constructor|reflexivity]|].
      destruct IH as (trs & P & ->). exists (tr :: trs). split; [constructor; eauto|reflexivity]. }
    destruct X as (trs & P & ->). exists (tr :: trs). split; [constructor; eauto|].
    split; [exists tr; split; [reflexivity|split; [reflexivity|now rewrite map_length]]|].
    rewrite map_length. intros k Hk. rewrite (nth_map_lt _ _ _ _ 0%Qc) by auto. rewrite F3 by lia.
    cbn [map Qcsum fold_right]. rewrite map_map. reflexivity.
  Qed.
End Multi.
