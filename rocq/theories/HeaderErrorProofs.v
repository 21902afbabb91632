(* Proofs about what reading and writing files refuses. *)
From Verif Require Import NumFacts PyFacts SeriesModel SeriesSpec ArrayModel ArraySpec ArrayProofs ArrayMatrixProofs.
From Verif Require Import HeaderModel HeaderSpec HeaderProofs HeaderFileProofs HeaderErrorSpec.

(** ** The source of a file *)
Lemma scaled_ok i j s : s <> 0%Z -> exists x, scaled i j s = Ok x.
Proof. intros H. unfold scaled. apply Z.eqb_neq in H. rewrite H. eauto. Qed.

Lemma source_fields f tr h mx my : (f = F_su /\ t_header tr = Su h) \/ (f = F_segy /\ t_header tr = Segy h) ->
  h_units h = Value 0%Z \/ h_units h = Value 1%Z -> (f = F_segy -> h_scale h <> Value 0%Z) ->
  match first_problem [h_scale h; h_sx h; h_sy h] with
  | Some e => parse_source f mx my tr = Err e
  | None => exists s, parse_source f mx my tr = Ok s
  end.
Proof.
  intros T U Z0. assert (CU : check_units h = Ok tt) by (unfold check_units; destruct U as [-> | ->]; reflexivity).
  assert (K : forall sc : Z, h_scale h = Value sc -> f = F_segy -> sc <> 0%Z) by (intros sc E F ->; now apply Z0).
  unfold parse_source. destruct T as [[-> ->] | [-> ->]]; rewrite CU; cbn [bind]; clear CU U Z0.
  - destruct (h_scale h) as [| |sc]; cbn [first_problem item_get bind]; auto.
    assert (N : (if (sc =? 0)%Z then 1%Z else sc) <> 0%Z) by (destruct (Z.eqb_spec sc 0); auto; discriminate).
    destruct (h_sx h) as [| |ix]; cbn [first_problem item_get bind]; auto.
    destruct (scaled_ok ix ix _ N) as [x ->]; cbn [bind].
    destruct (h_sy h) as [| |iy]; cbn [first_problem item_get bind]; auto.
    destruct (scaled_ok iy iy _ N) as [y ->]; cbn [bind]. eauto.
  - destruct (h_scale h) as [| |sc]; cbn [first_problem item_get bind]; auto.
    assert (N : sc <> 0%Z) by (apply K; auto).
    destruct (h_sx h) as [| |ix]; cbn [first_problem item_get bind]; auto.
    destruct (scaled_ok ix ix _ N) as [x ->]; cbn [bind].
    destruct (h_sy h) as [| |iy]; cbn [first_problem item_get bind]; auto.
    destruct (scaled_ok iy iy _ N) as [y ->]; cbn [bind]. eauto.
Qed.

Lemma units_missing f tr h mx my : (f = F_su /\ t_header tr = Su h) \/ (f = F_segy /\ t_header tr = Segy h) ->
  h_units h = Missing -> parse_source f mx my tr = Err KeyError.
Proof. intros [[-> E] | [-> E]] U; unfold parse_source; rewrite E; unfold check_units; now rewrite U. Qed.

(** ** Writing *)
Lemma pack_spec b z : pack b z = if (- 2 ^ (b - 1) <=? z)%Z && (z <? 2 ^ (b - 1))%Z then Ok z else Err ValueError.
Proof. reflexivity. Qed.
Lemma pack16 z : (int16 z /\ pack 16 z = Ok z) \/ (~ int16 z /\ pack 16 z = Err ValueError).
Proof.
  unfold pack, int16. change (2 ^ (16 - 1))%Z with 32768%Z. change (- (32768))%Z with (-32768)%Z.
  destruct (Z.leb_spec (-32768) z), (Z.ltb_spec z 32768); cbn [andb]; [left|right|right|right]; split; auto; lia.
Qed.
Lemma pack32 z : (int32 z /\ pack 32 z = Ok z) \/ (~ int32 z /\ pack 32 z = Err ValueError).
Proof.
  unfold pack, int32. change (2 ^ (32 - 1))%Z with 2147483648%Z. change (- (2147483648))%Z with (-2147483648)%Z.
  destruct (Z.leb_spec (-2147483648) z), (Z.ltb_spec z 2147483648); cbn [andb]; [left|right|right|right]; split; auto; lia.
Qed.
Lemma pack_u16 z : (uint16 z /\ pack_unsigned 16 z = Ok z) \/ (~ uint16 z /\ pack_unsigned 16 z = Err ValueError).
Proof.
  unfold pack_unsigned, uint16. change (2 ^ 16)%Z with 65536%Z.
  destruct (Z.leb_spec 0 z), (Z.ltb_spec z 65536); cbn [andb]; [left|right|right|right]; split; auto; lia.
Qed.

Lemma write_sensor_spec s0 s :
  (source_fits s0 /\ fits s /\ exists t, write_sensor s0 s = Ok t) \/
  (~ (source_fits s0 /\ fits s) /\ write_sensor s0 s = Err ValueError).
Proof.
  unfold write_sensor, source_fits, fits, thousandths, microseconds. fold (micro (dt (ser s))).
  destruct (pack32 (round_half_even (src_x s0 * QcZ 1000))) as [[A1 ->] | [A1 ->]]; cbn [bind]; [|right; split; [tauto|reflexivity]].
  destruct (pack32 (round_half_even (src_y s0 * QcZ 1000))) as [[A2 ->] | [A2 ->]]; cbn [bind]; [|right; split; [tauto|reflexivity]].
  destruct (pack16 (nstacks (ser s) - 1)) as [[A3 ->] | [A3 ->]]; cbn [bind]; [|right; split; [tauto|reflexivity]].
  destruct (pack16 (round_half_even (delay (ser s) * QcZ 1000))) as [[A4 ->] | [A4 ->]]; cbn [bind]; [|right; split; [tauto|reflexivity]].
  destruct (pack32 (round_half_even (sx s * QcZ 1000))) as [[A5 ->] | [A5 ->]]; cbn [bind]; [|right; split; [tauto|reflexivity]].
  destruct (pack32 (round_half_even (sy s * QcZ 1000))) as [[A6 ->] | [A6 ->]]; cbn [bind]; [|right; split; [tauto|reflexivity]].
  destruct (pack_u16 (micro (dt (ser s)))) as [[A7 ->] | [A7 ->]]; cbn [bind]; [|right; split; [tauto|reflexivity]].
  left. split; [auto|]. split; [|eauto]. repeat (split; [assumption|]). assumption.
Qed.

Lemma written_fits a : sensors a <> [] ->
  ((exists st, to_file a true = Ok st) <-> source_fits (src a) /\ forall s, In s (sensors a) -> fits s) /\
  (~ (source_fits (src a) /\ forall s, In s (sensors a) -> fits s) -> to_file a true = Err ValueError).
Proof.
  intros N. unfold to_file.
  assert (M : forall l, ((exists st, mapM (write_sensor (src a)) l = Ok st) <-> forall s, In s l -> source_fits (src a) /\ fits s) /\
                        (~ (forall s, In s l -> source_fits (src a) /\ fits s) -> mapM (write_sensor (src a)) l = Err ValueError)).
  { induction l as [|s l [IH1 IH2]]; cbn [mapM].
    - split; [split; [intros _ s []|intros; eauto]|]. intros H. exfalso. apply H. intros s [].
    - destruct (write_sensor_spec (src a) s) as [(A & B & t & ->) | (A & ->)]; cbn [bind].
      + destruct (mapM (write_sensor (src a)) l) as [r|e] eqn:E; cbn [bind].
        * split; [split; [|eauto]|]. { intros _ x [<-|I]; [auto|]. apply IH1; eauto. }
          intros H. exfalso. apply H. intros x [<-|I]; [auto|]. apply IH1; eauto.
        * split; [split; [intros [st Q]; discriminate|]|].
          { intros H. exfalso. destruct (proj2 IH1) as [st Q]; [intros x I; apply H; now right|discriminate]. }
          intros H. rewrite <- IH2; auto. intros Q. apply H. intros x [<-|I]; auto.
      + split; [split; [intros [st Q]; discriminate|]|reflexivity]. intros H. exfalso. apply A. apply H. now left. }
  destruct (M (sensors a)) as [M1 M2].
  assert (Eq : (forall s, In s (sensors a) -> source_fits (src a) /\ fits s) <-> source_fits (src a) /\ forall s, In s (sensors a) -> fits s).
  { split.
    - intros H. split; [|intros s I; now apply H]. destruct (sensors a) as [|s l] eqn:E; [congruence|]. apply (H s). now left.
    - intros [A B] s I. auto. }
  split; [rewrite M1; exact Eq|]. intros H. apply M2. intros Q. apply H. now apply Eq.
Qed.

(** ** Several files *)
Section Several.
  Context {F K : Type} (read : option K -> F -> result (list trace)).
  Lemma stack_files_app f mx my a fs gs : stack_files read f mx my a (fs ++ gs) = bind (stack_files read f mx my a fs) (fun b => stack_files read f mx my b gs).
  Proof.
    revert a. induction fs as [|x fs IH]; intros a; cbn [app stack_files bind]; auto.
    destruct (read None x) as [st|]; cbn [bind]; auto. destruct (stack_file f mx my a st); cbn [bind]; auto.
  Qed.
  (** Having read some files, one more adds its own outcome. *)
  Lemma from_files_snoc mx my kw f0 fs a : from_files read mx my kw (f0 :: fs) = Ok a ->
    exists st t f, read kw f0 = Ok st /\ hd_error (rev st) = Some t /\ fmt_of (t_header t) = Some f /\
      forall gs, from_files read mx my kw (f0 :: fs ++ gs) = stack_files read f mx my a gs.
  Proof.
    cbn [from_files]. intros H. apply bind_ok in H as (st & R & H). apply bind_ok in H as (ss & M & H).
    destruct (rev st) as [|t r] eqn:E; [discriminate|]. destruct (fmt_of (t_header t)) as [f|] eqn:Fm; [|discriminate].
    exists st, t, f. split; [auto|]. split; [now rewrite E|]. split; [auto|]. intros gs.
    rewrite R. cbn [bind]. rewrite M. cbn [bind]. rewrite E, Fm.
    apply bind_ok in H as (s & P & H). rewrite P. cbn [bind]. apply bind_ok in H as (a0 & N & H). rewrite N. cbn [bind].
    rewrite stack_files_app, H. reflexivity.
  Qed.
  Lemma other_format f mx my t : fmt_of (t_header t) <> Some f -> parse_source f mx my t = Err AttributeError.
  Proof. intros H. unfold parse_source. destruct f, (t_header t); cbn in H; try reflexivity; congruence. Qed.
  Lemma same_format_spec g h f : fmt_of g = Some f -> (same_format g h <-> fmt_of h = Some f).
  Proof. intros E. destruct g, h; cbn in *; try discriminate; injection E as <-; split; try tauto; try discriminate; auto. Qed.

  Lemma next_file mx my kw f0 fs f1 more a : from_files read mx my kw (f0 :: fs) = Ok a ->
    (forall e, read None f1 = Err e -> from_files read mx my kw (f0 :: fs ++ f1 :: more) = Err e) /\
    (read None f1 = Ok [] -> from_files read mx my kw (f0 :: fs ++ f1 :: more) = Err IndexError) /\
    (forall t ts st u, read None f1 = Ok (t :: ts) -> read kw f0 = Ok st -> last st u = u -> In u st ->
       (~ same_format (t_header u) (t_header t) -> from_files read mx my kw (f0 :: fs ++ f1 :: more) = Err AttributeError) /\
       (forall f, fmt_of (t_header t) = Some f -> same_format (t_header u) (t_header t) ->
          (forall e, parse_source f mx my t = Err e -> from_files read mx my kw (f0 :: fs ++ f1 :: more) = Err e) /\
          (forall s, parse_source f mx my t = Ok s -> s <> src a -> from_files read mx my kw (f0 :: fs ++ f1 :: more) = Err ValueError))).
  Proof.
    intros H. destruct (from_files_snoc _ _ _ _ _ _ H) as (st & t & f & R & L & Fm & E). rewrite !E. cbn [stack_files].
    split; [intros e Q; now rewrite Q|]. split; [intros Q; now rewrite Q|].
    intros t1 ts st' u Q R' Lu Iu. rewrite Q. cbn [bind stack_file]. rewrite R in R'. injection R' as <-.
    assert (U : t = u).
    { assert (st = rev (rev st)) by now rewrite rev_involutive. destruct (rev st) as [|z zs]; [discriminate|]. cbn in L. injection L as ->.
      cbn [rev] in H0. rewrite H0 in Lu. rewrite last_last in Lu. exact Lu. }
    subst u. split.
    - intros NF. rewrite other_format; [reflexivity|]. intros X. apply NF. now apply (same_format_spec _ _ f).
    - intros f' F' SF. apply (same_format_spec _ _ f) in SF; auto. rewrite SF in F'. injection F' as <-.
      split; [intros e P; now rewrite P|]. intros s P D. rewrite P. cbn [bind].
      destruct (source_eq s (src a)) eqn:SE; [exfalso; apply D; now apply source_eq_spec|]. reflexivity.
  Qed.

  Lemma first_file_errors mx my kw f0 rest :
    from_files read mx my kw [] = Err IndexError /\
    (forall e, read kw f0 = Err e -> from_files read mx my kw (f0 :: rest) = Err e) /\
    (read kw f0 = Ok [] -> from_files read mx my kw (f0 :: rest) = Err UnboundLocalError) /\
    (forall a t b e, read kw f0 = Ok (a ++ t :: b) -> (forall u, In u a -> exists s, from_trace u mx my = Ok s) ->
       from_trace t mx my = Err e -> from_files read mx my kw (f0 :: rest) = Err e).
  Proof.
    split; [reflexivity|]. split; [intros e Q; cbn [from_files]; now rewrite Q|]. split; [intros Q; cbn [from_files]; now rewrite Q|].
    intros a t b e Q A B. cbn [from_files]. rewrite Q. cbn [bind].
    assert (M : mapM (fun t => from_trace t mx my) (a ++ t :: b) = Err e).
    { clear Q. induction a as [|u a IH]; cbn [app mapM]; [now rewrite B|]. destruct (A u (or_introl eq_refl)) as [s ->]. cbn [bind].
      rewrite IH; auto. intros v I. apply A. now right. }
    now rewrite M.
  Qed.

  (** ** The measured source signal *)
  Lemma add_one (a d : list Qc) : (length d = length a \/ length d = 1 ->
      exists r, add_in_place a d = Ok r /\ length r = length a /\ forall k, k < length a -> nth k r 0%Qc = (nth k a 0 + heard k d)%Qc) /\
    (length d <> length a -> length d <> 1 -> add_in_place a d = Err ValueError).
  Proof.
    unfold add_in_place, heard. split.
    - intros H. destruct (Nat.eqb_spec (length d) (length a)) as [L|L].
      + eexists. split; [reflexivity|]. split; [rewrite length_map2; lia|]. intros k Hk. rewrite (nth_map2 _ _ _ _ 0%Qc 0%Qc) by lia.
        f_equal. destruct d as [|v [|w d]]; auto. cbn in L. destruct k; auto. lia.
      + destruct d as [|v [|w d]]; cbn in H, L; try (exfalso; lia). eexists. split; [reflexivity|]. split; [now rewrite map_length|].
        intros k Hk. now rewrite (nth_map_lt _ _ _ _ 0%Qc) by auto.
    - intros A B. apply Nat.eqb_neq in A. rewrite A. destruct d as [|v [|w d]]; auto. cbn in B. lia.
  Qed.
  Lemma add_several ch : forall fs trs, Forall2 (channel_of read ch) fs trs -> forall a, (forall t, In t trs -> joins (length a) t) ->
    exists r, add_all read ch a fs = Ok r /\ length r = length a /\
      forall k, k < length a -> nth k r 0%Qc = (nth k a 0 + Qcsum (map (fun t => heard k (t_data t)) trs))%Qc.
  Proof.
    induction 1 as [|x t fs trs (st & R & G) H IH]; intros a J; cbn [add_all].
    - eexists. split; [reflexivity|]. split; auto. intros. cbn. ring.
    - rewrite R. cbn [bind]. rewrite G. cbn [bind].
      destruct (proj1 (add_one a (t_data t)) (J t (or_introl eq_refl))) as (r & -> & L & V). cbn [bind].
      destruct (IH r) as (r' & E & L' & V'); [intros u I; rewrite L; apply J; now right|]. rewrite E. eexists. split; [reflexivity|]. split; [lia|].
      intros k Hk. rewrite V' by lia. rewrite V by auto. cbn [map Qcsum fold_right]. fold (Qcsum (map (fun t => heard k (t_data t)) trs)). ring.
  Qed.
  Lemma add_fails ch e : forall fs trs, Forall2 (channel_of read ch) fs trs -> forall a x more, (forall t, In t trs -> joins (length a) t) ->
    (read None x = Err e \/ (exists st, read None x = Ok st /\ pyget st ch = Err e) \/
     (e = ValueError /\ exists t, channel_of read ch x t /\ ~ joins (length a) t)) ->
    add_all read ch a (fs ++ x :: more) = Err e.
  Proof.
    induction 1 as [|y t fs trs (st & R & G) H IH]; intros a x more J X; cbn [add_all app].
    - destruct X as [X|[(st & R & G)|(-> & t & (st & R & G) & N)]]; [now rewrite X|rewrite R; cbn [bind]; now rewrite G|].
      rewrite R. cbn [bind]. rewrite G. cbn [bind]. rewrite (proj2 (add_one a (t_data t))); [reflexivity| |]; intros Q; apply N; unfold joins; auto.
    - rewrite R. cbn [bind]. rewrite G. cbn [bind].
      destruct (proj1 (add_one a (t_data t)) (J t (or_introl eq_refl))) as (r & -> & L & V). cbn [bind].
      rewrite IH; auto; intros; rewrite L; auto. apply J. now right.
  Qed.

  Lemma signal_heard ch f0 rest t0 trs : Forall2 (channel_of read ch) (f0 :: rest) (t0 :: trs) ->
    (forall t, In t trs -> joins (length (t_data t0)) t) ->
    exists r, source_signal read ch (f0 :: rest) = Ok (r, t_delta t0) /\ length r = length (t_data t0) /\
      forall k, k < length r -> nth k r 0%Qc = ((nth k (t_data t0) 0 + Qcsum (map (fun t => heard k (t_data t)) trs)) / QcN (S (length rest)))%Qc.
  Proof.
    intros H J. inversion H as [|? ? ? ? (st & R & G) H']; subst. cbn [source_signal]. rewrite R. cbn [bind]. rewrite G. cbn [bind].
    destruct (add_several ch rest trs H' _ J) as (r & E & L & V). rewrite E. cbn [bind]. eexists. split; [reflexivity|]. rewrite map_length.
    split; [exact L|]. intros k Hk. rewrite (nth_map_lt _ _ _ _ 0%Qc) by auto. rewrite V by lia. reflexivity.
  Qed.
  Lemma signal_refused ch f0 rest t0 trs x more e : Forall2 (channel_of read ch) (f0 :: rest) (t0 :: trs) ->
    (forall t, In t trs -> joins (length (t_data t0)) t) ->
    read None x = Err e \/ (exists st, read None x = Ok st /\ pyget st ch = Err e) \/
      (e = ValueError /\ exists t, channel_of read ch x t /\ ~ joins (length (t_data t0)) t) ->
    source_signal read ch (f0 :: rest ++ x :: more) = Err e.
  Proof.
    intros H J X. inversion H as [|? ? ? ? (st & R & G) H']; subst. cbn [source_signal]. rewrite R. cbn [bind]. rewrite G. cbn [bind].
    now rewrite (add_fails ch e rest trs H').
  Qed.
  Lemma signal_first ch f0 rest e : source_signal read ch [] = Err IndexError /\
    (read None f0 = Err e \/ (exists st, read None f0 = Ok st /\ pyget st ch = Err e) -> source_signal read ch (f0 :: rest) = Err e).
  Proof.
    split; [reflexivity|]. intros [R|(st & R & G)]; cbn [source_signal]; rewrite R; cbn [bind]; auto. now rewrite G.
  Qed.
End Several.

(** * Writing and reading *)
Lemma back_restored s : (1 <= nstacks (ser s))%Z -> back s = restored s.
Proof.
  intros H. unfold back, restored. change on_grid with stored. do 2 f_equal.
  destruct (Z.eqb_spec (nstacks (ser s) - 1) 0); lia.
Qed.
Lemma stored_delay_nonpos s : Qcleb (delay (ser (back s))) 0 = (round_half_even (delay (ser s) * QcZ 1000) <=? 0)%Z.
Proof.
  apply eq_true_iff_eq. rewrite Qcleb_le, Z.leb_le. cbn [back ser delay]. unfold on_grid.
  set (r := round_half_even _). split; intros H.
  - apply QcZ_le. rewrite QcZ_0. replace (QcZ r) with (QcZ r / QcZ 1000 * QcZ 1000)%Qc by (field; discriminate).
    replace 0%Qc with (0 * QcZ 1000)%Qc by ring. apply Qcmult_le_compat_r; [exact H|discriminate].
  - apply QcZ_le in H. rewrite QcZ_0 in H. replace 0%Qc with (0 * / QcZ 1000)%Qc by ring. unfold Qcdiv.
    apply Qcmult_le_compat_r; [exact H|discriminate].
Qed.
Section Trip.
  Context {F K : Type} (read : option K -> F -> result (list trace)).
  Lemma trip_outcome a stream kw f : consistent a -> (forall s, In s (sensors a) -> (1 <= nstacks (ser s))%Z) ->
    to_file a true = Ok stream -> read kw f = Ok stream ->
    ((exists s, In s (sensors a) /\ (0 < round_half_even (delay (ser s) * QcZ 1000))%Z) \/
     ~ NoDup (map (fun s => millimetre (sx s)) (sensors a)) ->
       from_files read (fun x => x) (fun y => y) kw [f] = Err ValueError) /\
    ((forall s, In s (sensors a) -> (round_half_even (delay (ser s) * QcZ 1000) <= 0)%Z) ->
     NoDup (map (fun s => millimetre (sx s)) (sensors a)) ->
       from_files read (fun x => x) (fun y => y) kw [f] = Ok (mkArray (map restored (sensors a)) (restored_source (src a)))).
  Proof.
    intros C H W R. pose proof W as W0. cbn [to_file] in W. apply mapM_ok in W.
    assert (Late : (exists s, In s (sensors a) /\ (0 < round_half_even (delay (ser s) * QcZ 1000))%Z) ->
      from_files read (fun x => x) (fun y => y) kw [f] = Err ValueError).
    { intros (s & Hs & P). unfold from_files. rewrite R. cbn [bind].
      assert (M : mapM (fun t => from_trace t (fun x => x) (fun y => y)) stream = Err ValueError).
      { clear R W0 C. induction W as [|s0 t l m E W IH]; [destruct Hs|]. cbn [mapM]. cbv beta in E.
        destruct (read_written _ _ _ (fun x => x) (fun y => y) E) as (-> & _). rewrite stored_delay_nonpos.
        destruct (_ && _)%bool eqn:B; [|reflexivity]. cbn [bind]. destruct Hs as [<-|Hs].
        - apply andb_true_iff in B. destruct B as (_ & B). apply Z.leb_le in B. lia.
        - rewrite IH; auto. intros s' I. apply H. now right. }
      rewrite M. reflexivity. }
    assert (D : (exists s, In s (sensors a) /\ (0 < round_half_even (delay (ser s) * QcZ 1000))%Z) \/
                (forall s, In s (sensors a) -> (round_half_even (delay (ser s) * QcZ 1000) <= 0)%Z)).
    { clear. induction (sensors a) as [|s l IH]; [right; intros ? []|].
      destruct (Z.le_gt_cases (round_half_even (delay (ser s) * QcZ 1000)) 0) as [L|L]; [|left; exists s; split; [now left|lia]].
      destruct IH as [(s' & I & P)|IH]; [left; exists s'; split; [now right|exact P]|right; intros s' [<-|I]; auto]. }
    assert (Early : (forall s, In s (sensors a) -> (round_half_even (delay (ser s) * QcZ 1000) <= 0)%Z) ->
      from_files read (fun x => x) (fun y => y) kw [f] = new_array (map back (sensors a)) (back_source (src a))).
    { intros E. unfold from_files. rewrite R. cbn [bind].
      assert (M : mapM (fun t => from_trace t (fun x => x) (fun y => y)) stream = Ok (map back (sensors a))).
      { eapply mapM_map; [exact W|]. intros s t Hs Et. cbv beta in Et. destruct (read_written _ _ _ (fun x => x) (fun y => y) Et) as (-> & _).
        rewrite stored_delay_nonpos. rewrite (proj2 (Z.leb_le _ _) (E s Hs)).
        replace (1 <=? nstacks (ser (back s)))%Z with true; [now rewrite map_id_sensor|].
        symmetry. apply Z.leb_le. cbn [back ser nstacks]. specialize (H s Hs). destruct (Z.eqb_spec (nstacks (ser s) - 1) 0); lia. }
      rewrite M. cbn [bind]. destruct C as (N & _).
      assert (NS : stream <> []) by (intros ->; inversion W as [E0|]; congruence).
      destruct (rev_last stream NS) as (t & r & -> & Ht).
      destruct (Forall2_In_r _ _ _ _ W Ht) as (s & Hs & Et). cbv beta in Et.
      destruct (read_written _ _ _ (fun x => x) (fun y => y) Et) as (_ & _ & -> & P). rewrite P. cbn [bind]. rewrite map_id_source.
      destruct (new_array _ _); reflexivity. }
    assert (Same : map back (sensors a) = map restored (sensors a))
      by (apply map_ext_in; intros s I; apply back_restored, H, I).
    destruct C as (N & I & A). split.
    - intros [L|L]; [now apply Late|]. destruct D as [L'|E]; [now apply Late|]. rewrite (Early E).
      assert (NE : map back (sensors a) <> []) by (destruct (sensors a); cbn; congruence).
      rewrite new_array_err; [destruct (map back (sensors a)); congruence|].
      intros (_ & _ & D2). apply L. clear - D2. induction (sensors a) as [|s l IH]; cbn [map] in *; [constructor|].
      inversion D2 as [|? ? NI D3]; subst. constructor; auto. intros E. apply NI.
      apply in_map_iff in E as (t & E & Ht). apply in_map_iff. exists (back t). split; [|now apply in_map].
      cbn [back sx]. now apply grid_eq.
    - intros E Nd. rewrite (Early E), <- Same.
      assert (NE : map back (sensors a) <> []) by (destruct (sensors a); cbn; congruence).
      assert (I2 := back_increasing _ I Nd). pose proof (increasing_NoDup _ I2) as D2.
      change (restored_source (src a)) with (back_source (src a)).
      rewrite <- (sort_increasing _ I2 D2) at 2. apply new_array_ok. split; auto. split; auto.
      intros u v Hu Hv. apply in_map_iff in Hu as (s & <- & Hs). apply in_map_iff in Hv as (t & <- & Ht).
      apply back_agree. auto.
  Qed.
End Trip.
