(* Proofs about extract_mseed. *)
From Verif Require Import ExtractModel ExtractSpec.
From Coq Require Import DecimalZ Ascii.
Local Open Scope Z_scope.

(** * The calendar *)
Lemma valid_iff c : valid c = true <-> 1 <= yr c <= 9999 /\ 1 <= mo c <= 12 /\ 1 <= dy c <= days_in_month (yr c) (mo c) /\ 0 <= hr c <= 23.
Proof. unfold valid. rewrite !andb_true_iff, !Z.leb_le. tauto. Qed.
Lemma year_step y : days_before_year (y + 1) = days_before_year y + 365 + (if leap y then 1 else 0).
Proof.
  unfold days_before_year, leap. cbv zeta. replace (y + 1 - 1) with y by lia.
  destruct (y mod 4 =? 0) eqn:A, (y mod 100 =? 0) eqn:B, (y mod 400 =? 0) eqn:C; cbn [andb orb negb]; lia.
Qed.
Lemma years_monotone y y' : y <= y' -> days_before_year y <= days_before_year y'.
Proof. unfold days_before_year. cbv zeta. intros. lia. Qed.
Ltac months m := let D := fresh in
  assert (m = 1 \/ m = 2 \/ m = 3 \/ m = 4 \/ m = 5 \/ m = 6 \/ m = 7 \/ m = 8 \/ m = 9 \/ m = 10 \/ m = 11 \/ m = 12) as D by lia;
  repeat destruct D as [D | D]; subst m.
Lemma month_step y m : 1 <= m <= 11 -> days_before_month y (m + 1) = days_before_month y m + days_in_month y m.
Proof. intros H. months m; try lia; unfold days_before_month, days_in_month; cbn; destruct (leap y); reflexivity. Qed.
Lemma december y : days_before_month y 12 + days_in_month y 12 = 365 + (if leap y then 1 else 0).
Proof. unfold days_before_month, days_in_month. cbn. destruct (leap y); reflexivity. Qed.
Lemma january y : days_before_month y 1 = 0.
Proof. unfold days_before_month. cbn. reflexivity. Qed.
Lemma months_range y m : 1 <= m <= 12 -> 0 <= days_before_month y m /\ days_before_month y m + days_in_month y m <= 365 + (if leap y then 1 else 0).
Proof. intros H. months m; unfold days_before_month, days_in_month; destruct (leap y); vm_compute; split; discriminate. Qed.
Lemma months_monotone y m m' : 1 <= m -> m < m' -> m' <= 12 -> days_before_month y m + days_in_month y m <= days_before_month y m'.
Proof.
  intros H1 H2 H3. months m; months m'; try lia; unfold days_before_month, days_in_month; destruct (leap y); vm_compute; discriminate.
Qed.
Lemma next_hour_ok c : valid c = true -> c <> last_hour_of_all ->
  exists d, next_hour c = Ok d /\ valid d = true /\ hour_number d = hour_number c + 1 /\ slot c < slot d.
Proof.
  rewrite valid_iff. intros (Y & M & D & H) N. unfold next_hour.
  destruct (hr c <? 23) eqn:Hh.
  { eexists. split; [reflexivity|]. rewrite valid_iff. unfold hour_number, slot. cbn. repeat split; try lia. }
  destruct (dy c <? days_in_month (yr c) (mo c)) eqn:Hd.
  { eexists. split; [reflexivity|]. rewrite valid_iff. unfold hour_number, slot. cbn [yr mo dy hr]. repeat split; try lia. }
  assert (DM : forall y m, 1 <= days_in_month y m <= 31).
  { intros y m. unfold days_in_month. destruct (m =? 2), (leap y), ((m =? 4) || (m =? 6) || (m =? 9) || (m =? 11)); lia. }
  pose proof (DM (yr c) (mo c)) as Dm.
  destruct (mo c <? 12) eqn:Hm.
  { eexists. split; [reflexivity|]. rewrite valid_iff. unfold hour_number, slot. cbn [yr mo dy hr]. pose proof (DM (yr c) (mo c + 1)).
    rewrite month_step by lia. repeat split; lia. }
  destruct (yr c <? 9999) eqn:Hy.
  { eexists. split; [reflexivity|]. rewrite valid_iff. unfold hour_number, slot. cbn [yr mo dy hr]. pose proof (DM (yr c + 1) 1).
    rewrite year_step, january. assert (mo c = 12) as Em by lia. rewrite Em in *. pose proof (december (yr c)). repeat split; lia. }
  exfalso. apply N. destruct c as [y m d h]; cbn in *. assert (m = 12) by lia. assert (y = 9999) by lia. subst. change (days_in_month 9999 12) with 31 in *.
  unfold last_hour_of_all. f_equal; lia.
Qed.
Lemma last_hour_stuck : next_hour last_hour_of_all = Err OverflowError. Proof. reflexivity. Qed.
Lemma last_hour_last c : valid c = true -> hour_number c <= hour_number last_hour_of_all.
Proof.
  rewrite valid_iff. intros (Y & M & D & H). unfold hour_number. cbn [yr mo dy hr last_hour_of_all].
  pose proof (months_range (yr c) (mo c) M) as [_ R]. pose proof (year_step (yr c)). pose proof (years_monotone (yr c + 1) 10000 ltac:(lia)).
  pose proof (year_step 9999). change (9999 + 1) with 10000 in *. change (leap 9999) with false in *. change (days_before_month 9999 12) with 334 in *. cbv iota in *. destruct (leap (yr c)); lia.
Qed.
Lemma before_hours a b : valid a = true -> valid b = true -> not_after a b = true -> hour_number a <= hour_number b.
Proof.
  rewrite !valid_iff. intros (Ya & Ma & Da & Ha) (Yb & Mb & Db & Hb) L. unfold not_after in L. unfold hour_number.
  pose proof (months_range (yr a) (mo a) Ma) as [Ra1 Ra2]. pose proof (months_range (yr b) (mo b) Mb) as [Rb1 Rb2].
  destruct (yr a <? yr b) eqn:Y.
  - pose proof (year_step (yr a)). pose proof (years_monotone (yr a + 1) (yr b) ltac:(lia)). lia.
  - cbn in L. apply andb_prop in L as [Ey L]. apply Z.eqb_eq in Ey. rewrite Ey in *.
    destruct (mo a <? mo b) eqn:M.
    + pose proof (months_monotone (yr b) (mo a) (mo b) ltac:(lia) ltac:(lia) ltac:(lia)). lia.
    + cbn in L. apply andb_prop in L as [Em L]. apply Z.eqb_eq in Em. rewrite Em in *.
      destruct (dy a <? dy b) eqn:D; [lia|]. cbn in L. lia.
Qed.
Lemma hours_after a b : valid a = true -> valid b = true -> not_after a b = false -> hour_number b < hour_number a.
Proof.
  rewrite !valid_iff. intros (Ya & Ma & Da & Ha) (Yb & Mb & Db & Hb) L. unfold not_after in L. unfold hour_number.
  pose proof (months_range (yr a) (mo a) Ma) as [Ra1 Ra2]. pose proof (months_range (yr b) (mo b) Mb) as [Rb1 Rb2].
  destruct (yr a <? yr b) eqn:Y; [discriminate|]. cbn in L.
  destruct (yr a =? yr b) eqn:Ey.
  - apply Z.eqb_eq in Ey. rewrite Ey in *. cbn in L. destruct (mo a <? mo b) eqn:M; [discriminate|]. cbn in L.
    destruct (mo a =? mo b) eqn:Em.
    + apply Z.eqb_eq in Em. rewrite Em in *. cbn in L. destruct (dy a <? dy b) eqn:D; [discriminate|]. cbn in L.
      destruct (dy a =? dy b) eqn:Ed; cbn in L; lia.
    + pose proof (months_monotone (yr b) (mo b) (mo a) ltac:(lia) ltac:(lia) ltac:(lia)). lia.
  - pose proof (year_step (yr b)). pose proof (years_monotone (yr b + 1) (yr a) ltac:(lia)). lia.
Qed.
Lemma not_after_iff a b : valid a = true -> valid b = true -> (not_after a b = true <-> hour_number a <= hour_number b).
Proof.
  intros Va Vb. split; [now apply before_hours|]. intros H. destruct (not_after a b) eqn:L; auto. apply hours_after in L; auto. lia.
Qed.
Lemma hour_number_inj a b : valid a = true -> valid b = true -> hour_number a = hour_number b -> a = b.
Proof.
  intros Va Vb H. assert (L1 : not_after a b = true) by (apply not_after_iff; auto; lia). assert (L2 : not_after b a = true) by (apply not_after_iff; auto; lia).
  unfold not_after in *. destruct a as [y m d h], b as [y' m' d' h']; cbn in *. f_equal; lia.
Qed.
Lemma slot_before a b : valid a = true -> valid b = true -> not_after a b = true -> slot a <= slot b.
Proof.
  rewrite !valid_iff. intros (Ya & Ma & Da & Ha) (Yb & Mb & Db & Hb) L. unfold not_after in L. unfold slot.
  assert (DM : forall y m, days_in_month y m <= 31).
  { intros y m. unfold days_in_month. destruct (m =? 2), (leap y), ((m =? 4) || (m =? 6) || (m =? 9) || (m =? 11)); lia. }
  pose proof (DM (yr a) (mo a)). pose proof (DM (yr b) (mo b)). lia.
Qed.

(** * The loop *)
Definition upto (a : Z) (n : nat) : list Z := map (fun i => a + Z.of_nat i) (seq 0 n).
Lemma upto_S a n : upto a (S n) = a :: upto (a + 1) n.
Proof. unfold upto. cbn [seq map]. f_equal; [lia|]. rewrite <- seq_shift, map_map. apply map_ext. intros; lia. Qed.
Lemma read_hours_spec {S} (O : obspy S) name last : valid last = true -> last <> last_hour_of_all ->
  forall n cur fuel, valid cur = true -> hour_number cur + Z.of_nat n = hour_number last + 1 ->
  (n <> 0%nat -> slot last - slot cur + 1 <= Z.of_nat fuel) ->
  exists hours, Forall (fun h => valid h = true) hours /\ map hour_number hours = upto (hour_number cur) n /\
    forall reads, read_hours O name fuel cur last reads = reading O (map name hours) reads.
Proof.
  intros Vl Nl. induction n as [|n IH]; intros cur fuel Vc Hn Hf.
  - exists []. split; [constructor|]. split; auto. intros reads. cbn [map reading].
    assert (L : not_after cur last = false) by (destruct (not_after cur last) eqn:L; auto; apply not_after_iff in L; auto; lia).
    destruct fuel; cbn [read_hours]; now rewrite L.
  - assert (L : not_after cur last = true) by (apply not_after_iff; auto; lia). pose proof (slot_before _ _ Vc Vl L) as Sl.
    destruct fuel as [|fuel]; [specialize (Hf ltac:(discriminate)); lia|].
    assert (Nc : cur <> last_hour_of_all).
    { intros ->. apply Nl. pose proof (last_hour_last last Vl). apply hour_number_inj; auto; lia. }
    destruct (next_hour_ok cur Vc Nc) as (d & Ed & Vd & Hd & Sd).
    destruct (IH d fuel) as (hours & V & M & R); [auto|lia|intros; specialize (Hf ltac:(discriminate)); lia|].
    exists (cur :: hours). split; [constructor; auto|]. split; [cbn [map]; rewrite M, upto_S, Hd; reflexivity|].
    intros reads. cbn [read_hours map reading]. rewrite L. destruct (o_read O (name cur)) as [s|e]; [|reflexivity]. rewrite Ed, R. reflexivity.
Qed.
Lemma row_reads {S} (O : obspy S) name s e : valid s = true -> valid e = true -> not_after s e = true -> e <> last_hour_of_all ->
  exists hours, Forall (fun h => valid h = true) hours /\
    map hour_number hours = upto (hour_number s) (Z.to_nat (hour_number e - hour_number s + 1)) /\
    read_hours O name (enough s e) s e None = reading O (map name hours) None.
Proof.
  intros Vs Ve L N. pose proof (before_hours _ _ Vs Ve L). pose proof (slot_before _ _ Vs Ve L).
  destruct (read_hours_spec O name e Ve N (Z.to_nat (hour_number e - hour_number s + 1)) s (enough s e)) as (hours & A & B & C); auto.
  - lia.
  - intros _. unfold enough. lia.
  - exists hours. auto.
Qed.
Lemma in_upto x a n : In x (upto a n) <-> a <= x < a + Z.of_nat n.
Proof.
  unfold upto. rewrite in_map_iff. split.
  - intros (i & <- & I). apply in_seq in I. lia.
  - intros H. exists (Z.to_nat (x - a)). split; [lia|]. apply in_seq. lia.
Qed.
(** The hours between two dates are those that have a second in common with the block. *)
Lemma hours_overlap c a b : valid c = true -> 0 <= m_minute a <= 59 -> 0 <= m_second a <= 59 -> 0 <= m_minute b <= 59 -> 0 <= m_second b <= 59 ->
  second_number a <= second_number b ->
  (hour_number (m_civil a) <= hour_number c <= hour_number (m_civil b) <-> overlaps c a b).
Proof.
  intros V A1 A2 B1 B2 L. unfold overlaps, second_number in *. split.
  - intros H. exists (Z.max (3600 * hour_number (m_civil a) + 60 * m_minute a + m_second a) (3600 * hour_number c)). lia.
  - intros (t & H1 & H2). lia.
Qed.

(** * Names *)
Lemma append_length (a b : string) : String.length (a ++ b) = (String.length a + String.length b)%nat.
Proof. induction a; cbn; auto. Qed.
Lemma append_inj (a a' b b' : string) : String.length b = String.length b' -> (a ++ b = a' ++ b')%string -> a = a' /\ b = b'.
Proof.
  revert a'. induction a as [|x a IH]; intros [|x' a'] L H; cbn in H; auto.
  - exfalso. subst b. cbn in L. rewrite append_length in L. lia.
  - exfalso. subst b'. cbn in L. rewrite append_length in L. lia.
  - inversion H; subst. destruct (IH a' L) as [-> ->]; auto.
Qed.
Lemma append_cancel (a b b' : string) : (a ++ b = a ++ b')%string -> b = b'.
Proof. induction a; cbn; intros H; auto. inversion H; auto. Qed.
Lemma str_inj x y : str_of_Z x = str_of_Z y -> x = y.
Proof.
  unfold str_of_Z. intros H. assert (A : Some (Z.to_int x) = Some (Z.to_int y)).
  { rewrite <- (NilEmpty.isi (Z.to_int x)), <- (NilEmpty.isi (Z.to_int y)). now rewrite H. }
  inversion A as [B]. rewrite <- (DecimalZ.of_to x), <- (DecimalZ.of_to y). now rewrite B.
Qed.
Definition two_digits : list Z := map Z.of_nat (seq 0 100).
Lemma two_in x : 0 <= x <= 99 -> In x two_digits.
Proof. intros H. apply in_map_iff. exists (Z.to_nat x). split; [lia|]. apply in_seq. lia. Qed.
Lemma zfill2_length x : 0 <= x <= 99 -> String.length (zfill2 x) = 2%nat.
Proof.
  intros H. apply two_in in H. assert (A : forallb (fun z => Nat.eqb (String.length (zfill2 z)) 2) two_digits = true) by (vm_compute; reflexivity).
  rewrite forallb_forall in A. apply A in H. now apply Nat.eqb_eq.
Qed.
Definition unfill (s : string) : option Decimal.uint := NilEmpty.uint_of_string s.
Lemma zfill2_inj x y : 0 <= x <= 99 -> 0 <= y <= 99 -> zfill2 x = zfill2 y -> x = y.
Proof.
  intros Hx Hy H. apply two_in in Hx, Hy.
  assert (A : forallb (fun z => match unfill (zfill2 z) with Some u => Z.eqb (Z.of_uint u) z | None => false end) two_digits = true) by (vm_compute; reflexivity).
  rewrite forallb_forall in A. pose proof (A x Hx) as Ax. pose proof (A y Hy) as Ay. rewrite H in Ax.
  destruct (unfill (zfill2 y)); [|discriminate]. apply Z.eqb_eq in Ax, Ay. congruence.
Qed.
Lemma days_le y m : days_in_month y m <= 31.
Proof. unfold days_in_month. destruct (m =? 2), (leap y), ((m =? 4) || (m =? 6) || (m =? 9) || (m =? 11)); lia. Qed.
Lemma hour_file_inj network extension r c d : valid c = true -> valid d = true ->
  hour_file network extension r c = hour_file network extension r d -> c = d.
Proof.
  rewrite !valid_iff. intros (Yc & Mc & Dc & Hc) (Yd & Md & Dd & Hd) H. unfold hour_file in H.
  pose proof (days_le (yr c) (mo c)). pose proof (days_le (yr d) (mo d)).
  do 4 apply append_cancel in H.
  assert (Lm : forall x y, 0 <= x <= 99 -> 0 <= y <= 99 -> String.length (zfill2 x) = String.length (zfill2 y)) by (intros; rewrite !zfill2_length; auto).
  apply append_inj in H as [HY H]; [|rewrite !append_length, !zfill2_length by lia; reflexivity].
  apply append_inj in H as [HM H]; [|rewrite !append_length, !zfill2_length by lia; reflexivity].
  apply append_inj in H as [HD H]; [|rewrite !append_length, !zfill2_length by lia; reflexivity].
  apply append_cancel in H. apply append_inj in H as [HH _]; [|reflexivity].
  apply str_inj in HY. apply zfill2_inj in HM, HD, HH; try lia. destruct c, d; cbn in *; congruence.
Qed.
Lemma files_distinct network extension r hours a n : Forall (fun h => valid h = true) hours -> map hour_number hours = upto a n ->
  NoDup (map (hour_file network extension r) hours).
Proof.
  revert a n. induction hours as [|h hours IH]; intros a n V M; [constructor|]. inversion V; subst. destruct n as [|n]; [discriminate|].
  rewrite upto_S in M. cbn [map] in M. inversion M as [[Mh Mt]]. cbn [map]. constructor; [|eapply IH; eauto].
  intros I. apply in_map_iff in I as (g & G & I). rewrite Forall_forall in H2. apply hour_file_inj in G; auto. subst g.
  apply (in_map hour_number) in I. rewrite Mt in I. apply in_upto in I. lia.
Qed.

(** * Runs *)
Lemma reading_read {S} (O : obspy S) fs so : exists done, incl done fs /\ fst (reading O fs so) = map Read done.
Proof.
  revert so. induction fs as [|f t IH]; intros so; cbn [reading]; [exists []; split; [easy|auto]|].
  destruct (o_read O f) as [s|e]; [|exists [f]; split; [intros x [<-|[]]; now left|auto]].
  destruct (IH (Some match so with Some x => o_plus O x s | None => s end)) as (done & I & E). destruct (reading O t _) as [l r]. cbn [fst] in *.
  exists (f :: done). split; [intros x [<-|J]; [now left|right; auto]|]. cbn. congruence.
Qed.
Lemma reading_ok {S} (O : obspy S) fs so r : snd (reading O fs so) = Ok r -> fst (reading O fs so) = map Read fs.
Proof.
  revert so r. induction fs as [|f t IH]; intros so r; cbn [reading]; auto. destruct (o_read O f) as [s|e]; [|discriminate].
  specialize (IH (Some match so with Some x => o_plus O x s | None => s end)). destruct (reading O t _) as [l r']. cbn [fst snd] in *.
  intros H. cbn. f_equal. eapply IH; eauto.
Qed.

(** * Rows *)
Lemma upto_sorted hours a n : map hour_number hours = upto a n -> StronglySorted (fun a b => hour_number a < hour_number b) hours.
Proof.
  revert a n. induction hours as [|h hours IH]; intros a n M; [constructor|]. destruct n as [|n]; [discriminate|].
  rewrite upto_S in M. cbn [map] in M. inversion M as [[Mh Mt]]. constructor; [eapply IH; eauto|].
  apply Forall_forall. intros g I. apply (in_map hour_number) in I. rewrite Mt in I. apply in_upto in I. lia.
Qed.
Lemma proper_reads {S} (O : obspy S) name r : proper r ->
  not_after (start r) (end_ r) = true /\
  exists hours, needed_hours r hours /\ Forall (fun h => valid h = true) hours /\ hours <> [] /\
    read_hours O name (enough (start r) (end_ r)) (start r) (end_ r) None = reading O (map name hours) None.
Proof.
  intros (Vs & Ve & A1 & A2 & B1 & B2 & L & N). unfold sexagesimal in *.
  assert (H : hour_number (start r) <= hour_number (end_ r)) by (unfold second_number, block_start, block_end in L; cbn [m_civil m_minute m_second] in L; lia).
  assert (NA : not_after (start r) (end_ r) = true) by (now apply not_after_iff). split; auto.
  destruct (row_reads O name _ _ Vs Ve NA N) as (hours & V & M & R). exists hours.
  split; [split|split; [auto|split; auto]].
  - intros c. rewrite Forall_forall in V. split.
    + intros I. split; auto. apply hours_overlap; cbn [block_start block_end m_civil m_minute m_second]; auto. apply (in_map hour_number) in I. rewrite M in I. apply in_upto in I. lia.
    + intros [Vc Oc]. apply hours_overlap in Oc; cbn [block_start block_end m_civil m_minute m_second] in *; auto.
      assert (I : In (hour_number c) (map hour_number hours)) by (rewrite M; apply in_upto; lia).
      apply in_map_iff in I as (d & Ed & I). apply hour_number_inj in Ed; auto. now subst.
  - eapply upto_sorted; eauto.
  - intros ->. cbn in M. replace (Z.to_nat (hour_number (end_ r) - hour_number (start r) + 1)) with (Datatypes.S (Z.to_nat (hour_number (end_ r) - hour_number (start r)))) in M by lia.
    rewrite upto_S in M. discriminate.
Qed.
Lemma files_read_app {S} (l m : list (effect S)) : files_read (l ++ m) = (files_read l ++ files_read m)%list.
Proof. induction l as [|[f|d|f s] l IH]; cbn; auto. now rewrite IH. Qed.
Lemma files_read_map {S} fs : files_read (S := S) (map Read fs) = fs.
Proof. induction fs; cbn; congruence. Qed.
Lemma written_app {S} (l m : list (effect S)) f b : written (l ++ m) f b = written m f (written l f b).
Proof. revert b. induction l as [|[g|d|g s] l IH]; intros b; cbn; auto. Qed.
Lemma written_reads {S} fs f b : written (S := S) (map Read fs) f b = b.
Proof. induction fs; cbn; auto. Qed.
Lemma reading_prefix {S} (O : obspy S) fs so : exists n, fst (reading O fs so) = map Read (firstn n fs).
Proof.
  revert so. induction fs as [|f t IH]; intros so; cbn [reading]; [now exists 0%nat|].
  destruct (o_read O f) as [s|e]; [|now exists 1%nat]. destruct (IH (Some match so with Some x => o_plus O x s | None => s end)) as (n & E).
  destruct (reading O t _). exists (Datatypes.S n). cbn in *. congruence.
Qed.
Lemma reading_value {S} (O : obspy S) fs x r : snd (reading O fs (Some x)) = Ok r ->
  exists ss, Forall2 (fun f s => o_read O f = Ok s) fs ss /\ r = Some (fold_left (o_plus O) ss x).
Proof.
  revert x. induction fs as [|f t IH]; intros x; cbn [reading].
  - intros H. inversion H. exists []. split; [constructor|auto].
  - destruct (o_read O f) as [s|e] eqn:E; [|discriminate]. specialize (IH (o_plus O x s)). destruct (reading O t _) as [l res]. cbn [snd] in *.
    intros H. destruct (IH H) as (ss & F & V). exists (s :: ss). split; [constructor; auto|auto].
Qed.
Lemma reading_joined {S} (O : obspy S) fs r : snd (reading O fs None) = Ok r ->
  exists ss, Forall2 (fun f s => o_read O f = Ok s) fs ss /\ r = joined O ss.
Proof.
  destruct fs as [|f t]; cbn [reading].
  - intros H. inversion H. exists []. split; [constructor|auto].
  - destruct (o_read O f) as [s|e] eqn:E; [|discriminate]. pose proof (reading_value O t s) as V. destruct (reading O t _) as [l res]. cbn [snd] in *.
    intros H. destruct (V _ H) as (ss & F & Q). exists (s :: ss). split; [constructor; auto|auto].
Qed.
(** One row: the files read are a prefix of the needed ones; after success all were read
    and the joined, merged, trimmed and filled stream is written. *)
Lemma row_spec {S} (O : obspy S) network extension dirs r : proper r ->
  exists hours, needed_hours r hours /\ Forall (fun h => valid h = true) hours /\
    let fs := map (hour_file network extension r) hours in
    let out := extract_row O network extension dirs r in
    (exists n, files_read (fst out) = firstn n fs) /\
    (forall d, snd out = Ok d ->
      files_read (fst out) = fs /\
      exists ss x y z, Forall2 (fun f s => o_read O f = Ok s) fs ss /\ joined O ss = Some x /\ o_merge O x = Ok y /\
        o_trim O y (block_start r) (block_end r) = Ok z /\
        forall f b, written (fst out) f b = if String.eqb (output_file network extension r) f then Some (o_fill O z) else b) /\
    (forall e, snd out = Err e -> forall f b, written (fst out) f b = b).
Proof.
  intros P. destruct (proper_reads O (hour_file network extension r) r P) as (NA & hours & Hn & V & NE & R). exists hours. split; auto. split; auto. cbv zeta.
  destruct P as (Vs & Ve & A1 & A2 & B1 & B2 & L & N). unfold sexagesimal in *.
  unfold extract_row, datetime. rewrite Vs, Ve. cbn [bind negb]. rewrite NA. cbn [negb]. rewrite R.
  assert (Ua : utc (start r) (start_minute r) (start_second r) = Ok (block_start r)).
  { unfold utc. rewrite Vs. replace (0 <=? start_minute r) with true by lia. replace (start_minute r <=? 59) with true by lia.
    replace (0 <=? start_second r) with true by lia. replace (start_second r <=? 59) with true by lia. reflexivity. }
  assert (Ub : utc (end_ r) (end_minute r) (end_second r) = Ok (block_end r)).
  { unfold utc. rewrite Ve. replace (0 <=? end_minute r) with true by lia. replace (end_minute r <=? 59) with true by lia.
    replace (0 <=? end_second r) with true by lia. replace (end_second r <=? 59) with true by lia. reflexivity. }
  rewrite Ua, Ub. set (fs := map (hour_file network extension r) hours) in *.
  pose proof (reading_prefix O fs None) as (n & Pn). pose proof (reading_ok O fs None) as Ro. pose proof (reading_joined O fs) as Rj.
  destruct (reading O fs None) as [l res]. cbn [fst snd] in Pn, Ro, Rj.
  assert (Fail : forall e, (exists n, files_read (fst (l, @Err (list string) e)) = firstn n fs) /\
    (forall d, snd (l, @Err (list string) e) = Ok d -> files_read (fst (l, @Err (list string) e)) = fs /\
      exists ss x y z, Forall2 (fun f s => o_read O f = Ok s) fs ss /\ joined O ss = Some x /\ o_merge O x = Ok y /\
        o_trim O y (block_start r) (block_end r) = Ok z /\
        forall f b, written (fst (l, @Err (list string) e)) f b = if String.eqb (output_file network extension r) f then Some (o_fill O z) else b) /\
    (forall e', snd (l, @Err (list string) e) = Err e' -> forall f b, written (fst (l, @Err (list string) e)) f b = b)).
  { intros e. cbn [fst snd]. split; [exists n; rewrite Pn; apply files_read_map|]. split; [discriminate|]. intros e' _ f b. rewrite Pn. apply written_reads. }
  destruct res as [o|e]; cbn [bind]; [|apply Fail]. destruct o as [x|]; cbn [bind]; [|apply Fail].
  destruct (o_merge O x) as [y|e] eqn:Em; cbn [bind]; [|apply Fail]. destruct (o_trim O y _ _) as [z|e] eqn:Et; [|apply Fail].
  specialize (Ro _ eq_refl). specialize (Rj _ eq_refl) as (ss & F & Q).
  assert (Tail : forall k (f : string) b, written (l ++ (if k : bool then [] else [MadeDir (folder r)])) f b = b).
  { intros k f b. rewrite written_app, Ro, written_reads. now destruct k. }
  assert (Tail' : forall k : bool, files_read (l ++ (if k then [] else [MadeDir (folder r)])) = fs).
  { intros k. rewrite files_read_app, Ro, files_read_map. destruct k; cbn; apply List.app_nil_r. }
  set (known := existsb _ dirs). destruct (if known then Ok tt else o_mkdir O (folder r)) as [u|e]; [|apply Fail].
  destruct (o_write O _ _) as [u'|e]; cbn [fst snd].
  - rewrite files_read_app, Tail'. cbn [files_read]. rewrite List.app_nil_r. split; [exists (List.length fs); now rewrite firstn_all|]. split; [|discriminate].
    intros d _. split; auto. exists ss, x, y, z. split; auto. split; auto. split; auto. split; auto.
    intros f b. rewrite written_app, Tail. reflexivity.
  - rewrite Tail'. split; [exists (List.length fs); now rewrite firstn_all|]. split; [discriminate|]. intros. apply Tail.
Qed.
Lemma firstn_firstn_app {A} (l m : list A) n : firstn n l = firstn (Nat.min n (List.length l)) (l ++ m).
Proof.
  rewrite firstn_app. replace (Nat.min n (List.length l) - List.length l)%nat with 0%nat by lia. cbn [firstn]. rewrite List.app_nil_r.
  destruct (Nat.le_gt_cases n (List.length l)); [now rewrite Nat.min_l|]. rewrite Nat.min_r by lia. rewrite firstn_all, firstn_all2 by lia. reflexivity.
Qed.
Lemma rows_read {S} (O : obspy S) network extension rows : Forall proper rows -> forall dirs,
  exists plan, Forall2 needed_hours rows plan /\ Forall (Forall (fun h => valid h = true)) plan /\
    let fs := List.concat (map (fun rh => map (hour_file network extension (fst rh)) (snd rh)) (combine rows plan)) in
    (exists n, files_read (fst (extract_rows O network extension dirs rows)) = firstn n fs) /\
    (snd (extract_rows O network extension dirs rows) = Ok tt -> files_read (fst (extract_rows O network extension dirs rows)) = fs).
Proof.
  induction 1 as [|r rows P Ps IH]; intros dirs.
  - exists []. cbn. repeat split; try constructor; auto. now exists 0%nat.
  - cbn [extract_rows]. destruct (row_spec O network extension dirs r P) as (hours & Hn & V & (n & Pn) & Good & _).
    cbv zeta in *. destruct (extract_row O network extension dirs r) as [l [d|e]]; cbn [fst snd] in *.
    + destruct (Good _ eq_refl) as [Rl _]. destruct (IH d) as (plan & F & Vp & (m & Pm) & Gd). exists (hours :: plan). split; [constructor; auto|]. split; [constructor; auto|].
      cbn [combine map List.concat fst snd]. destruct (extract_rows O network extension d rows) as [l' res]. cbn [fst snd] in *. rewrite files_read_app, Rl.
      split.
      * exists (List.length (map (hour_file network extension r) hours) + m)%nat. rewrite firstn_app_2, Pm. reflexivity.
      * intros Q. now rewrite Gd.
    + destruct (IH dirs) as (plan & F & Vp & _). exists (hours :: plan). split; [constructor; auto|]. split; [constructor; auto|].
      cbn [combine map List.concat fst snd]. split; [|discriminate]. rewrite Pn. eexists. apply firstn_firstn_app.
Qed.
(** Refusals. *)
Lemma row_refused {S} (O : obspy S) network extension dirs r : impossible r -> extract_row O network extension dirs r = ([], Err ValueError).
Proof.
  intros H. unfold extract_row, datetime. destruct (valid (start r)) eqn:Vs; [|reflexivity]. cbn [bind]. destruct (valid (end_ r)) eqn:Ve; [|reflexivity]. cbn [bind].
  destruct H as [H|[H|H]]; try congruence. destruct (not_after (start r) (end_ r)) eqn:L; [|reflexivity]. apply before_hours in L; auto. lia.
Qed.
Lemma rows_refused {S} (O : obspy S) network extension r rest : impossible r -> forall before dirs l,
  extract_rows O network extension dirs before = (l, Ok tt) -> extract_rows O network extension dirs (before ++ r :: rest) = (l, Err ValueError).
Proof.
  intros I. induction before as [|b before IH]; intros dirs l; cbn [app extract_rows].
  - intros H. inversion H. rewrite row_refused; auto.
  - destruct (extract_row O network extension dirs b) as [l1 [d|e]]; [|discriminate].
    destruct (extract_rows O network extension d before) as [l2 res] eqn:E. intros H. inversion H; subst. rewrite (IH _ _ E). reflexivity.
Qed.
(** A block within one hour that ends before it starts is only noticed when trimming. *)
Lemma same_hour {S} (O : obspy S) network extension dirs r rest : valid (start r) = true -> start r <> last_hour_of_all -> end_ r = start r ->
  sexagesimal (start_minute r) -> sexagesimal (start_second r) -> sexagesimal (end_minute r) -> sexagesimal (end_second r) ->
  (forall s a b, second_number b < second_number a -> o_trim O s a b = Err ValueError) ->
  second_number (block_end r) < second_number (block_start r) ->
  forall s m, o_read O (hour_file network extension r (start r)) = Ok s -> o_merge O s = Ok m ->
  extract_rows O network extension dirs (r :: rest) = ([Read (hour_file network extension r (start r))], Err ValueError).
Proof.
  intros V N E A1 A2 B1 B2 T L s m Rs Ms. unfold sexagesimal in *. cbn [extract_rows].
  assert (NA : not_after (start r) (start r) = true) by (apply not_after_iff; auto; lia).
  destruct (row_reads O (hour_file network extension r) _ _ V V NA N) as (hours & Vh & Mh & R).
  replace (hour_number (start r) - hour_number (start r) + 1) with 1 in Mh by lia. change (Z.to_nat 1) with 1%nat in Mh. rewrite upto_S in Mh.
  destruct hours as [|h [|h' t]]; try discriminate Mh. cbn in Mh. inversion Mh as [Q]. inversion Vh; subst. apply hour_number_inj in Q; auto. subst h.
  cbn [map reading] in R. rewrite Rs in R.
  unfold extract_row, datetime. rewrite E, V. cbn [bind]. rewrite NA. cbn [negb]. rewrite R. cbn [bind]. rewrite Ms. cbn [bind].
  unfold utc. rewrite V. cbn [andb].
  replace (0 <=? start_minute r) with true by lia. replace (start_minute r <=? 59) with true by lia.
  replace (0 <=? start_second r) with true by lia. replace (start_second r <=? 59) with true by lia.
  replace (0 <=? end_minute r) with true by lia. replace (end_minute r <=? 59) with true by lia.
  replace (0 <=? end_second r) with true by lia. replace (end_second r <=? 59) with true by lia. cbn [andb bind].
  rewrite T; [reflexivity|]. unfold block_start, block_end in L. now rewrite E in L.
Qed.

(** * Output files *)
Lemma Forall2_map_l {A B C} (R : B -> C -> Prop) (f : A -> B) l m : Forall2 R (map f l) m <-> Forall2 (fun a c => R (f a) c) l m.
Proof.
  split.
  - revert m. induction l; intros m H; inversion H; subst; constructor; auto.
  - induction 1; constructor; auto.
Qed.
Lemma rows_written {S} (O : obspy S) network extension rows : Forall proper rows -> NoDup (map (output_file network extension) rows) ->
  forall dirs f b, snd (extract_rows O network extension dirs rows) = Ok tt ->
  (forall r, In r rows -> output_file network extension r = f ->
    exists s, written (fst (extract_rows O network extension dirs rows)) f b = Some s /\ holds O network extension r s) /\
  (~ In f (map (output_file network extension) rows) -> written (fst (extract_rows O network extension dirs rows)) f b = b).
Proof.
  induction 1 as [|r rows P Ps IH]; intros ND dirs f b; cbn [extract_rows].
  - intros _. split; [easy|auto].
  - inversion ND as [|? ? NI ND']; subst. destruct (row_spec O network extension dirs r P) as (hours & Hn & V & _ & Good & _).
    cbv zeta in *. destruct (extract_row O network extension dirs r) as [l [d|e]]; cbn [fst snd] in *; [|discriminate].
    destruct (Good _ eq_refl) as (_ & ss & x & y & z & F & J & M & T & W).
    specialize (IH ND' d f). destruct (extract_rows O network extension d rows) as [l' res]. cbn [fst snd] in *. intros Q. split.
    + intros q [<-|I] E.
      * exists (o_fill O z). rewrite written_app, W, E, String.eqb_refl. destruct (IH (Some (o_fill O z)) Q) as [_ K]. rewrite K by (rewrite <- E; exact NI).
        split; auto. exists hours, ss, x, y, z. split; auto. split; [exact (proj1 (Forall2_map_l (fun f s => o_read O f = Ok s) (hour_file network extension r) hours ss) F)|]. auto.
      * destruct (IH (written l f b) Q) as [K _]. destruct (K q I E) as (s & Hs & Hh). exists s. rewrite written_app. auto.
    + intros N. cbn in N. rewrite written_app. destruct (IH (written l f b) Q) as [_ K]. rewrite K by tauto. rewrite W.
      destruct (String.eqb_spec (output_file network extension r) f); tauto.
Qed.
(** The later of two rows with the same name wins. *)
Lemma rows_overwritten {S} (O : obspy S) network extension before r : Forall proper (before ++ [r]) -> forall dirs b,
  snd (extract_rows O network extension dirs (before ++ [r])) = Ok tt ->
  exists s, written (fst (extract_rows O network extension dirs (before ++ [r]))) (output_file network extension r) b = Some s /\ holds O network extension r s.
Proof.
  induction before as [|p before IH]; intros P dirs b; cbn [app] in *.
  - intros H. destruct (rows_written O network extension [r] P ltac:(repeat constructor; easy) dirs (output_file network extension r) b H) as [K _]. apply K; [now left|auto].
  - cbn [extract_rows]. inversion P; subst. destruct (extract_row O network extension dirs p) as [l [d|e]]; [|discriminate].
    specialize (IH ltac:(assumption) d (written l (output_file network extension r) b)).
    destruct (extract_rows O network extension d (before ++ [r])) as [l' res]. cbn [fst snd] in *. intros Q. destruct (IH Q) as (s & W & Hh). exists s. rewrite written_app. auto.
Qed.
(** Names of output files. *)
Lemma has_app c a b : has c (a ++ b) = has c a || has c b.
Proof. induction a; cbn; auto. rewrite IHa. now rewrite orb_assoc. Qed.
Lemma split_at c (a a' b b' : string) : has c a = false -> has c a' = false -> (a ++ String c b = a' ++ String c b')%string -> a = a' /\ b = b'.
Proof.
  revert a'. induction a as [|x a IH]; intros [|x' a'] H H' E; cbn in *.
  - inversion E; auto.
  - inversion E; subst. rewrite Ascii.eqb_refl in H'. discriminate.
  - inversion E; subst. rewrite Ascii.eqb_refl in H. discriminate.
  - inversion E; subst. apply orb_false_iff in H as [_ H], H' as [_ H']. destruct (IH a' H H' H2). subst. auto.
Qed.
Lemma uint_no_dot u : has "."%char (NilEmpty.string_of_uint u) = false.
Proof. induction u; cbn; auto. Qed.
Lemma zfill_no_dot z : has "."%char (zfill2 z) = false.
Proof.
  assert (A : has "."%char (str_of_Z z) = false) by (unfold str_of_Z, NilEmpty.string_of_int; destruct (Z.to_int z); cbn; apply uint_no_dot).
  unfold zfill2. cbv zeta. destruct (Nat.ltb _ 2); auto.
Qed.

Lemma zfill2_value z : 0 <= z -> exists u, NilEmpty.uint_of_string (zfill2 z) = Some u /\ Z.of_uint u = z.
Proof.
  intros H. unfold zfill2, str_of_Z. pose proof (DecimalZ.of_to z) as E. destruct (Z.to_int z) as [u|u] eqn:T.
  - cbn [NilEmpty.string_of_int Z.of_int] in *. cbv zeta. destruct (Nat.ltb _ 2).
    + exists (Decimal.D0 u). cbn [append NilEmpty.uint_of_string]. pose proof (NilEmpty.usu u) as U. split; auto.
      change (NilEmpty.uint_of_string (String "0" (NilEmpty.string_of_uint u))) with (option_map Decimal.D0 (NilEmpty.uint_of_string (NilEmpty.string_of_uint u))).
      now rewrite U.
    + exists u. split; auto. apply NilEmpty.usu.
  - exfalso. destruct z; cbn in T; try discriminate. lia.
Qed.
Lemma zfill2_injective x y : 0 <= x -> 0 <= y -> zfill2 x = zfill2 y -> x = y.
Proof.
  intros Hx Hy E. destruct (zfill2_value x Hx) as (u & U & <-). destruct (zfill2_value y Hy) as (v & V & <-). rewrite E in U. congruence.
Qed.
Lemma append_assoc (a b c : string) : ((a ++ b) ++ c = a ++ (b ++ c))%string.
Proof. induction a; cbn; congruence. Qed.
Lemma output_file_inj network extension r q : 0 <= station r -> 0 <= station q -> has "/"%char (folder r) = false -> has "/"%char (folder q) = false ->
  output_file network extension r = output_file network extension q ->
  folder r = folder q /\ station r = station q /\ array_name r = array_name q.
Proof.
  intros Sr Sq Fr Fq E. unfold output_file in E. apply (split_at "/"%char) in E as [Ef E]; auto.
  do 2 apply append_cancel in E. apply (split_at "."%char) in E as [Es E]; try apply zfill_no_dot.
  apply append_inj in E as [Ea _]; [|reflexivity]. apply zfill2_injective in Es; auto.
Qed.
