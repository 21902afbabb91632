From Verif Require Import ExtractModel ExtractSpec ExtractOutcomeSpec ExtractProofs.
Local Open Scope Z_scope.

(** * What a run leaves on disk, however it ends *)
Lemma rows_outcome {S} (O : obspy S) network extension rows : Forall proper rows -> forall dirs,
  exists made rest, rows = (made ++ rest)%list
    /\ (snd (extract_rows O network extension dirs rows) = Ok tt <-> rest = [])
    /\ forall f b,
      (~ In f (map (output_file network extension) made) -> written (fst (extract_rows O network extension dirs rows)) f b = b)
      /\ (forall pre r post, made = (pre ++ r :: post)%list -> output_file network extension r = f ->
           ~ In f (map (output_file network extension) post) ->
           exists s, written (fst (extract_rows O network extension dirs rows)) f b = Some s /\ holds O network extension r s).
Proof.
  induction 1 as [|r rows P Ps IH]; intros dirs; cbn [extract_rows].
  - exists [], []. split; [reflexivity|]. split; [tauto|]. intros f b. split; [reflexivity|]. intros [|? ?] ? ? Q; discriminate Q.
  - destruct (row_spec O network extension dirs r P) as (hours & Hn & V & _ & Good & Bad). cbv zeta in *.
    destruct (extract_row O network extension dirs r) as [l [d|e]]; cbn [fst snd] in *.
    + destruct (Good _ eq_refl) as (_ & ss & x & y & z & F & J & M & T & W).
      destruct (IH d) as (made & rest & E & I & K). destruct (extract_rows O network extension d rows) as [l' res]. cbn [fst snd] in *.
      exists (r :: made), rest. split; [rewrite E; reflexivity|]. split; [exact I|]. intros f b. rewrite written_app. split.
      * cbn [map In]. intros N. rewrite (proj1 (K f _)) by tauto. rewrite W.
        destruct (String.eqb_spec (output_file network extension r) f); tauto.
      * intros [|p pre] q post Q Eq N; injection Q as <- Q; [subst post|].
        -- exists (o_fill O z). rewrite (proj1 (K f _) N), W, Eq, String.eqb_refl. split; [reflexivity|].
           exists hours, ss, x, y, z. split; [exact Hn|].
           split; [exact (proj1 (Forall2_map_l (fun f s => o_read O f = Ok s) (hour_file network extension r) hours ss) F)|]. auto.
        -- exact (proj2 (K f _) pre q post Q Eq N).
    + exists [], (r :: rows). split; [reflexivity|]. split; [split; discriminate|]. intros f b.
      split; [intros _; apply (Bad e eq_refl)|]. intros [|? ?] ? ? Q; discriminate Q.
Qed.

(** * A file that cannot be read *)
Lemma sorted_same : forall l m : list civil,
  StronglySorted (fun a b => hour_number a < hour_number b) l -> StronglySorted (fun a b => hour_number a < hour_number b) m ->
  (forall c, In c l <-> In c m) -> l = m.
Proof.
  induction l as [|a l IH]; intros [|b m] Sl Sm Q.
  - reflexivity.
  - destruct (proj2 (Q b) (or_introl eq_refl)).
  - destruct (proj1 (Q a) (or_introl eq_refl)).
  - inversion Sl as [|? ? Sl' Fl]; inversion Sm as [|? ? Sm' Fm]; subst. rewrite Forall_forall in Fl, Fm.
    assert (a = b).
    { destruct (proj1 (Q a) (or_introl eq_refl)) as [->|I]; [reflexivity|]. destruct (proj2 (Q b) (or_introl eq_refl)) as [->|J]; [reflexivity|].
      specialize (Fl _ J). specialize (Fm _ I). lia. }
    subst b. f_equal. apply IH; auto. intros c. split; intros I.
    + destruct (proj1 (Q c) (or_intror I)) as [<-|J]; [specialize (Fl _ I); lia|exact J].
    + destruct (proj2 (Q c) (or_intror I)) as [<-|J]; [specialize (Fm _ I); lia|exact J].
Qed.
Lemma needed_unique r a b : needed_hours r a -> needed_hours r b -> a = b.
Proof. intros [Ia Sa] [Ib Sb]. apply sorted_same; auto. intros c. rewrite Ia, Ib. reflexivity. Qed.
Lemma reading_stops {S} (O : obspy S) f e post : o_read O f = Err e -> forall pre ss so, Forall2 (fun f s => o_read O f = Ok s) pre ss ->
  reading O (pre ++ f :: post) so = (map Read (pre ++ [f])%list, Err e).
Proof.
  intros H pre. induction pre as [|p pre IH]; intros ss so Q; inversion Q; subst; cbn [app reading].
  - rewrite H. reflexivity.
  - match goal with X : o_read O p = Ok _ |- _ => rewrite X end. erewrite IH by eassumption. reflexivity.
Qed.
Lemma row_unreadable {S} (O : obspy S) network extension dirs r rest pre h post ss e : proper r -> needed_hours r (pre ++ h :: post) ->
  Forall2 (fun h s => o_read O (hour_file network extension r h) = Ok s) pre ss -> o_read O (hour_file network extension r h) = Err e ->
  extract_rows O network extension dirs (r :: rest) = (map Read (map (hour_file network extension r) (pre ++ [h])), Err e).
Proof.
  intros P N F H. destruct (proper_reads O (hour_file network extension r) r P) as (NA & hours & Hn & V & NE & R).
  pose proof (needed_unique _ _ _ N Hn) as Q. subst hours.
  destruct P as (Vs & Ve & _). cbn [extract_rows]. unfold extract_row, datetime. rewrite Vs, Ve. cbn [bind negb]. rewrite NA. cbn [negb]. rewrite R.
  rewrite !map_app. cbn [map]. rewrite (reading_stops O _ e _ H _ ss); [cbn [bind]; rewrite map_app; reflexivity|].
  apply Forall2_map_l. exact F.
Qed.

(** * Minutes or seconds that do not exist *)
Lemma reading_all {S} (O : obspy S) : forall fs ss so, Forall2 (fun f s => o_read O f = Ok s) fs ss ->
  reading O fs so = (map Read fs, Ok (match so with Some x => Some (fold_left (o_plus O) ss x) | None => joined O ss end)).
Proof.
  induction fs as [|f fs IH]; intros ss so Q; inversion Q as [|? s ? ss' Hs Q']; subst; cbn [reading map].
  - destruct so; reflexivity.
  - rewrite Hs, (IH ss' _ Q'). destruct so; reflexivity.
Qed.
Lemma utc_fails c mi se e : utc c mi se = Err e -> e = ValueError.
Proof. unfold utc. destruct (_ && _); [discriminate|]. now intros [= <-]. Qed.
Lemma row_minutes {S} (O : obspy S) network extension dirs r rest hours ss x y :
  valid (start r) = true -> valid (end_ r) = true -> hour_number (start r) <= hour_number (end_ r) -> end_ r <> last_hour_of_all ->
  ~ (sexagesimal (start_minute r) /\ sexagesimal (start_second r) /\ sexagesimal (end_minute r) /\ sexagesimal (end_second r)) ->
  hours_between (start r) (end_ r) hours ->
  Forall2 (fun h s => o_read O (hour_file network extension r h) = Ok s) hours ss -> joined O ss = Some x -> o_merge O x = Ok y ->
  extract_rows O network extension dirs (r :: rest) = (map Read (map (hour_file network extension r) hours), Err ValueError).
Proof.
  intros Vs Ve L N Odd [Ih Sh] F J M.
  assert (NA : not_after (start r) (end_ r) = true) by (apply not_after_iff; auto).
  destruct (row_reads O (hour_file network extension r) _ _ Vs Ve NA N) as (hours' & Vh & Mh & R).
  assert (hours' = hours).
  { apply sorted_same; [eapply upto_sorted; exact Mh|exact Sh|]. intros c. rewrite Ih. rewrite Forall_forall in Vh. split.
    - intros I. split; [auto|]. apply (in_map hour_number) in I. rewrite Mh, in_upto in I. lia.
    - intros [Vc B]. assert (I : In (hour_number c) (map hour_number hours')) by (rewrite Mh, in_upto; lia).
      apply in_map_iff in I as (d & E & I). apply hour_number_inj in E; [subst d; exact I|apply Vh; exact I|exact Vc]. }
  subst hours'. cbn [extract_rows]. unfold extract_row, datetime. rewrite Vs, Ve. cbn [bind negb]. rewrite NA. cbn [negb]. rewrite R.
  rewrite (reading_all O _ ss) by (apply Forall2_map_l; exact F). rewrite J. cbn [bind]. rewrite M. cbn [bind].
  destruct (utc (start r) _ _) as [a|e] eqn:Ua; cbn [bind]; [|now rewrite (utc_fails _ _ _ _ Ua)].
  destruct (utc (end_ r) _ _) as [b|e] eqn:Ub; cbn [bind]; [|now rewrite (utc_fails _ _ _ _ Ub)].
  exfalso. apply Odd. unfold utc, sexagesimal in *. destruct (_ && _) eqn:Qa in Ua; [|discriminate]. destruct (_ && _) eqn:Qb in Ub; [|discriminate]. lia.
Qed.
