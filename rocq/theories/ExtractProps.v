(* Properties of extract_mseed. *)
From Verif Require Import ExtractModel ExtractSpec ExtractProofs.
Local Open Scope string_scope.
Local Open Scope Z_scope.

(** C66: for tables of proper blocks the hourly files are read in the order of the
    table and, for each block, exactly those that overlap it, in chronological order; a
    run that fails reads the first of them, a run that succeeds all of them. *)
Theorem C66_reads_partial : forall S (O : obspy S) network extension rows dirs,
  Forall proper rows ->
  exists plan, Forall2 needed_hours rows plan /\
    let fs := List.concat (map (fun rh => map (hour_file network extension (fst rh)) (snd rh)) (combine rows plan)) in
    let run := extract_mseed O (Ok rows) network extension dirs in
    (exists n, files_read (fst run) = firstn n fs) /\
    (snd run = Ok tt -> files_read (fst run) = fs).
(* Missing: blocks that end within the last hour of the year 9999; see C66_last_hour_refuted. *)
Proof.
  intros S O network extension rows dirs P. destruct (rows_read O network extension rows P dirs) as (plan & F & _ & K). exists plan. split; [exact F|]. exact K.
Qed.
Print Assumptions C66_reads_partial.

(** Different hours have different files: no file is read twice for one block. *)
Theorem C66_once : forall network extension r hours,
  needed_hours r hours -> NoDup (map (hour_file network extension r) hours).
Proof.
  intros network extension r hours [I S]. induction S as [|h hours S' IH F] in I |- *; [constructor|].
  assert (V : forall c, In c (h :: hours) -> valid c = true) by (intros c Ic; now apply I in Ic as [V _]).
  assert (G : forall l, (forall c, In c l -> valid c = true) -> StronglySorted (fun a b => hour_number a < hour_number b) l -> NoDup (map (hour_file network extension r) l)).
  { clear. induction l as [|x l IH]; intros V S; [constructor|]. inversion S as [|? ? S' F]; subst. cbn [map]. constructor; [|apply IH; auto; intros; apply V; now right].
    rewrite in_map_iff. intros (y & E & Iy). apply hour_file_inj in E; [|apply V; now right|apply V; now left]. subst y. rewrite Forall_forall in F. specialize (F _ Iy). lia. }
  apply G; [exact V|]. now constructor.
Qed.
Print Assumptions C66_once.

(** A block with a date that does not exist, or whose last hour comes before its first
    hour, raises ValueError before any of its files is read, after the blocks before it
    were extracted. *)
Theorem C66_refuses : forall S (O : obspy S) network extension r rest before dirs l,
  impossible r -> extract_mseed O (Ok before) network extension dirs = (l, Ok tt) ->
  extract_mseed O (Ok (before ++ r :: rest)%list) network extension dirs = (l, Err ValueError).
Proof. intros S O network extension r rest before dirs l I H. exact (rows_refused O network extension r rest I before dirs l H). Qed.
Print Assumptions C66_refuses.

(** A block that ends before it starts within one hour is refused by the trimming (for
    which obspy raises ValueError): its file has been read by then, and nothing is written. *)
Theorem C66_same_hour : forall S (O : obspy S) network extension dirs r rest s m,
  valid (start r) = true -> start r <> last_hour_of_all -> end_ r = start r ->
  sexagesimal (start_minute r) -> sexagesimal (start_second r) -> sexagesimal (end_minute r) -> sexagesimal (end_second r) ->
  (forall s a b, second_number b < second_number a -> o_trim O s a b = Err ValueError) ->
  second_number (block_end r) < second_number (block_start r) ->
  o_read O (hour_file network extension r (start r)) = Ok s -> o_merge O s = Ok m ->
  extract_mseed O (Ok (r :: rest)) network extension dirs = ([Read (hour_file network extension r (start r))], Err ValueError).
Proof. intros. unfold extract_mseed. eapply same_hour; eauto. Qed.
Print Assumptions C66_same_hour.

(** A table that cannot be read raises NotImplementedError and touches nothing. *)
Theorem C66_table : forall S (O : obspy S) network extension dirs e,
  extract_mseed O (Err e) network extension dirs = ([], Err NotImplementedError).
Proof. reflexivity. Qed.

(** Concrete recordings: each file holds its name; joining concatenates. *)
Definition disk : obspy (list string) := {|
  o_read := fun f => if String.eqb f "UT.STN07_20160229_050000.mseed" then Err FileNotFoundError else Ok [f];
  o_plus := fun a b => (a ++ b)%list; o_merge := fun s => Ok s;
  o_trim := fun s a b => if second_number b <? second_number a then Err ValueError else Ok s;
  o_fill := fun s => s; o_write := fun _ _ => Ok tt; o_mkdir := fun _ => Ok tt |}.
Definition leap_block (st : Z) : row := mkRow "out" "C50" st (mkCivil 2016 2 28 22) 10 0 (mkCivil 2016 2 29 1) 20 0.
Example leap_block_proper : proper (leap_block 4).
Proof.
  unfold proper, sexagesimal. cbn [leap_block start end_ start_minute start_second end_minute end_second].
  split; [reflexivity|]. split; [reflexivity|]. do 4 (split; [lia|]). split; [|discriminate]. vm_compute. discriminate.
Qed.
Example C66_reads_example : extract_mseed disk (Ok [leap_block 4]) "UT" "mseed" [] =
  ([Read "UT.STN04_20160228_220000.mseed"; Read "UT.STN04_20160228_230000.mseed"; Read "UT.STN04_20160229_000000.mseed"; Read "UT.STN04_20160229_010000.mseed";
    MadeDir "out"; Wrote "out/UT.STN04.C50.mseed"
      ["UT.STN04_20160228_220000.mseed"; "UT.STN04_20160228_230000.mseed"; "UT.STN04_20160229_000000.mseed"; "UT.STN04_20160229_010000.mseed"]], Ok tt).
Proof. vm_compute. reflexivity. Qed.
Example C66_refuses_example : impossible (mkRow "out" "C50" 4 (mkCivil 2017 2 29 22) 10 0 (mkCivil 2017 3 29 1) 20 0) /\
  impossible (mkRow "out" "C50" 4 (mkCivil 2017 2 28 22) 10 0 (mkCivil 2017 2 28 21) 20 0).
Proof. split; [left; reflexivity|right; right; vm_compute; reflexivity]. Qed.
Example C66_same_hour_example : extract_mseed disk (Ok [mkRow "out" "C50" 4 (mkCivil 2017 2 28 22) 10 0 (mkCivil 2017 2 28 22) 9 0]) "UT" "mseed" [] =
  ([Read "UT.STN04_20170228_220000.mseed"], Err ValueError).
Proof. vm_compute. reflexivity. Qed.

(** The last hour of the year 9999 cannot be part of a block: the file is read, then
    stepping to the next hour raises OverflowError. *)
Theorem C66_last_hour_refuted : exists r,
  valid (start r) = true /\ valid (end_ r) = true /\ second_number (block_start r) < second_number (block_end r) /\
  extract_mseed disk (Ok [r]) "UT" "mseed" [] = ([Read "UT.STN04_99991231_230000.mseed"], Err OverflowError).
Proof.
  exists (mkRow "out" "C50" 4 (mkCivil 9999 12 31 23) 10 0 (mkCivil 9999 12 31 23) 20 0). vm_compute. auto.
Qed.
Print Assumptions C66_last_hour_refuted.

(** C79: after a successful run over blocks with different output files, each file
    holds what its block asks for: the overlapping hours joined in order, merged, trimmed
    to the block and with gaps filled; other files are not touched. *)
Theorem C79_blocks_partial : forall S (O : obspy S) network extension rows dirs before,
  Forall proper rows -> NoDup (map (output_file network extension) rows) ->
  let run := extract_mseed O (Ok rows) network extension dirs in
  snd run = Ok tt ->
  (forall r, In r rows -> exists s, written (fst run) (output_file network extension r) before = Some s /\ holds O network extension r s) /\
  (forall f, ~ In f (map (output_file network extension) rows) -> written (fst run) f before = before).
(* Missing: tables in which two blocks share folder, array and station; see C79_refuted. *)
Proof.
  intros S O network extension rows dirs before P N run H. split.
  - intros r I. destruct (rows_written O network extension rows P N dirs (output_file network extension r) before H) as [K _]. exact (K r I eq_refl).
  - intros f I. destruct (rows_written O network extension rows P N dirs f before H) as [_ K]. exact (K I).
Qed.
Print Assumptions C79_blocks_partial.

(** Output files differ when folder, station or array differ (folders without "/"). *)
Theorem C79_names : forall network extension r q,
  0 <= station r -> 0 <= station q -> has "/"%char (folder r) = false -> has "/"%char (folder q) = false ->
  output_file network extension r = output_file network extension q ->
  folder r = folder q /\ station r = station q /\ array_name r = array_name q.
Proof. exact output_file_inj. Qed.
Print Assumptions C79_names.

(** With equal names, the last block of the table is what remains. *)
Theorem C79_last_wins : forall S (O : obspy S) network extension before r dirs b,
  Forall proper (before ++ [r])%list ->
  let run := extract_mseed O (Ok (before ++ [r])%list) network extension dirs in
  snd run = Ok tt -> exists s, written (fst run) (output_file network extension r) b = Some s /\ holds O network extension r s.
Proof. intros S O network extension before r dirs b P run H. exact (rows_overwritten O network extension before r P dirs b H). Qed.
Print Assumptions C79_last_wins.

(** Two blocks of one station and array: the first is lost, without an error. *)
Theorem C79_refuted : exists r q,
  proper r /\ proper q /\ second_number (block_end r) < second_number (block_start q) /\
  let run := extract_mseed disk (Ok [r; q]) "UT" "mseed" [] in
  snd run = Ok tt /\ forall f s, written (fst run) f None = Some s -> ~ In "UT.STN04_20160228_220000.mseed" s.
Proof.
  exists (leap_block 4), (mkRow "out" "C50" 4 (mkCivil 2016 3 28 22) 10 0 (mkCivil 2016 3 28 22) 20 0).
  split; [exact leap_block_proper|]. split.
  { unfold proper, sexagesimal. cbn [start end_ start_minute start_second end_minute end_second].
    split; [reflexivity|]. split; [reflexivity|]. do 4 (split; [lia|]). split; [|discriminate]. vm_compute. discriminate. }
  split; [vm_compute; reflexivity|]. cbv zeta.
  assert (E : exists l, extract_mseed disk (Ok [leap_block 4; mkRow "out" "C50" 4 (mkCivil 2016 3 28 22) 10 0 (mkCivil 2016 3 28 22) 20 0]) "UT" "mseed" [] =
    ((l ++ [Wrote "out/UT.STN04.C50.mseed" ["UT.STN04_20160328_220000.mseed"]])%list, Ok tt) /\
    forall f, written l f None = if String.eqb "out/UT.STN04.C50.mseed" f then written l f None else None).
  { exists (firstn 7 (fst (extract_mseed disk (Ok [leap_block 4; mkRow "out" "C50" 4 (mkCivil 2016 3 28 22) 10 0 (mkCivil 2016 3 28 22) 20 0]) "UT" "mseed" []))).
    split; [vm_compute; reflexivity|]. intros f. destruct (String.eqb "out/UT.STN04.C50.mseed" f) eqn:N; [reflexivity|].
    set (l := firstn 7 _). vm_compute in l. subst l. cbn [written]. now rewrite N. }
  destruct E as (l & -> & W). split; [reflexivity|]. cbn [fst]. intros f s. rewrite written_app. cbn [written]. rewrite W.
  destruct (String.eqb "out/UT.STN04.C50.mseed" f); [|discriminate]. intros H. inversion H. cbn. intros [A|[]]. discriminate.
Qed.
Print Assumptions C79_refuted.
Example C79_example : NoDup (map (output_file "UT" "mseed") [leap_block 4; leap_block 5]) /\
  snd (extract_mseed disk (Ok [leap_block 4; leap_block 5]) "UT" "mseed" []) = Ok tt.
Proof.
  split; [|vm_compute; reflexivity]. vm_compute. constructor; [|repeat constructor; easy]. intros [A|[]]. discriminate A.
Qed.
(** A missing file stops the run; the blocks before it stay on disk. *)
Example C79_crash_example :
  let run := extract_mseed disk (Ok [leap_block 4; mkRow "out" "C50" 7 (mkCivil 2016 2 29 4) 10 0 (mkCivil 2016 2 29 6) 20 0]) "UT" "mseed" [] in
  snd run = Err FileNotFoundError /\ List.length (files_read (fst run)) = 6%nat /\ written (fst run) "out/UT.STN04.C50.mseed" None <> None.
Proof. vm_compute. repeat split; discriminate. Qed.
