(* Further properties of extract_mseed: how a run ends and what it leaves behind. *)
From Verif Require Import ExtractModel ExtractSpec ExtractOutcomeSpec ExtractProofs ExtractOutcomeProofs ExtractProps.
Local Open Scope string_scope.
Local Open Scope Z_scope.

(** C79: for every table of proper blocks, whatever their names and however the run ends, the
    blocks of the table up to some block were extracted, all of them exactly if there is no error;
    a file named by one of these holds what the last of them with that name asks for, and
    every other file is untouched. *)
Theorem C79_outcome : forall S (O : obspy S) network extension rows dirs, Forall proper rows ->
  let run := extract_mseed O (Ok rows) network extension dirs in
  exists made rest, rows = (made ++ rest)%list /\ (snd run = Ok tt <-> rest = []) /\
    forall f before,
      (~ In f (map (output_file network extension) made) -> written (fst run) f before = before) /\
      (forall pre r post, made = (pre ++ r :: post)%list -> output_file network extension r = f ->
         ~ In f (map (output_file network extension) post) ->
         exists s, written (fst run) f before = Some s /\ holds O network extension r s).
Proof. intros S O network extension rows dirs P. exact (rows_outcome O network extension rows P dirs). Qed.
Print Assumptions C79_outcome.
Example C79_outcome_example :
  let rows := [leap_block 4; mkRow "out" "C50" 4 (mkCivil 2016 3 28 22) 10 0 (mkCivil 2016 3 28 22) 20 0;
               mkRow "out" "C50" 7 (mkCivil 2016 2 29 4) 10 0 (mkCivil 2016 2 29 6) 20 0] in
  let run := extract_mseed disk (Ok rows) "UT" "mseed" [] in
  Forall proper rows /\ snd run = Err FileNotFoundError /\
  written (fst run) "out/UT.STN04.C50.mseed" None = Some ["UT.STN04_20160328_220000.mseed"] /\ written (fst run) "out/UT.STN07.C50.mseed" None = None.
Proof.
  split; [|vm_compute; auto]. constructor; [exact leap_block_proper|].
  constructor; [|constructor; [|constructor]]; unfold proper, sexagesimal; cbn [start end_ start_minute start_second end_minute end_second];
    (split; [reflexivity|]; split; [reflexivity|]; do 4 (split; [lia|]); split; [|discriminate]; vm_compute; discriminate).
Qed.

(** C66: the exception of the first file that cannot be read is passed on, after the files of the
    hours before it were read and nothing was written. *)
Theorem C66_unreadable : forall S (O : obspy S) network extension dirs r rest pre h post ss e,
  proper r -> needed_hours r (pre ++ h :: post) ->
  Forall2 (fun h s => o_read O (hour_file network extension r h) = Ok s) pre ss -> o_read O (hour_file network extension r h) = Err e ->
  extract_mseed O (Ok (r :: rest)) network extension dirs = (map Read (map (hour_file network extension r) (pre ++ [h])), Err e).
Proof. intros S O network extension dirs r rest pre h post ss e. apply row_unreadable. Qed.
Print Assumptions C66_unreadable.
Example C66_unreadable_example :
  extract_mseed disk (Ok [mkRow "out" "C50" 7 (mkCivil 2016 2 29 4) 10 0 (mkCivil 2016 2 29 6) 20 0]) "UT" "mseed" []
  = ([Read "UT.STN07_20160229_040000.mseed"; Read "UT.STN07_20160229_050000.mseed"], Err FileNotFoundError).
Proof. vm_compute. reflexivity. Qed.

(** Minutes or seconds outside 0 to 59 are refused with ValueError, but only when all files of the
    block were read; nothing is written. *)
Theorem C66_minutes : forall S (O : obspy S) network extension dirs r rest hours ss x y,
  valid (start r) = true -> valid (end_ r) = true -> hour_number (start r) <= hour_number (end_ r) -> end_ r <> last_hour_of_all ->
  ~ (sexagesimal (start_minute r) /\ sexagesimal (start_second r) /\ sexagesimal (end_minute r) /\ sexagesimal (end_second r)) ->
  hours_between (start r) (end_ r) hours ->
  Forall2 (fun h s => o_read O (hour_file network extension r h) = Ok s) hours ss -> joined O ss = Some x -> o_merge O x = Ok y ->
  extract_mseed O (Ok (r :: rest)) network extension dirs = (map Read (map (hour_file network extension r) hours), Err ValueError).
Proof. intros S O network extension dirs r rest hours ss x y. apply row_minutes. Qed.
Print Assumptions C66_minutes.
Example C66_minutes_example :
  extract_mseed disk (Ok [mkRow "out" "C50" 4 (mkCivil 2016 2 28 23) 10 60 (mkCivil 2016 2 29 0) 20 0]) "UT" "mseed" []
  = ([Read "UT.STN04_20160228_230000.mseed"; Read "UT.STN04_20160229_000000.mseed"], Err ValueError).
Proof. vm_compute. reflexivity. Qed.
