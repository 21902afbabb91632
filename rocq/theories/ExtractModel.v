(* Model of /repo/swprocess/utils.py (extract_mseed). *)
From Verif Require Export Py.
From Coq Require Export String DecimalString.
Local Open Scope string_scope.
Local Open Scope Z_scope.
Local Open Scope py_scope.

(** ** datetime.datetime with year, month, day and hour *)
Record civil : Type := mkCivil { yr : Z; mo : Z; dy : Z; hr : Z }.
Definition leap (y : Z) : bool := (y mod 4 =? 0) && (negb (y mod 100 =? 0) || (y mod 400 =? 0)).
Definition days_in_month (y m : Z) : Z :=
  if m =? 2 then (if leap y then 29 else 28) else if (m =? 4) || (m =? 6) || (m =? 9) || (m =? 11) then 30 else 31.
Definition valid (c : civil) : bool :=
  (1 <=? yr c) && (yr c <=? 9999) && (1 <=? mo c) && (mo c <=? 12) && (1 <=? dy c) && (dy c <=? days_in_month (yr c) (mo c)) &&
  (0 <=? hr c) && (hr c <=? 23).
(** The constructor raises ValueError for a date that does not exist. *)
Definition datetime (c : civil) : result civil := if valid c then Ok c else Err ValueError.
(** a <= b: year, month, day and hour are compared in this order. *)
Definition not_after (a b : civil) : bool :=
  (yr a <? yr b) || (yr a =? yr b) && ((mo a <? mo b) || (mo a =? mo b) && ((dy a <? dy b) || (dy a =? dy b) && (hr a <=? hr b))).
(** c + timedelta(hours=1); OverflowError after the year 9999. *)
Definition next_hour (c : civil) : result civil :=
  if hr c <? 23 then Ok (mkCivil (yr c) (mo c) (dy c) (hr c + 1))
  else if dy c <? days_in_month (yr c) (mo c) then Ok (mkCivil (yr c) (mo c) (dy c + 1) 0)
  else if mo c <? 12 then Ok (mkCivil (yr c) (mo c + 1) 1 0)
  else if yr c <? 9999 then Ok (mkCivil (yr c + 1) 1 1 0)
  else Err OverflowError.

(** ** Names *)
(** str(z) *)
Definition str_of_Z (z : Z) : string := NilEmpty.string_of_int (Z.to_int z).
(** str(z).zfill(2); a sign counts as a character. *)
Definition zfill2 (z : Z) : string := let s := str_of_Z z in if Nat.ltb (String.length s) 2 then "0" ++ s else s.
(** One line of the .csv file, utils.py:69-78; the columns of the days are "start date" and "end date". *)
Record row : Type := mkRow {
  folder : string; array_name : string; station : Z;
  start : civil; start_minute : Z; start_second : Z; end_ : civil; end_minute : Z; end_second : Z }.
(** utils.py:116 *)
Definition hour_file (network extension : string) (r : row) (c : civil) : string :=
  network ++ ".STN" ++ zfill2 (station r) ++ "_" ++ str_of_Z (yr c) ++ zfill2 (mo c) ++ zfill2 (dy c) ++ "_" ++ zfill2 (hr c)
  ++ "0000." ++ extension.
(** utils.py:152, relative to the output directory *)
Definition output_file (network extension : string) (r : row) : string :=
  folder r ++ "/" ++ network ++ ".STN" ++ zfill2 (station r) ++ "." ++ array_name r ++ "." ++ extension.

(** ** obspy and the file system *)
Record moment : Type := mkMoment { m_civil : civil; m_minute : Z; m_second : Z }.
(** UTCDateTime(year, month, day, hour, minute, second) *)
Definition utc (c : civil) (mi se : Z) : result moment :=
  if valid c && (0 <=? mi) && (mi <=? 59) && (0 <=? se) && (se <=? 59) then Ok (mkMoment c mi se) else Err ValueError.
(** The methods of obspy streams used here; [o_fill] is the loop of utils.py:145-149. *)
Record obspy (S : Type) : Type := mkObspy {
  o_read : string -> result S; o_plus : S -> S -> S; o_merge : S -> result S; o_trim : S -> moment -> moment -> result S;
  o_fill : S -> S; o_write : string -> S -> result unit; o_mkdir : string -> result unit }.
Arguments mkObspy {S}. Arguments o_read {S}. Arguments o_plus {S}. Arguments o_merge {S}. Arguments o_trim {S}. Arguments o_fill {S}.
Arguments o_write {S}. Arguments o_mkdir {S}.
(** What was done, in order. *)
Inductive effect (S : Type) : Type := Read (f : string) | MadeDir (d : string) | Wrote (f : string) (s : S).
Arguments Read {S}. Arguments MadeDir {S}. Arguments Wrote {S}.

(** A bound for the number of hours between two dates (months counted as 31 days). *)
Definition slot (c : civil) : Z := ((yr c * 12 + mo c) * 31 + dy c) * 24 + hr c.
Definition enough (a b : civil) : nat := Z.to_nat (slot b - slot a + 1).
(** The loop of utils.py:110-125; [fuel] never runs out (see ExtractProofs). *)
Fixpoint read_hours {S} (O : obspy S) (name : civil -> string) (fuel : nat) (current last : civil) (reads : option S)
  : list (effect S) * result (option S) :=
  if not_after current last then
    match fuel with
    | O%nat => ([], Err RuntimeError)
    | Datatypes.S n =>
        match o_read O (name current) with
        | Err e => ([Read (name current)], Err e)
        | Ok s =>
            let reads' := Some (match reads with Some r => o_plus O r s | None => s end) in
            match next_hour current with
            | Err e => ([Read (name current)], Err e)
            | Ok c => let (l, r) := read_hours O name n c last reads' in (Read (name current) :: l, r)
            end
        end
    end
  else ([], Ok reads).
(** One line of the table, utils.py:88-156; [dirs] are the existing folders. *)
Definition extract_row {S} (O : obspy S) (network extension : string) (dirs : list string) (r : row)
  : list (effect S) * result (list string) :=
  match (do s <- datetime (start r); do e <- datetime (end_ r); if negb (not_after s e) then Err ValueError else Ok (s, e)) with
  | Err e => ([], Err e)
  | Ok (s, e) =>
      let (l, res) := read_hours O (hour_file network extension r) (enough s e) s e None in
      match (do o <- res; do reads <- (match o with Some x => Ok x | None => Err AttributeError end);
             do merged <- o_merge O reads;
             do a <- utc (start r) (start_minute r) (start_second r); do b <- utc (end_ r) (end_minute r) (end_second r);
             o_trim O merged a b) with
      | Err e => (l, Err e)
      | Ok trimmed =>
          let known := existsb (String.eqb (folder r)) dirs in
          match (if known then Ok tt else o_mkdir O (folder r)) with
          | Err e => (l, Err e)
          | Ok _ =>
              let l := (l ++ if known then [] else [MadeDir (folder r)])%list in
              let out := o_fill O trimmed in
              match o_write O (output_file network extension r) out with
              | Err e => (l, Err e)
              | Ok _ => ((l ++ [Wrote (output_file network extension r) out])%list, Ok (if known then dirs else folder r :: dirs))
              end
          end
      end
  end.
(** All lines, utils.py:82-156. *)
Fixpoint extract_rows {S} (O : obspy S) (network extension : string) (dirs : list string) (rows : list row)
  : list (effect S) * result unit :=
  match rows with
  | [] => ([], Ok tt)
  | r :: t =>
      match extract_row O network extension dirs r with
      | (l, Err e) => (l, Err e)
      | (l, Ok dirs') => let (l', res) := extract_rows O network extension dirs' t in ((l ++ l')%list, res)
      end
  end.
(** extract_mseed, utils.py:32-156: every exception of pandas.read_csv becomes
    NotImplementedError. *)
Definition extract_mseed {S} (O : obspy S) (table : result (list row)) (network extension : string) (dirs : list string)
  : list (effect S) * result unit :=
  match table with
  | Err _ => ([], Err NotImplementedError)
  | Ok rows => extract_rows O network extension dirs rows
  end.
