(* Independent vocabulary for extract_mseed. *)
From Verif Require Import ExtractModel.
From Coq Require Export Sorted Ascii.
Local Open Scope Z_scope.

(** Days before 1 January of a year, before the first of a month (proleptic Gregorian
    calendar), and the number of an hour, counted from 31 December of the year 0. *)
Definition days_before_year (y : Z) : Z := let n := y - 1 in 365 * n + n / 4 - n / 100 + n / 400.
Definition days_before_month (y m : Z) : Z :=
  nth (Z.to_nat (m - 1)) [0; 31; 59; 90; 120; 151; 181; 212; 243; 273; 304; 334] 0 + (if (2 <? m) && leap y then 1 else 0).
Definition hour_number (c : civil) : Z := 24 * (days_before_year (yr c) + days_before_month (yr c) (mo c) + dy c) + hr c.
(** Seconds. *)
Definition second_number (m : moment) : Z := 3600 * hour_number (m_civil m) + 60 * m_minute m + m_second m.
(** The file of hour [c] has a second of the block from [a] to [b]. *)
Definition overlaps (c : civil) (a b : moment) : Prop :=
  exists t, second_number a <= t <= second_number b /\ 3600 * hour_number c <= t < 3600 * (hour_number c + 1).
Definition last_hour_of_all : civil := mkCivil 9999 12 31 23.

(** Reading the files [fs] one after the other, up to the first that cannot be read. *)
Fixpoint reading {S} (O : obspy S) (fs : list string) (so_far : option S) : list (effect S) * result (option S) :=
  match fs with
  | [] => ([], Ok so_far)
  | f :: t =>
      match o_read O f with
      | Err e => ([Read f], Err e)
      | Ok s => let (l, r) := reading O t (Some (match so_far with Some x => o_plus O x s | None => s end)) in (Read f :: l, r)
      end
  end.

(** The files read, in order, and the content of a file after a run. *)
Fixpoint files_read {S} (l : list (effect S)) : list string :=
  match l with [] => [] | Read f :: t => f :: files_read t | _ :: t => files_read t end.
Fixpoint written {S} (l : list (effect S)) (f : string) (before : option S) : option S :=
  match l with [] => before | Wrote g s :: t => written t f (if String.eqb g f then Some s else before) | _ :: t => written t f before end.

(** A block as a pair of moments, and the blocks one can ask for. *)
Definition block_start (r : row) : moment := mkMoment (start r) (start_minute r) (start_second r).
Definition block_end (r : row) : moment := mkMoment (end_ r) (end_minute r) (end_second r).
Definition sexagesimal (x : Z) : Prop := 0 <= x <= 59.
Definition proper (r : row) : Prop :=
  valid (start r) = true /\ valid (end_ r) = true /\ sexagesimal (start_minute r) /\ sexagesimal (start_second r) /\
  sexagesimal (end_minute r) /\ sexagesimal (end_second r) /\ second_number (block_start r) <= second_number (block_end r) /\
  end_ r <> last_hour_of_all.
(** [hours] are the hours that overlap the block, in chronological order, once each. *)
Definition needed_hours (r : row) (hours : list civil) : Prop :=
  (forall c, In c hours <-> valid c = true /\ overlaps c (block_start r) (block_end r)) /\
  StronglySorted (fun a b => hour_number a < hour_number b) hours.
(** What is written for a row whose files hold [ss]. *)
Definition joined {S} (O : obspy S) (ss : list S) : option S :=
  match ss with [] => None | s :: t => Some (fold_left (o_plus O) t s) end.
(** Blocks that do not exist or whose last hour comes before the first. *)
Definition impossible (r : row) : Prop :=
  valid (start r) = false \/ valid (end_ r) = false \/ hour_number (end_ r) < hour_number (start r).
(** [s] is the part of the recording that row [r] asks for. *)
Definition holds {S} (O : obspy S) network extension (r : row) (s : S) : Prop :=
  exists hours ss x y z, needed_hours r hours /\
    Forall2 (fun h s => o_read O (hour_file network extension r h) = Ok s) hours ss /\ joined O ss = Some x /\ o_merge O x = Ok y /\
    o_trim O y (block_start r) (block_end r) = Ok z /\ s = o_fill O z.
(** A character occurs in a string. *)
Fixpoint has (c : ascii) (s : string) : bool := match s with EmptyString => false | String x t => Ascii.eqb x c || has c t end.
