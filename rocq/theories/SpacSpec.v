(* A file of SPAC ratios and a log that lists the rings: vocabulary for C90. *)
From Verif Require Import MaxModel MaxSpec RegexProofs Regex.
Local Open Scope nat_scope.
Local Open Scope list_scope.
Local Open Scope char_scope.

(** One line: time frequency component ring ratio *)
Record ratio : Type := mkRatio { q_time : text; q_frq : text; q_component : text; q_ring : text; q_ratio : text }.
Definition ratio_line (e : ratio) : text :=
  q_time e ++ space :: q_frq e ++ space :: q_component e ++ space :: q_ring e ++ space :: q_ratio e.
Definition ratio_file (header : text) (es : list ratio) : text :=
  header ++ newline :: List.concat (map (fun e => ratio_line e ++ [newline]) es).
Definition ratio_ok (e : ratio) : Prop :=
  number (q_time e) /\ number (q_frq e) /\ word (q_component e) /\ (q_ring e <> [] /\ digits (q_ring e)) /\ number (q_ratio e).
(** In the lines of the header fewer than four spaces follow a figure. *)
Definition no_ratio_line (t : text) : Prop :=
  forall a c x b, t = a ++ c :: x ++ b -> digit c = true -> ~ In newline x -> count_occ ascii_dec x space < 4.
Definition vertical (e : ratio) : Prop := q_component e = ["0"].

(** The line of the log for the ring between the radii [a] and [b], and a log where what
    surrounds such lines has none. *)
Definition ring_mark : text := lit " --- Ring (".
Definition ring_text (ab : text * text) : text := ring_mark ++ fst ab ++ lit " m, " ++ snd ab ++ lit " m)".
Definition unmarked (t : text) : Prop := forall a b, t <> a ++ ring_mark ++ b.
(** What is asked for: a time and a ring, or all of them. *)
Definition asked (time ring : option text) (e : ratio) : bool :=
  (text_eqb (q_component e) ["0"] && match time with None => true | Some t => text_eqb (q_time e) t end
   && match ring with None => true | Some r => text_eqb (q_ring e) r end)%bool.
(** The columns reported: those that were not asked for, and the component if it was given in
    parentheses. *)
Definition columns (time : option text) (parentheses : bool) (ring : option text) (e : ratio) : list text :=
  (match time with None => [q_time e] | Some _ => [] end) ++ [q_frq e] ++ (if parentheses then [["0"]] else [])
  ++ (match ring with None => [q_ring e] | Some _ => [] end) ++ [q_ratio e].
(** No other time of the file ends in something that looks like [t]. *)
Definition sole_time (t : text) (es : list ratio) : Prop :=
  forall e pre s, In e es -> q_time e = pre ++ s -> looks_like t s -> q_time e = t.
