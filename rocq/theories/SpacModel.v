(* Model of the SPAC patterns, /repo/swprocess/regex.py:95-131. *)
From Verif Require Export MaxModel.
Local Open Scope nat_scope.
Local Open Scope list_scope.
Local Open Scope py_scope.
Local Open Scope char_scope.

(** A field of the pattern, in parentheses or not; the groups are numbered from [n] on. *)
Definition part : Type := bool * re.
Definition part_re (n : nat) (p : part) : re := if fst p then Grp n (snd p) else snd p.
Definition next (n : nat) (p : part) : nat := if fst p then S n else n.
(** f"{p1} {p2} ... {pn}" *)
Fixpoint fields (n : nat) (l : list part) : re :=
  match l with
  | [] => Eps
  | p :: t => match t with
              | [] => part_re n p
              | _ :: _ => Seq (part_re n p) (Seq SP (fields (next n p) t))
              end
  end.
(** The default of [time] and [number], regex.py:95, 119. *)
Definition grouped_number : part := (true, NUMBER).
(** get_spac_ratio, regex.py:95-122; a [time] or [ring] given by the caller is a text without
    parentheses (see [pattern_of]). *)
Definition caller_part (dflt : part) (t : option text) : result part :=
  match t with
  | None => Ok dflt
  | Some t => match pattern_of t with Some r => Ok (false, r) | None => Err RuntimeError end
  end.
Definition get_spac_ratio (time : option text) (component : string) (ring : option text) : result re :=
  do c <- (if String.eqb component "(0)" then Ok (true, Chr (is "0"))
           else if String.eqb component "0" then Ok (false, Chr (is "0"))
           else Err NotImplementedError);
  do t <- caller_part grouped_number time;
  do r <- caller_part (true, Plus digit) ring;
  Ok (fields 1 [t; grouped_number; c; r; grouped_number]).
(** get_spac_ring, regex.py:125-131 *)
Definition get_spac_ring : re :=
  seqs [Lit (lit " --- Ring ("); Grp 1 NUMBER; Lit (lit " m, "); Grp 2 NUMBER; Lit (lit " m)")].

(** match.groups() of a pattern in which every group takes part in the match: the captures were
    made in the order of the group numbers. *)
Definition all_groups (c : caps) : list text := map snd (rev c).
