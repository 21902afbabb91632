(* Python's `re` for the patterns of /repo/swprocess/regex.py: a backtracking
   matcher (leftmost, greedy, ordered alternatives).  Texts are lists of ASCII
   characters; \d, \S and '.' are ASCII only.  Every quantified atom in those
   patterns is a single character class. *)
From Verif Require Export Py.
From Coq Require Export Ascii String.
Export ListNotations.
Local Open Scope nat_scope.
Local Open Scope list_scope.

Definition text := list ascii.
Definition lit (s : string) : text := list_ascii_of_string s.

Inductive re : Type :=
| Eps
| Chr (p : ascii -> bool)
| Star (p : ascii -> bool)           (** greedy p* *)
| Seq (r s : re)
| Alt (r s : re)
| Grp (n : nat) (r : re).

(** Captured groups, most recent first. *)
Definition caps := list (nat * text).
Fixpoint group (n : nat) (c : caps) : option text :=
  match c with
  | [] => None
  | (k, t) :: c' => if Nat.eqb n k then Some t else group n c'
  end.
Definition consumed (s rest : text) : text := firstn (List.length s - List.length rest) s.

(** Backtracking: [k] is what remains to be matched. *)
Fixpoint star {X} (p : ascii -> bool) (s : text) (k : text -> option X) : option X :=
  match s with
  | a :: t => if p a then match star p t k with Some x => Some x | None => k s end else k s
  | [] => k []
  end.
Fixpoint run {X} (r : re) (s : text) (c : caps) (k : text -> caps -> option X) : option X :=
  match r with
  | Eps => k s c
  | Chr p => match s with a :: t => if p a then k t c else None | [] => None end
  | Star p => star p s (fun s' => k s' c)
  | Seq a b => run a s c (fun s' c' => run b s' c' k)
  | Alt a b => match run a s c k with Some x => Some x | None => run b s c k end
  | Grp n a => run a s c (fun s' c' => k s' ((n, consumed s s') :: c'))
  end.
(** A match at the beginning of [s]: the rest of the text and the groups. *)
Definition match_at (r : re) (s : text) : option (text * caps) :=
  run r s [] (fun s' c' => Some (s', c')).

(** re.search *)
Fixpoint search (r : re) (s : text) : option caps :=
  match match_at r s with
  | Some (_, c) => Some c
  | None => match s with [] => None | _ :: t => search r t end
  end.
(** re.finditer for patterns that match no empty text; [skip] characters belong to
    the previous match. *)
Fixpoint finditer_from (r : re) (skip : nat) (s : text) : list caps :=
  match s with
  | [] => []
  | _ :: t =>
      match skip with
      | S n => finditer_from r n t
      | O => match match_at r s with
             | Some (rest, c) => c :: finditer_from r (List.length s - List.length rest - 1) t
             | None => finditer_from r 0 t
             end
      end
  end.
Definition finditer (r : re) (s : text) : list caps := finditer_from r 0 s.

(** Building blocks *)
Definition is (a b : ascii) : bool := Ascii.eqb a b.
Definition digit (a : ascii) : bool :=
  (Nat.leb 48 (nat_of_ascii a) && Nat.leb (nat_of_ascii a) 57)%bool.
Definition newline : ascii := "010"%char.
(** '.' *)
Definition any (a : ascii) : bool := negb (is a newline).
(** \S: not one of space, \t, \n, \v, \f, \r (nor the ASCII separators 28-31) *)
Definition blank (a : ascii) : bool :=
  let n := nat_of_ascii a in
  (Nat.eqb n 32 || (Nat.leb 9 n && Nat.leb n 13) || (Nat.leb 28 n && Nat.leb n 31))%bool.
Definition solid (a : ascii) : bool := negb (blank a).
Definition Opt (p : ascii -> bool) : re := Alt (Chr p) Eps.
Definition Plus (p : ascii -> bool) : re := Seq (Chr p) (Star p).
Fixpoint Lit (t : text) : re :=
  match t with
  | [] => Eps
  | a :: t' => Seq (Chr (is a)) (Lit t')
  end.
Definition seqs (l : list re) : re := fold_right Seq Eps l.

(** A text inserted into a pattern by an f-string is itself a pattern: '.' is any
    character, and '+', '*', '?' repeat the character before.  Other special
    characters cannot come from a number written with digits, '.', 'e', '+', '-';
    for them the model gives up ([None]). *)
Definition special (a : ascii) : bool :=
  existsb (is a) (lit "\[](){}^$|").
Definition atom (a : ascii) : ascii -> bool := if is a "."%char then any else is a.
Definition quantifier (a : ascii) : option ((ascii -> bool) -> re) :=
  if is a "+"%char then Some Plus
  else if is a "*"%char then Some Star
  else if is a "?"%char then Some Opt
  else None.
Fixpoint pattern_of (t : text) : option re :=
  match t with
  | [] => Some Eps
  | a :: t' =>
      if special a then None
      else match quantifier a with
      | Some _ => None
      | None =>
          match t' with
          | b :: t'' =>
              match quantifier b with
              | Some q => option_map (Seq (q (atom a))) (pattern_of t'')
              | None => option_map (Seq (Chr (atom a))) (pattern_of t')
              end
          | [] => Some (Seq (Chr (atom a)) Eps)
          end
      end
  end.
