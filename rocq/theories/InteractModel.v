(* Model of /repo/swprocess/interact.py and of Array1D.interactive_mute
   (/repo/swprocess/array1d.py). *)
From Verif Require Export ArrayModel.
From Coq Require Export String.
Local Open Scope string_scope.
Local Open Scope nat_scope.
Local Open Scope list_scope.
Local Open Scope py_scope.

Definition point : Type := (Qc * Qc)%type.
(** What the user does, in the order in which the program asks: [clicks] are the results
    of plt.ginput(n=-1, timeout=0), [waits] those of plt.waitforbuttonpress (True for a
    key, False for a mouse button, None after the timeout). *)
Record user : Type := mkUser { clicks : list (list point); waits : list (option bool) }.
(** A program that talks to the user may still be waiting for an answer. *)
Inductive dialogue (A : Type) : Type := Waiting | Returned (a : A) (rest : user).
Arguments Waiting {A}. Arguments Returned {A}.
Definition truthy (w : option bool) : bool := match w with Some true => true | _ => false end.

(** `while True: if plt.waitforbuttonpress(timeout=-1): break`, interact.py:65-68, 100-103:
    what remains after the first key. *)
Fixpoint until_key (w : list (option bool)) : option (list (option bool)) :=
  match w with
  | [] => None
  | a :: t => if truthy a then Some t else until_key t
  end.
(** The selection loop, interact.py:71-107.  [npt] is the number of accepted points, the
    recursion is over the answers to plt.ginput. *)
Fixpoint select_points (npts : Z) (ask : bool) (npt : Z) (xs ys : list Qc) (cl : list (list point)) (w : list (option bool))
  : dialogue (list Qc * list Qc) :=
  if (npt <? npts)%Z then
    match cl with
    | [] => Waiting
    | vals :: cl' =>
        match rev vals with
        | [] => select_points npts ask npt xs ys cl' w
        | (x, y) :: _ =>
            let xs := xs ++ [x] in
            let ys := ys ++ [y] in
            match (if ask then until_key w else Some w) with
            | None => Waiting
            | Some [] => Waiting
            | Some (k :: w') =>
                if truthy k then Returned (xs, ys) (mkUser cl' w')
                else select_points npts ask (npt + 1) xs ys cl' w'
            end
        end
    end
  else Returned (xs, ys) (mkUser cl w).
(** ginput_session, interact.py:24-112; texts and markers are not modelled. *)
Definition ginput_session (initial : bool) (npts : Z) (ask : bool) (u : user) : dialogue (list Qc * list Qc) :=
  match (if initial then until_key (waits u) else Some (waits u)) with
  | None => Waiting
  | Some w => select_points npts ask 0 [] [] (clicks u) w
  end.

(** parse, array1d.py:508-512 *)
Definition parse_line (time_ax : string) (xs ys : list Qc) : result line :=
  if String.eqb time_ax "y" then
    do x0 <- pyget xs 0; do y0 <- pyget ys 0; do x1 <- pyget xs 1; do y1 <- pyget ys 1; Ok ((x0, y0), (x1, y1))
  else
    do y0 <- pyget ys 0; do x0 <- pyget xs 0; do y1 <- pyget ys 1; do x1 <- pyget xs 1; Ok ((y0, x0), (y1, x1)).
(** One of the two lines, array1d.py:515-522, 525-532 *)
Definition pick_line (time_ax : string) (wanted : bool) (u : user) : dialogue (result (option line)) :=
  if wanted then
    match ginput_session false 2 false u with
    | Waiting => Waiting
    | Returned (xs, ys) u' => Returned (do l <- parse_line time_ax xs ys; Ok (Some l)) u'
    end
  else Returned (Ok None) u.
(** interactive_mute, array1d.py:475-539; the waterfall plot is not modelled.  The array
    afterwards and the lines returned. *)
Definition interactive_mute (a : array) (taper : nat -> list Qc) (location time_ax : string) (u : user)
  : dialogue (array * result (option line * option line)) :=
  match pick_line time_ax (String.eqb location "before" || String.eqb location "both") u with
  | Waiting => Waiting
  | Returned (Err e) u1 => Returned (a, Err e) u1
  | Returned (Ok s) u1 =>
      match pick_line time_ax (String.eqb location "after" || String.eqb location "both") u1 with
      | Waiting => Waiting
      | Returned (Err e) u2 => Returned (a, Err e) u2
      | Returned (Ok e) u2 =>
          let (a', r) := mute a taper s e in
          Returned (a', do _ <- r; Ok (s, e)) u2
      end
  end.
