(* Independent vocabulary for interactive picking. *)
From Verif Require Import InteractModel.

(** The point accepted in a round: the last one clicked. *)
Definition accepted (round : list point) : option point := last (map Some round) None.
(** The points accepted in a list of rounds; rounds without a click do not count. *)
Fixpoint accepted_points (rounds : list (list point)) : list point :=
  match rounds with
  | [] => []
  | r :: t => match accepted r with Some p => p :: accepted_points t | None => accepted_points t end
  end.
(** [w] are the answers to the waits of a session with [n] accepted points that ended
    there; [stopped]: a key was pressed within 0.3 s after the last point (and after none before).
    With [ask], each point is followed by any number of mouse presses and timeouts and one
    key before the 0.3 s. *)
Inductive wait_log (ask : bool) : nat -> bool -> list (option bool) -> Prop :=
| wait_none : wait_log ask 0 false []
| wait_more n stopped pre k w :
    (if ask then exists idle, pre = idle ++ [Some true] /\ ~ In (Some true) idle else pre = []) ->
    k <> Some true -> wait_log ask n stopped w -> wait_log ask (S n) stopped (pre ++ k :: w)
| wait_stop pre :
    (if ask then exists idle, pre = idle ++ [Some true] /\ ~ In (Some true) idle else pre = []) ->
    wait_log ask 1 true (pre ++ [Some true]).
