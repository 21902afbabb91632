(* C90: the numbers under which the columns of a SPAC ratio are found. *)
From Verif Require Import MaxModel MaxSpec RegexProofs MaxProofs SpacModel SpacSpec SpacProofs SpacProps SpacGroupProofs.
Local Open Scope nat_scope.
Local Open Scope list_scope.

(** In every match, wherever it is found: the groups are numbered from 1 on in the order of the
    columns, so match.group(k) is entry k of match.groups(); there are as many as columns left
    open by the caller. *)
Theorem C90_numbered : forall time component ring p s c, get_spac_ratio time component ring = Ok p ->
  In c (finditer p s) ->
  List.length (all_groups c) = 2 + (if String.eqb component "(0)" then 1 else 0)
      + (match time with None => 1 | Some _ => 0 end) + (match ring with None => 1 | Some _ => 0 end)
  /\ group 0 c = None /\ forall k, group (S k) c = nth_error (all_groups c) k.
Proof. exact ratio_numbered. Qed.
Print Assumptions C90_numbered.
Example C90_numbered_example : exists p c, get_spac_ratio None "0" (Some (lit "2")) = Ok p
  /\ finditer p (lit "10.5 3.25 0 2 0.75") = [c] /\ group 2 c = Some (lit "3.25") /\ group 3 c = Some (lit "0.75").
Proof. do 2 eexists. split; [reflexivity|]. split; [vm_compute; reflexivity|]. vm_compute. auto. Qed.
