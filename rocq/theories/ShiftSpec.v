(* Vocabulary for surveys moved along their line. *)
From Verif Require Import ArrayModel WorkflowModel.
Local Open Scope string_scope.
Local Open Scope list_scope.

(** The same survey, [d] metres further along the line. *)
Definition moved_sensor (d : Qc) (s : sensor) : sensor := mkSensor (ser s) (sx s + d)%Qc (sy s) (sz s).
Definition moved_source (d : Qc) (s : source) : source := mkSource (src_x s + d)%Qc (src_y s) (src_z s).
Definition moved (d : Qc) (a : array) : array := mkArray (map (moved_sensor d) (sensors a)) (moved_source d (src a)).
Definition moved_line (d : Qc) (l : line) : line := let '((x1, t1), (x2, t2)) := l in (((x1 + d)%Qc, t1), ((x2 + d)%Qc, t2)).
(** The result with [f] applied, or the same exception. *)
Definition after {A B} (f : A -> B) (r : result A) : result B := match r with Ok a => Ok (f a) | Err e => Err e end.
(** The array and the outcome of a method that changes it. *)
Definition moved_result (d : Qc) (r : array * result unit) : array * result unit := (moved d (fst r), snd r).
(** The outcome of a workflow with its records moved. *)
Definition moved_outcome (d : Qc) (o : outcome) : outcome := mkOutcome (r_transform o) (moved d (r_array o)) (r_snr o).

(** A transform that does not look at the absolute position of the survey. *)
Definition blind (d : Qc) (c c' : transform_class) : Prop := forall a j, c' (moved d a) j = c a j.
(** The same tapers, spectra and transforms; the user picks the same features of the moved records. *)
Record same_lab (d : Qc) (E E' : environment) : Prop := mkSameLab {
  same_taper : e_taper E' = e_taper E;
  same_spectrum : e_spectrum E' = e_spectrum E;
  same_picks : forall a, e_user E' (moved d a) = after (fun l => (moved_line d (fst l), moved_line d (snd l))) (e_user E a);
  same_classes : forall n, match lookup n (e_transforms E), lookup n (e_transforms E') with
                           | Some c, Some c' => blind d c c' | None, None => True | _, _ => False end }.

(** Whoever picks lines by hand picks the same features of the moved records. *)
Definition user_follows (d : Qc) (u u' : array -> result (line * line)) : Prop :=
  forall a, u' (moved d a) = after (fun l => (moved_line d (fst l), moved_line d (snd l))) (u a).
(** The surroundings [E] with [d] added by map_x, and another user. *)
Definition moved_lab (d : Qc) (E : environment) (user : array -> result (line * line)) : environment :=
  mkEnvironment (e_read E) (fun x => (e_mx E x + d)%Qc) (e_my E) user (e_taper E) (e_spectrum E) (e_transforms E).
(** The name, if the survey is one file. *)
Definition one_name (f : names) : option string := match f with Name x => Some x | Names [x] => Some x | _ => None end.
