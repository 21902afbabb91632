(* Vocabulary of C26 for images with silent frequencies and for refused calls. *)
From Verif Require Import TransformModel TransformSpec.
Local Open Scope list_scope.

(** A frequency at which the image is zero for every velocity. *)
Definition silent (m : list (list Qc)) (j : nat) : bool := forallb (fun x => Qceqb x 0%Qc) (column m j).
Definition silences (nc : nat) (m : list (list Qc)) : list bool := map (silent m) (seq 0 nc).
(** Which frequencies are lost for good after one more normalisation: division by its own maximum loses
    a silent frequency; division by the overall maximum loses all of them as soon as one is
    lost or if all are silent. *)
Definition lose (quiet : list bool) (lost : list bool) (by_ : string) : list bool :=
  if String.eqb by_ "frequency-maximum" then map2 orb lost quiet
  else if String.eqb by_ "absolute-maximum" then
    if existsb (fun b => b) lost || forallb (fun b => b) quiet then map (fun _ => true) lost else lost
  else lost.
(** The entries of [m], NaN at the lost frequencies. *)
Definition masked (lost : list bool) (m : list (list Qc)) : list (list flt) :=
  map (fun r => map2 (fun (b : bool) x => if b then NaN else Fin x) lost r) m.
(** The image whose normalisations one gets after a call that was refused when the last
    normalisation was [by_]: multiplied by the maxima divided by. *)
Definition inflated (by_ : string) (nr nc : nat) (m q : list (list Qc)) : Prop :=
  rect nr nc q /\
  (by_ = "none"%string /\ q = m \/
   by_ = "absolute-maximum"%string /\
     (exists g, greatest (List.concat m) g /\
        forall i j, i < nr -> j < nc -> entry q i j = (entry m i j * g)%Qc) \/
   by_ = "frequency-maximum"%string /\
     forall j, j < nc -> exists g, greatest (column m j) g /\
        forall i, i < nr -> entry q i j = (entry m i j * g)%Qc).
