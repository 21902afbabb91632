(* Numbers, wave types and counts as they are written in .max files. *)
From Verif Require Import MaxModel RegexProofs MaxSpec.
Local Open Scope nat_scope.
Local Open Scope list_scope.
Local Open Scope char_scope.

(** The ten figures. *)
Definition figure (a : ascii) : Z :=
  match a with
  | "1" => 1 | "2" => 2 | "3" => 3 | "4" => 4 | "5" => 5 | "6" => 6 | "7" => 7 | "8" => 8 | "9" => 9 | _ => 0
  end%Z.
(** A row of figures in the decimal system: each counts ten times the next. *)
Fixpoint decimal (t : text) : Z :=
  match t with [] => 0 | a :: r => figure a * 10 ^ Z.of_nat (List.length r) + decimal r end%Z.
(** A power of ten. *)
Definition ten (e : Z) : Qc := if (0 <=? e)%Z then QcZ (10 ^ e) else (1 / QcZ (10 ^ (- e)))%Qc.
(** [t] is written: sign, figures, maybe a point and figures, maybe an exponent;
    its value is [v]. *)
Definition written_exponent (x : text) (e : Z) : Prop :=
  (x = [] /\ e = 0%Z) \/
  exists c d, (c = "e" \/ c = "E") /\ d <> [] /\ digits d /\
    ((x = c :: d /\ e = decimal d) \/ (x = c :: "+" :: d /\ e = decimal d) \/ (x = c :: "-" :: d /\ e = (- decimal d)%Z)).
Definition written (t : text) (v : Qc) : Prop :=
  exists s a p b x e, (s = [] \/ s = ["-"]) /\ a <> [] /\ digits a /\ digits b /\ ((p = [] /\ b = []) \/ p = ["."]) /\ written_exponent x e /\
    t = s ++ a ++ p ++ b ++ x /\
    let size := (QcZ (decimal (a ++ b)) * ten (e - Z.of_nat (List.length b)))%Qc in
    v = (match s with [] => size | _ => - size end)%Qc.
(** The names of the wave types, as requested and as written in files. *)
Definition wave_names : list (string * string) :=
  [("rayleigh", "Rayleigh"); ("love", "Love"); ("vertical", "Vertical"); ("radial", "Radial"); ("transverse", "Transverse")]%string.
