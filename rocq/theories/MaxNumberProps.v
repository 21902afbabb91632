(* C50, C51: what the numbers and names of .max files mean. *)
From Verif Require Import MaxModel RegexProofs MaxSpec MaxNumberSpec MaxNumberProofs NumFacts.
Local Open Scope nat_scope.
Local Open Scope list_scope.
Local Open Scope char_scope.

(** A number of the file is read as the number that is written there: sign, figures,
    decimal point and exponent all count. *)
Theorem C50_numbers : forall t v, written t v -> parse_float t = Ok (Fin v).
Proof. exact parse_written. Qed.
Print Assumptions C50_numbers.
(** Infinities and missing values are read as such. *)
Theorem C50_not_numbers : parse_float (lit "inf") = Ok PInf /\ parse_float (lit "-inf") = Ok NInf /\ parse_float (lit "nan") = Ok NaN.
Proof. repeat split; reflexivity. Qed.
Print Assumptions C50_not_numbers.
Example C50_numbers_ex : written (lit "-12.50e-12") (- (QcZ 1250 * ten (-14)))%Qc.
Proof.
  exists ["-"], ["1"; "2"], ["."], ["5"; "0"], (lit "e-12"), (-12)%Z. repeat (split; [first [now right | now left | discriminate | reflexivity | idtac]|]).
  - right. exists "e", ["1"; "2"]. split; [now left|]. split; [discriminate|]. split; [reflexivity|]. right. right. split; reflexivity.
  - split; reflexivity.
Qed.

(** The count of maxima per window is the number written in the header, but at least
    one and at most a hundred. *)
Theorem C50_nmaxima : forall t, digits t ->
  clamp_nmaxima t = (if decimal t <? 1 then 1%nat else if 100 <? decimal t then 100%nat else Z.to_nat (decimal t))%Z.
Proof. exact count_spec. Qed.
Print Assumptions C50_nmaxima.
Example C50_nmaxima_ex : clamp_nmaxima (lit "12") = 12 /\ clamp_nmaxima (lit "0") = 1 /\ clamp_nmaxima (lit "4000") = 100.
Proof. now vm_compute. Qed.

(** Exactly the five wave types are known, and each goes by its own name in the files. *)
Theorem C51_names : forall w W, validate_wavetypes w = Ok W <-> In (w, W) wave_names.
Proof. exact names_spec. Qed.
Print Assumptions C51_names.
Example C51_names_ex : validate_wavetypes "love" = Ok "Love"%string.
Proof. apply C51_names. right; left; reflexivity. Qed.
