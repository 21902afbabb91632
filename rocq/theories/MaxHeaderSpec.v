(* A whole .max file, as the program that writes it would describe it. *)
From Verif Require Import MaxModel RegexProofs MaxSpec MaxNumberSpec.
Local Open Scope nat_scope.
Local Open Scope list_scope.
Local Open Scope char_scope.

Definition contains (k t : text) : Prop := exists a b, t = a ++ k ++ b.
(** [value] follows the first occurrence of [key] that is followed by an [ok] character,
    and is as long as its characters are [ok]. *)
Definition first_value (key : text) (ok : ascii -> bool) (value t : text) : Prop :=
  exists pre post, t = pre ++ key ++ value ++ post /\ value <> [] /\ forallb ok value = true /\
    (forall c r, post = c :: r -> ok c = false) /\
    (forall a c r, t = a ++ key ++ c :: r -> ok c = true -> List.length pre <= List.length a).
(** The first version of geopsy named is 3.2.0. *)
Definition of_version_320 (t : text) : Prop :=
  exists pre post, t = pre ++ lit "geopsypack-" ++ lit "3.2.0" ++ post /\ (forall c r, post = c :: r -> digit c = false) /\
    (forall a r, t = a ++ lit "geopsypack-" ++ r -> List.length pre <= List.length a).
(** No line of the header could be mistaken for a line of data: there are fewer than five
    spaces after two numbers separated by a space. *)
Definition no_data_line (t : text) : Prop :=
  forall a c p m d x b, t = a ++ [c] ++ p ++ [space] ++ m ++ [d] ++ x ++ b -> digit c = true -> digit d = true ->
    (p = [] \/ p = ["."]) -> (m = [] \/ m = ["-"]) -> ~ In newline x -> count_occ ascii_dec x space < 5.
(** The header of a file of process [P] with [N] maxima. *)
Definition header_of (P N header : text) : Prop :=
  of_version_320 header /\ first_value (lit "PROCESS_TYPE=") solid P header /\
  first_value (lit "N_MAXIMA=") digit N header /\ no_data_line header.

(** The numbers of a line; the velocity is the inverse of the slowness written. *)
Definition noise_value (t : text) (x : flt) : Prop :=
  (exists v, written t v /\ x = Fin v) \/ (t = lit "inf" /\ x = PInf) \/ (t = lit "-inf" /\ x = NInf) \/ (t = lit "nan" /\ x = NaN).
Definition states (e : entry) (r : row_data) : Prop :=
  unsigned (e_time e) /\ unsigned (e_frq e) /\ (exists w, In (w, string_of_list_ascii (e_wave e)) wave_names) /\
  exists f s a l n p, written (e_frq e) f /\ written (e_slo e) s /\ s <> 0%Qc /\ written (e_azi e) a /\ written (e_ell e) l /\
    noise_value (e_noi e) n /\ written (e_pwr e) p /\
    r = mkRow (Fin f) (Fin (1 / s)%Qc) (Fin a) (Fin l) n (Fin p).

(** The wave type the file announces.  If the header holds "inf", none is; otherwise it
    is that of the first line, unless the noise of that line is no number. *)
Definition announced (header : text) (es : list entry) (o : option text) : Prop :=
  (contains (lit "inf") header /\ o = None) \/
  (~ contains (lit "inf") header /\ ~ contains (lit "nan ") header /\
   exists e r, es = e :: r /\
     ((number (e_noi e) /\ o = Some (e_wave e)) \/
      ((e_noi e = lit "inf" \/ e_noi e = lit "-inf" \/ e_noi e = lit "nan") /\ o = None))).
(** Rayleigh peaks of a file of vertical components are its vertical peaks. *)
Definition read_as (w : string) (o : option text) (w' : string) : Prop :=
  (w = "rayleigh"%string /\ o = Some (lit "Vertical") /\ w' = "vertical"%string) \/
  ((w <> "rayleigh"%string \/ o <> Some (lit "Vertical")) /\ w' = w).
(** The name of the process in lower case; "rtbf" on vertical components is "capon". *)
Definition named (P : text) (o : option text) (name : text) : Prop :=
  (lower P = lit "rtbf" /\ o = Some (lit "Vertical") /\ name = lit "capon") \/
  ((lower P <> lit "rtbf" \/ o <> Some (lit "Vertical")) /\ name = lower P).
(** At least one and at most a hundred maxima. *)
Definition count_of (N : text) : nat := Nat.min 100 (Nat.max 1 (Z.to_nat (decimal N))).
