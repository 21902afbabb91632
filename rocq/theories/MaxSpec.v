(* What a .max file is: independent vocabulary for C50 and C51. *)
From Verif Require Import MaxModel RegexProofs.
Local Open Scope nat_scope.
Local Open Scope list_scope.
Local Open Scope char_scope.

(** One peak: the nine columns of a data line are
    abs_time frequency polarization slowness azimuth ellipticity noise power valid
    (valid is 1). *)
Record entry : Type := mkEntry {
  e_time : text; e_frq : text; e_wave : text; e_slo : text; e_azi : text;
  e_ell : text; e_noi : text; e_pwr : text }.
Definition line (e : entry) : text :=
  e_time e ++ space :: e_frq e ++ space :: e_wave e ++ space :: e_slo e ++ space :: e_azi e ++ space ::
  e_ell e ++ space :: e_noi e ++ space :: e_pwr e ++ space :: ["1"].
(** A header followed by the data lines. *)
Definition contents (header : text) (es : list entry) : text :=
  header ++ newline :: List.concat (map (fun e => line e ++ [newline]) es).

(** Numbers *)
Definition digits (t : text) : Prop := forallb digit t = true.
Definition unsigned (t : text) : Prop :=
  exists a b, a <> [] /\ digits a /\ digits b /\ (t = a \/ t = a ++ ["."] ++ b).
Definition exponent (t : text) : Prop :=
  exists e g d, (e = "e" \/ e = "E") /\ (g = [] \/ g = ["+"] \/ g = ["-"]) /\ digits d /\ t = e :: g ++ d.
Definition number (t : text) : Prop :=
  exists s m x, (s = [] \/ s = ["-"]) /\ unsigned m /\ (x = [] \/ exponent x) /\ t = s ++ m ++ x.
Definition word (t : text) : Prop := ~ In space t /\ ~ In newline t.
(** A data line as the program writes it. *)
Definition entry_ok (e : entry) : Prop :=
  unsigned (e_time e) /\ unsigned (e_frq e) /\ word (e_wave e) /\ number (e_slo e) /\ number (e_azi e) /\
  number (e_ell e) /\ (number (e_noi e) \/ e_noi e = lit "inf" \/ e_noi e = lit "-inf" \/ e_noi e = lit "nan") /\
  number (e_pwr e).
(** In the header no figure stands before the wave type [w] (surrounded by spaces) in
    the same line. *)
Definition header_ok (w : text) (header : text) : Prop :=
  forall a l b c, header = a ++ l ++ (space :: w ++ [space]) ++ b -> ~ In newline l -> In c l -> digit c = false.

(** [t] with any character in place of its dots *)
Definition looks_like (t s : text) : Prop :=
  Forall2 (fun a x => a = x \/ (a = "." /\ x <> newline)) t s.
(** No other time in the file ends in something that looks like [t]. *)
Definition time_stands_out (t : text) (es : list entry) : Prop :=
  forall e pre s, In e es -> e_time e = pre ++ s -> looks_like t s -> e_time e = t.
Definition frequency_stands_out (f : text) (es : list entry) : Prop :=
  forall e, In e es -> looks_like f (e_frq e) -> e_frq e = f.

(** The numbers written in a line. *)
Definition reads (e : entry) (r : row_data) : Prop :=
  parse_float (e_frq e) = Ok (r_frq r) /\
  (exists s, parse_float (e_slo e) = Ok (Fin s) /\ s <> 0%Qc /\ r_vel r = Fin (1 / s)%Qc) /\
  parse_float (e_azi e) = Ok (r_azi r) /\ parse_float (e_ell e) = Ok (r_ell r) /\
  parse_float (e_noi e) = Ok (r_noi r) /\ parse_float (e_pwr e) = Ok (r_pwr r).

(** The lines of time [t], wave type [w] and frequency [f], in file order. *)
Definition of_window (t w : text) (es : list entry) : list entry :=
  filter (fun e => text_eqb (e_time e) t && text_eqb (e_wave e) w)%bool es.
Definition at_frequency (f : text) (es : list entry) : list entry :=
  filter (fun e => text_eqb (e_frq e) f) es.

(** [p] has [nmax] rows and one column per frequency; row i of the column of frequency f
    holds the i-th line of the window with that frequency, NaN if there is none. *)
Definition holds (p : peaks) (name : string) (get : row_data -> flt) (nmax : nat) (frqs : list text)
           (window : list entry) (values : entry -> row_data) : Prop :=
  exists a, assoc name (fields p) = Some a /\ shp a = S2 nmax (List.length frqs) /\
    forall i j f, i < nmax -> nth_error frqs j = Some f ->
      at2 NaN (List.length frqs) (dat a) i j
      = match nth_error (at_frequency f window) i with Some e => get (values e) | None => NaN end.
Definition holds_window (p : peaks) (nmax : nat) (frqs : list text) (window : list entry)
           (values : entry -> row_data) : Prop :=
  holds p "frequency" r_frq nmax frqs window values /\ holds p "velocity" r_vel nmax frqs window values /\
  holds p "azimuth" r_azi nmax frqs window values /\ holds p "ellipticity" r_ell nmax frqs window values /\
  holds p "noise" r_noi nmax frqs window values /\ holds p "power" r_pwr nmax frqs window values.

(** A list of texts without repetition, in order of first appearance. *)
Fixpoint firsts (l : list text) : list text :=
  match l with
  | [] => []
  | x :: t => x :: filter (fun y => negb (text_eqb x y)) (firsts t)
  end.
(** The lines of wave type [w]. *)
Definition of_wave (w : text) (es : list entry) : list entry := filter (fun e => text_eqb (e_wave e) w) es.
(** A name for the processing: PROCESS_TYPE in lower case, "rtbf" on vertical components being "capon". *)
Definition process_name (wf pt : caps) : text :=
  let low := lower (cap 1 pt) in
  if (text_eqb low (lit "rtbf") && match group 1 wf with Some t => text_eqb t (lit "Vertical") | None => false end)%bool
  then lit "capon" else low.
(** A number with [a] digits before the point and [b] after. *)
Definition fixed_point (a b : nat) (t : text) : Prop :=
  exists x y, t = x ++ ["."] ++ y /\ List.length x = a /\ List.length y = b /\ digits x /\ digits y.
(** The file starts with peaks of the vertical component only. *)
Definition detects_vertical (d : text) : Prop :=
  exists c t, search get_wavetype d = Some c /\ group 1 c = Some t /\ t = lit "Vertical".
Definition known (w : string) : Prop := In w ["rayleigh"; "love"; "vertical"; "radial"; "transverse"]%string.
