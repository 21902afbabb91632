(* Independent vocabulary for the properties of reading and writing files. *)
From Verif Require Import HeaderModel SeriesSpec ArraySpec NumFacts.

(** The scalars of the SEG-Y standard: zero (unset) or a signed power of ten. *)
Definition standard_scalar (s : Z) : Prop :=
  s = 0%Z \/ exists k, (0 <= k)%Z /\ (s = (10 ^ k)%Z \/ s = (- 10 ^ k)%Z).

(** The coordinate meant by integer [i] and scalar [s]. *)
Definition meant (i s : Z) : Qc :=
  if (0 <? s)%Z then QcZ (i * s) else if (s <? 0)%Z then (QcZ i / QcZ (- s))%Qc else QcZ i.

(** Value of an optional header field with a documented default. *)
Definition or_default {A} (f : field A) (d : A) : A :=
  match f with Value a => a | Missing => d | Unparsable => d end.

Definition su_like (h : header) (s : su_header) : Prop := h = Su s \/ h = Segy s.

(** Stack count recorded in a SU/SEGY header (unset means one). *)
Definition recorded_stacks (h : su_header) : Z :=
  match h_nstack h with Value 0%Z => 1%Z | Value n => n | _ => 1%Z end.
Definition recorded_delay (h : su_header) : Qc := (QcZ (or_default (h_delay h) 0%Z) / QcZ 1000)%Qc.
Definition recorded_scalar (h : su_header) : Z := or_default (h_scale h) 1%Z.

(** [x] is a whole number of units 1/[u]. *)
Definition whole (u : Z) (x : Qc) : Prop := exists i, x = (QcZ i / QcZ u)%Qc.

(** What one written sensor looks like when it is read back. *)
Definition read_back (s s' : sensor) : Prop :=
  sx s' = sx s /\ sy s' = sy s /\ sz s' = 0%Qc /\ amp (ser s') = amp (ser s) /\
  dt (ser s') = dt (ser s) /\ delay (ser s') = delay (ser s) /\
  nstacks (ser s') = nstacks (ser s) /\ multiple (ser s') = 1%Z.

(** [t] decodes to sensor [s] without coordinate maps. *)
Definition decodes (t : trace) (s : sensor) : Prop := from_trace t (fun x => x) (fun y => y) = Ok s.

(** A sensor with mapped coordinates. *)
Definition map_sensor (mx my : Qc -> Qc) (s : sensor) : sensor :=
  mkSensor (ser s) (mx (sx s)) (my (sy s)) (sz s).
Definition map_source (mx my : Qc -> Qc) (s : source) : source :=
  mkSource (mx (src_x s)) (my (src_y s)) (src_z s).

Definition same_place (s t : sensor) : Prop := sx s = sx t /\ sy s = sy t /\ sz s = sz t.

(** [x] rounded to the nearest millimetre (millisecond) differs by at most half a unit. *)
Definition half_unit : Qc := Q2Qc (1 # 2000).
Definition near_copy (s s' : sensor) : Prop :=
  (Qcabs (sx s' - sx s) <= half_unit)%Qc /\ (Qcabs (sy s' - sy s) <= half_unit)%Qc /\
  amp (ser s') = amp (ser s) /\
  (Qcabs (delay (ser s') - delay (ser s)) <= half_unit)%Qc /\
  (Qcabs (dt (ser s') - dt (ser s)) <= Q2Qc (1 # 2000000))%Qc.
(** The millimetre a coordinate is stored as. *)
Definition millimetre (x : Qc) : Z := round_half_even (x * QcZ 1000).
