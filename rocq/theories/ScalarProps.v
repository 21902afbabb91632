(* C12 for every coordinate scalar. *)
From Verif Require Import NumFacts SeriesModel ArrayModel HeaderModel HeaderSpec ScalarSpec ScalarProofs.

(** Receivers of a SU or SEGY trace, any scalar: the coordinates are rounded to the power of ten of the scalar's
    leading digit; y comes from the x field unless the scalar is negative. *)
Theorem C12_receiver_any_scalar : forall tr h mx my s,
  su_like (t_header tr) h -> from_trace tr mx my = Ok s ->
  exists u x y, decade_of (recorded_scalar h) u /\
    nearest_multiple u (meant (or_default (h_gx h) 0%Z) (recorded_scalar h)) x /\
    nearest_multiple u (meant (or_default (if (recorded_scalar h <? 0)%Z then h_gy h else h_gx h) 0%Z) (recorded_scalar h)) y /\
    sx s = mx x /\ sy s = my y /\ sz s = 0%Qc.
Proof. exact receiver_all. Qed.
Print Assumptions C12_receiver_any_scalar.

(** The source: the same; in a SEGY file the scalar 0 is refused. *)
Theorem C12_source_any_scalar : forall f tr h mx my sc ix iy,
  (f = F_su /\ t_header tr = Su h) \/ (f = F_segy /\ t_header tr = Segy h /\ sc <> 0%Z) ->
  h_scale h = Value sc -> h_sx h = Value ix -> h_sy h = Value iy ->
  h_units h = Value 0%Z \/ h_units h = Value 1%Z ->
  exists u x y, decade_of sc u /\ nearest_multiple u (meant ix sc) x /\ nearest_multiple u (meant iy sc) y /\
    parse_source f mx my tr = Ok (mkSource (mx x) (my y) 0%Qc).
Proof. exact source_all. Qed.
Print Assumptions C12_source_any_scalar.

Theorem C12_segy_zero_scalar : forall tr h mx my,
  t_header tr = Segy h -> h_scale h = Value 0%Z -> h_units h = Value 0%Z \/ h_units h = Value 1%Z ->
  (exists ix, h_sx h = Value ix) -> parse_source F_segy mx my tr = Err OverflowError.
Proof. exact segy_zero. Qed.
Print Assumptions C12_segy_zero_scalar.

(** So the coordinate read is the one meant exactly if that is a multiple of the power of
    ten; unit and rounded value are unique. *)
Theorem C12_exact : forall s u v x, decade_of s u -> nearest_multiple u v x ->
  (x = v <-> exists k, v = (QcZ k * u)%Qc) /\
  (forall u', decade_of s u' -> u' = u) /\ (forall y, nearest_multiple u v y -> y = x).
Proof.
  intros s u v x D Nm. pose proof (decade_pos s u D) as P. split; [apply nearest_exact; auto|].
  split; [intros u' D'; apply (decade_unique s); auto|]. intros y H. apply (nearest_unique u v); auto.
Qed.
Print Assumptions C12_exact.

(** 7 times 25 is 175, read as 180; 12 divided by 25 is 0.48, read as 0.5. *)
Example C12_any_scalar_example :
  (exists x u, scaled 7 7 25 = Ok x /\ decade_of 25 u /\ x = QcZ 180 /\ meant 7 25 = QcZ 175) /\
  (exists x u, scaled 12 12 (-25) = Ok x /\ decade_of (-25) u /\ x = Q2Qc (1 # 2) /\ meant 12 (-25) = Q2Qc (12 # 25)).
Proof.
  split; eexists _, _; split; try reflexivity; split.
  - right. exists 1%Z. split; [lia|]. split; [cbn; lia|reflexivity].
  - split; apply Qc_is_canon; vm_compute; reflexivity.
  - right. exists 1%Z. split; [lia|]. split; [cbn; lia|reflexivity].
  - split; apply Qc_is_canon; vm_compute; reflexivity.
Qed.
