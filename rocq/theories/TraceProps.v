(* Property C96: the arguments of the trace readers. *)
From Verif Require Import PyFacts NumFacts TraceModel.
Local Open Scope string_scope.

(** [f] spells [g] without regard to case. *)
Definition spells (f g : string) : Prop := upper f = g.
Example spells_example : spells "Seg2" "SEG2" /\ spells "su" "SU".
Proof. split; reflexivity. Qed.

(** A trace whose header is that of its own format, as obspy returns it. *)
Definition decoded (tr : obspy_trace) (t : trace) : Prop :=
  t_data t = o_data tr /\ t_delta t = o_delta tr /\
  match t_header t with
  | Seg2 h => exists f, s_format (o_stats tr) = Some f /\ spells f "SEG2" /\ s_seg2 (o_stats tr) = Some h
  | Su h => exists f, s_format (o_stats tr) = Some f /\ spells f "SU" /\ s_su (o_stats tr) = Some h
  | Segy h => exists f, s_format (o_stats tr) = Some f /\ spells f "SEGY" /\ s_segy (o_stats tr) = Some h
  | OtherFormat => exists f, s_format (o_stats tr) = Some f /\ ~ spells f "SEG2" /\ ~ spells f "SU" /\ ~ spells f "SEGY"
  | NoFormat => s_format (o_stats tr) = None
  end.

Lemma sensor_su_same tr f h mx my t : s_format (o_stats tr) = Some f -> t_data t = o_data tr -> t_delta t = o_delta tr ->
  sensor_su tr (Some h) mx my = from_trace_su t h mx my.
Proof.
  intros F D L. unfold sensor_su, from_trace_su, sensor_plain, from_trace_plain, format_of. rewrite F, D, L. cbn [bind].
  destruct (scaled _ _ _); cbn [bind]; [|reflexivity]. destruct (scaled _ _ _); reflexivity.
Qed.
Lemma sensor_seg2_same tr f h mx my t : s_format (o_stats tr) = Some f -> s_seg2 (o_stats tr) = Some h -> t_data t = o_data tr -> t_delta t = o_delta tr ->
  sensor_seg2 tr mx my = from_trace_seg2 t h mx my.
Proof. intros F H D L. unfold sensor_seg2, from_trace_seg2, sensor_plain, from_trace_plain, format_of. now rewrite H, F, D, L. Qed.

(** Without a format, a trace is read by the header of its own format, in whatever case it is
    spelt: exactly as the readers of whole files do (C12, C14). *)
Theorem C96_own_format : forall tr t mx my ns de x y z, decoded tr t ->
  sensor_from_trace tr true mx my ns de x y z None = from_trace t mx my.
Proof.
  intros tr t mx my ns de x y z (D & L & H). unfold sensor_from_trace, from_trace, format_of.
  destruct (t_header t) as [h|h|h| |]; [destruct H as (f & F & S & G)..| |].
  - rewrite F. cbn [bind]. rewrite S. cbn [String.eqb]. now apply (sensor_seg2_same tr f).
  - rewrite F. cbn [bind]. rewrite S. cbn [String.eqb]. rewrite G. now apply (sensor_su_same tr f).
  - rewrite F. cbn [bind]. rewrite S. cbn [String.eqb]. rewrite G. now apply (sensor_su_same tr f).
  - destruct H as (f & F & N1 & N2 & N3). rewrite F. cbn [bind]. unfold spells in *.
    destruct (String.eqb_spec (upper f) "SEG2"); [contradiction|]. destruct (String.eqb_spec (upper f) "SU"); [contradiction|].
    destruct (String.eqb_spec (upper f) "SEGY"); [contradiction|]. reflexivity.
  - rewrite H. reflexivity.
Qed.
Print Assumptions C96_own_format.

(** A format given by the caller takes precedence over the trace's own, which must however be
    there. *)
Theorem C96_given_format : forall tr own f mx my ns de x y z, s_format (o_stats tr) = Some own ->
  (forall h, spells f "SEG2" -> s_seg2 (o_stats tr) = Some h ->
     sensor_from_trace tr true mx my ns de x y z (Some f) = from_trace (mkTrace (o_data tr) (o_delta tr) (Seg2 h)) mx my)
  /\ (forall h, spells f "SU" -> s_su (o_stats tr) = Some h ->
     sensor_from_trace tr true mx my ns de x y z (Some f) = from_trace (mkTrace (o_data tr) (o_delta tr) (Su h)) mx my)
  /\ (forall h, spells f "SEGY" -> s_segy (o_stats tr) = Some h ->
     sensor_from_trace tr true mx my ns de x y z (Some f) = from_trace (mkTrace (o_data tr) (o_delta tr) (Segy h)) mx my)
  /\ ((spells f "SEG2" /\ s_seg2 (o_stats tr) = None) \/ (spells f "SU" /\ s_su (o_stats tr) = None) \/ (spells f "SEGY" /\ s_segy (o_stats tr) = None) ->
     sensor_from_trace tr true mx my ns de x y z (Some f) = Err AttributeError).
Proof.
  intros tr own f mx my ns de x y z O. unfold sensor_from_trace, from_trace, format_of. cbn [bind t_header]. repeat split.
  - intros h S G. rewrite S. cbn [String.eqb]. now apply (sensor_seg2_same tr own).
  - intros h S G. rewrite S. cbn [String.eqb]. rewrite G. now apply (sensor_su_same tr own).
  - intros h S G. rewrite S. cbn [String.eqb]. rewrite G. now apply (sensor_su_same tr own).
  - intros [[S G]|[[S G]|[S G]]]; rewrite S; cbn [String.eqb]; unfold sensor_seg2, sensor_su; now rewrite G.
Qed.
Print Assumptions C96_given_format.
Theorem C96_unknown_format : forall tr f mx my ns de x y z, ~ spells f "SEG2" -> ~ spells f "SU" -> ~ spells f "SEGY" ->
  sensor_from_trace tr true mx my ns de x y z (Some f) = Err NotImplementedError.
Proof.
  intros tr f mx my ns de x y z N1 N2 N3. unfold sensor_from_trace, format_of, spells in *. cbn [bind].
  destruct (String.eqb_spec (upper f) "SEG2"); [contradiction|]. destruct (String.eqb_spec (upper f) "SU"); [contradiction|].
  destruct (String.eqb_spec (upper f) "SEGY"); [contradiction|]. reflexivity.
Qed.
Print Assumptions C96_unknown_format.

(** For a trace without a format of its own, giving the format does not help: reading its
    header always fails, although the argument is there for such traces. *)
Theorem C96_no_own_format_refuted : forall tr mx my ns de x y z format, s_format (o_stats tr) = None ->
  exists e, sensor_from_trace tr true mx my ns de x y z format = Err e.
Proof.
  intros tr mx my ns de x y z format N. unfold sensor_from_trace.
  assert (P : forall ns de x y z, sensor_plain tr None ns de x y z = Err ValueError) by (intros; unfold sensor_plain, format_of; now rewrite N).
  assert (Q : forall hdr, exists e, sensor_su tr hdr mx my = Err e).
  { intros [h|]; cbn [sensor_su]; [|eauto]. destruct (scaled _ _ _); cbn [bind]; [|eauto]. destruct (scaled _ _ _); cbn [bind]; [|eauto]. rewrite P. eauto. }
  destruct (format_of format tr) as [f|e]; cbn [bind]; [|eauto].
  destruct (String.eqb f "SEG2"). { unfold sensor_seg2. destruct (s_seg2 _); [|eauto]. rewrite P. eauto. }
  destruct (String.eqb f "SU"); [apply Q|]. destruct (String.eqb f "SEGY"); [apply Q|]. eauto.
Qed.
Print Assumptions C96_no_own_format_refuted.
Definition some_header := mkSu Missing (Value (-1000)%Z) (Value 0%Z) (Value 0%Z) (Value 2000%Z) (Value 0%Z) (Value 1%Z) (Value 0%Z).
Definition nameless := mkObspy [0%Qc; 1%Qc] (Q2Qc (1 # 10)) (mkStats None None (Some some_header) None).
Definition named_trace := mkObspy [0%Qc; 1%Qc] (Q2Qc (1 # 10)) (mkStats (Some "sac") None (Some some_header) None).
Example C96_format_example :
  sensor_from_trace nameless true (fun x => x) (fun x => x) 1 0%Qc 0%Qc 0%Qc 0%Qc (Some "SU") = Err ValueError /\
  match sensor_from_trace named_trace true (fun x => x) (fun x => x) 1 0%Qc 0%Qc 0%Qc 0%Qc (Some "SU") with
  | Ok s => Qceqb (sx s) (QcZ 2) | Err _ => false end = true.
Proof. split; [|vm_compute]; reflexivity. Qed.

(** Without reading the header the sensor holds the samples and time step of the trace and
    what the caller gives; the header is not looked at. *)
Theorem C96_arguments : forall tr mx my ns de x y z format, (format <> None \/ s_format (o_stats tr) <> None) ->
  (0 < ns)%Z -> (de <= 0)%Qc ->
  sensor_from_trace tr false mx my ns de x y z format = Ok (mkSensor (mkSeries (o_data tr) (o_delta tr) ns de 1) x y z).
Proof.
  intros tr mx my ns de x y z format F N D. unfold sensor_from_trace.
  assert (E : exists f, format_of format tr = Ok f).
  { unfold format_of. destruct format; [eauto|]. destruct (s_format _); [eauto|]. destruct F; congruence. }
  destruct E as (f & ->). cbn [bind]. unfold new_sensor, new_series. destruct (Z.leb_spec ns 0); [lia|].
  destruct (Qcltb 0%Qc de) eqn:Q; [|reflexivity]. apply Qcltb_lt in Q. exfalso. apply (Qclt_not_le _ _ Q D).
Qed.
Print Assumptions C96_arguments.
Theorem C96_bad_arguments : forall tr mx my ns de x y z format,
  (format = None /\ s_format (o_stats tr) = None) \/ (ns <= 0)%Z \/ (0 < de)%Qc ->
  sensor_from_trace tr false mx my ns de x y z format = Err ValueError.
Proof.
  intros tr mx my ns de x y z format H. unfold sensor_from_trace. destruct (format_of format tr) as [f|e] eqn:F; cbn [bind].
  - destruct H as [[-> H]|H]; [unfold format_of in F; rewrite H in F; discriminate|]. unfold new_sensor, new_series.
    destruct (Z.leb_spec ns 0); [reflexivity|]. destruct H as [H|H]; [lia|]. apply Qcltb_lt in H. now rewrite H.
  - unfold format_of in F. destruct format; [discriminate|]. destruct (s_format _); [discriminate|]. now injection F as <-.
Qed.
Print Assumptions C96_bad_arguments.

(** A series is read from a SEG2 trace with the stack count and delay of its header; if one of
    them is missing or no number, reading fails, while a sensor takes 1 and 0. *)
Theorem C96_series : forall tr h, s_seg2 (o_stats tr) = Some h ->
  (forall ns de, g_stack h = Value ns -> g_delay h = Value de -> (0 < ns)%Z -> (de <= 0)%Qc ->
     series_from_seg2 tr = Ok (mkSeries (o_data tr) (o_delta tr) ns de 1)
     /\ forall own mx my, s_format (o_stats tr) = Some own -> exists s,
          sensor_from_trace tr true mx my 1 0%Qc 0%Qc 0%Qc 0%Qc (Some "SEG2") = Ok s /\ Ok (ser s) = series_from_seg2 tr)
  /\ (g_stack h = Missing -> series_from_seg2 tr = Err AttributeError)
  /\ (g_stack h = Unparsable -> series_from_seg2 tr = Err ValueError)
  /\ (forall ns, g_stack h = Value ns -> g_delay h = Missing -> series_from_seg2 tr = Err AttributeError)
  /\ (forall ns, g_stack h = Value ns -> g_delay h = Unparsable -> series_from_seg2 tr = Err ValueError).
Proof.
  intros tr h H. unfold series_from_seg2. rewrite H.
  assert (K : forall ns de, (0 < ns)%Z -> (de <= 0)%Qc -> forall a d, new_series a d ns de = Ok (mkSeries a d ns de 1)).
  { intros ns de N D a d. unfold new_series. destruct (Z.leb_spec ns 0); [lia|]. destruct (Qcltb 0%Qc de) eqn:Q; [|reflexivity]. apply Qcltb_lt in Q. exfalso. apply (Qclt_not_le _ _ Q D). }
  split; [|repeat split].
  - intros ns de S D N M. rewrite S, D. cbn [attr_get bind]. unfold series_from_trace. rewrite K by auto. split; [reflexivity|].
    intros own mx my O. unfold sensor_from_trace, format_of. cbn [bind upper upper_ascii]. cbn. unfold sensor_seg2, sensor_plain, format_of. rewrite H, O, S, D. cbn [bind safely_get].
    unfold new_sensor. rewrite K by auto. cbn [bind]. eexists. split; reflexivity.
  - intros ->. reflexivity.
  - intros ->. reflexivity.
  - intros ns -> ->. reflexivity.
  - intros ns -> ->. reflexivity.
Qed.
Print Assumptions C96_series.
Definition seg2_trace := mkObspy [0%Qc; 1%Qc] (Q2Qc (1 # 10)) (mkStats (Some "SEG2") (Some (mkSeg2 (Value 3%Z) (Value (Q2Qc (-1 # 2))) (Value (QcZ 4)) Missing)) None None).
Example C96_series_example : match series_from_seg2 seg2_trace with Ok s => nstacks s | Err _ => 0%Z end = 3%Z.
Proof. vm_compute. reflexivity. Qed.
Theorem C96_series_no_header : forall tr, s_seg2 (o_stats tr) = None -> series_from_seg2 tr = Err AttributeError.
Proof. intros tr H. unfold series_from_seg2. now rewrite H. Qed.
Print Assumptions C96_series_no_header.

(** The spellings that are taken for a format: each letter may be written small, everything
    else has to be as it is. *)
Definition letter_pairs : list (ascii * ascii) :=
  [("A", "a"); ("B", "b"); ("C", "c"); ("D", "d"); ("E", "e"); ("F", "f"); ("G", "g"); ("H", "h"); ("I", "i");
   ("J", "j"); ("K", "k"); ("L", "l"); ("M", "m"); ("N", "n"); ("O", "o"); ("P", "p"); ("Q", "q"); ("R", "r");
   ("S", "s"); ("T", "t"); ("U", "u"); ("V", "v"); ("W", "w"); ("X", "x"); ("Y", "y"); ("Z", "z")]%char.
Inductive variant : string -> string -> Prop :=
| VEnd : variant "" ""
| VSame c s t : ~ In c (map snd letter_pairs) -> variant s t -> variant (String c s) (String c t)
| VSmall c d s t : In (c, d) letter_pairs -> variant s t -> variant (String d s) (String c t).
Lemma upper_small c d : In (c, d) letter_pairs -> upper_ascii d = c.
Proof. intros H. cbn in H. repeat destruct H as [H|H]; try contradiction; injection H as <- <-; reflexivity. Qed.
Lemma upper_cases d : (~ In d (map snd letter_pairs) /\ upper_ascii d = d) \/ In (upper_ascii d, d) letter_pairs.
Proof.
  destruct d as [[|] [|] [|] [|] [|] [|] [|] [|]];
    first [ right; cbv; repeat first [left; reflexivity | right]; fail
          | left; split; [cbv; intuition discriminate|reflexivity] ].
Qed.
Theorem C96_spelling : forall f g, spells f g <-> variant f g.
Proof.
  unfold spells. split.
  - revert g. induction f as [|d f IH]; intros g <-; cbn [upper]; [constructor|].
    destruct (upper_cases d) as [[N ->]|I]; [apply VSame; auto|apply VSmall; auto].
  - induction 1 as [|c s t N _ IH|c d s t I _ IH]; cbn [upper]; [reflexivity| |].
    + rewrite IH. destruct (upper_cases c) as [[_ ->]|I]; [reflexivity|]. exfalso. apply N. apply (in_map snd) in I. exact I.
    + rewrite IH, (upper_small c d I). reflexivity.
Qed.
Print Assumptions C96_spelling.
Example C96_spelling_example : spells "seGy" "SEGY" /\ ~ spells "segy " "SEGY" /\ ~ spells "{" "[".
Proof. unfold spells. cbn. repeat split; discriminate. Qed.
