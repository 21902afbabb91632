(* Files with a slowness of zero, or with more peaks than announced. *)
From Verif Require Import NumFacts MaxModel MaxSpec RegexProofs MaxProofs MaxFaultSpec.
Local Open Scope nat_scope.
Local Open Scope list_scope.

(** A computation that succeeds or fails in one way. *)
Definition either {A} (x : exn) (r : result A) : Prop := (exists a, r = Ok a) \/ r = Err x.
Lemma mapM_either {A B} (x : exn) (f : A -> result B) l : (forall a, In a l -> either x (f a)) -> either x (mapM f l).
Proof.
  induction l as [|a l IH]; intros H; cbn [mapM]; [left; eauto|].
  destruct (H a (or_introl eq_refl)) as [[b ->]| ->]; cbn [bind]; [|right; reflexivity].
  destruct IH as [[bs ->]| ->]; [intros; apply H; now right| |]; cbn [bind]; [left; eauto|right; reflexivity].
Qed.
Lemma mapM_fails {A B} (x : exn) (f : A -> result B) l a : (forall a, In a l -> either x (f a)) ->
  In a l -> f a = Err x -> mapM f l = Err x.
Proof.
  induction l as [|b l IH]; intros H I E; cbn [mapM]; [destruct I|].
  destruct (H b (or_introl eq_refl)) as [[c Q]|Q]; rewrite Q; cbn [bind]; [|reflexivity].
  destruct I as [->|I]; [rewrite Q in E; discriminate|].
  rewrite IH; auto. intros; apply H; now right.
Qed.

Definition value (t : text) : flt := match parse_float t with Ok v => v | Err _ => NaN end.
(** What a legible line says; nothing is asked of a slowness of zero. *)
Definition row_of (e : entry) : row_data :=
  mkRow (value (e_frq e)) (match value (e_slo e) with Fin s => Fin (1 / s)%Qc | x => x end)
        (value (e_azi e)) (value (e_ell e)) (value (e_noi e)) (value (e_pwr e)).
Lemma legible_reads e : legible e -> ~ zero_slowness e -> reads e (row_of e).
Proof.
  intros ((f & F) & (s & S) & (a & A) & (l & L) & (n & N) & (p & P)) Z.
  unfold reads, row_of, value; cbn [r_frq r_vel r_azi r_ell r_noi r_pwr]. rewrite F, S, A, L, N, P.
  split; [reflexivity|]. split; [|repeat split]. exists s. split; [reflexivity|]. split; [|reflexivity].
  intros ->. apply Z. exact S.
Qed.
Lemma zero_dec e : {zero_slowness e} + {~ zero_slowness e}.
Proof.
  unfold zero_slowness. destruct (parse_float (e_slo e)) as [[s| | |]|]; try (right; discriminate).
  destruct (Qceqb_spec s 0%Qc) as [->|N]; [left; reflexivity|right]. intros H. injection H as H. contradiction.
Defined.
Lemma read_zero n i e : legible e -> i < n -> zero_slowness e -> read_match n i (caps_line e) = Err ZeroDivisionError.
Proof.
  intros ((f & F) & _) Hi Z. unfold read_match.
  change (cap 2 (caps_line e)) with (e_frq e). change (cap 3 (caps_line e)) with (e_slo e).
  rewrite F. cbn [bind]. destruct (Nat.leb_spec n i); [lia|]. rewrite Z. cbn [bind]. unfold inverse.
  destruct (Qceqb_spec 0%Qc 0%Qc); [|contradiction]. reflexivity.
Qed.
Lemma read_beyond n i e : legible e -> n <= i -> read_match n i (caps_line e) = Err IndexError.
Proof.
  intros ((f & F) & _) Hi. unfold read_match. change (cap 2 (caps_line e)) with (e_frq e).
  rewrite F. cbn [bind]. destruct (Nat.leb_spec n i); [reflexivity|lia].
Qed.
Lemma enumerate_in {A} (l : list A) i a : In (i, a) (enumerate l) <-> nth_error l i = Some a.
Proof.
  unfold enumerate, range. split.
  - intros H. assert (G : forall k (l : list A) i a, In (i, a) (combine (seq k (List.length l)) l) -> k <= i /\ nth_error l (i - k) = Some a).
    { clear. intros k l. revert k. induction l as [|b l IH]; intros k i a H; cbn in H; [destruct H|].
      destruct H as [H|H]; [injection H as <- <-; split; [lia|]; now rewrite Nat.sub_diag|].
      apply IH in H as [H1 H2]. split; [lia|]. replace (i - k) with (S (i - S k)) by lia. exact H2. }
    apply G in H as [_ H]. now rewrite Nat.sub_0_r in H.
  - intros H. assert (G : forall k (l : list A) i a, nth_error l i = Some a -> In (k + i, a) (combine (seq k (List.length l)) l)).
    { clear. intros k l. revert k. induction l as [|b l IH]; intros k i a H; [destruct i; discriminate|].
      destruct i as [|i]; cbn in *; [left; injection H as ->; f_equal; lia|right].
      replace (k + S i) with (S k + i) by lia. apply IH. exact H. }
    apply (G 0 l i a H).
Qed.

Section Files.
  Context (header : text) (es : list entry) (w : string) (W : string) (cn wf pt : caps).
  Hypothesis Cv : check_version header = Ok tt.
  Hypothesis Sn : search get_nmaxima header = Some cn.
  Hypothesis Sp : search get_process_type header = Some pt.
  Hypothesis Sw : search get_wavetype (contents header es) = Some wf.
  Hypothesis V : validate_wavetypes (effective_wavetype w (group 1 wf)) = Ok W.
  Hypothesis H : header_ok (lit W) header.
  Hypothesis Eo : forall e, In e es -> entry_ok e.
  Hypothesis St : forall e, In e (of_wave (lit W) es) -> time_stands_out (e_time e) es /\ frequency_stands_out (e_frq e) es.
  Let n := clamp_nmaxima (cap 1 cn).
  Let w' := effective_wavetype w (group 1 wf).
  Let frqs := firsts (map e_frq (of_wave (lit W) es)).
  Let lines t f := at_frequency f (of_window t (lit W) es).

  (** The failure [x] that the lines of a window can cause. *)
  Context (x : exn) (bad : nat -> entry -> Prop).
  Hypothesis dec : forall i e, In e (of_wave (lit W) es) -> {bad i e} + {~ bad i e}.
  Hypothesis fails : forall i e, In e (of_wave (lit W) es) -> bad i e -> read_match n i (caps_line e) = Err x.
  Hypothesis holds : forall i e t f, nth_error (lines t f) i = Some e -> ~ bad i e -> i < n /\ reads e (row_of e).

  Lemma lines_wave t f e : In e (lines t f) -> In e (of_wave (lit W) es) /\ e_time e = t /\ e_frq e = f.
  Proof.
    unfold lines, at_frequency. intros I. apply filter_In in I as [I F].
    apply in_of_window in I as (I & T & X). split; [apply in_of_wave; auto|]. split; [exact T|].
    destruct (text_eqb_spec (e_frq e) f); [assumption|discriminate].
  Qed.
  Lemma window_wave t e : In e (of_window t (lit W) es) -> In e (of_wave (lit W) es).
  Proof. intros I. apply in_of_window in I as (I & T & X). apply in_of_wave; auto. Qed.

  Lemma column_matches t f : In t (map e_time (of_wave (lit W) es)) -> In f frqs ->
    read_column (contents header es) t w' n f
    = mapM (fun ic => read_match n (fst ic) (snd ic)) (enumerate (map caps_line (lines t f))).
  Proof.
    intros It If. apply in_map_iff in It as (e & <- & Ie). destruct (St e Ie) as [T _].
    apply firsts_in, in_map_iff in If as (e2 & <- & I2). destruct (St e2 I2) as [_ F].
    apply in_of_wave in Ie as [Ie _]. apply in_of_wave in I2 as [I2 _].
    destruct (Eo e Ie) as (Ut & _). destruct (Eo e2 I2) as (_ & Uf & _).
    unfold read_column. rewrite (number_pattern w' _ _ W V Ut Uf). cbn [bind].
    rewrite column_found by eauto using validate_name. unfold lines. now rewrite at_frequency_sel.
  Qed.
  Lemma match_either t f i e : nth_error (lines t f) i = Some e -> either x (read_match n i (caps_line e)).
  Proof.
    intros E. pose proof (nth_error_In _ _ E) as I. apply lines_wave in I as [I _].
    destruct (dec i e I) as [B|B]; [right; apply fails; auto|].
    left. exists (row_of e). destruct (holds i e t f E B). apply read_line; auto.
  Qed.
  Lemma enumerated t f i c : In (i, c) (enumerate (map caps_line (lines t f))) -> exists e, nth_error (lines t f) i = Some e /\ c = caps_line e.
  Proof.
    intros I. apply enumerate_in in I. rewrite nth_error_map in I. destruct (nth_error (lines t f) i) as [e|]; [|discriminate].
    cbn [option_map] in I. injection I as <-. eauto.
  Qed.
  Lemma column_either t f : In t (map e_time (of_wave (lit W) es)) -> In f frqs ->
    either x (read_column (contents header es) t w' n f).
  Proof.
    intros It If. rewrite column_matches by auto. apply mapM_either. intros [i c] I. cbn [fst snd].
    apply enumerated in I as (e & E & ->). eapply match_either; eauto.
  Qed.
  Lemma column_fails t f i e : In t (map e_time (of_wave (lit W) es)) -> In f frqs ->
    nth_error (lines t f) i = Some e -> bad i e -> read_column (contents header es) t w' n f = Err x.
  Proof.
    intros It If E B. rewrite column_matches by auto. apply (mapM_fails x _ _ (i, caps_line e)).
    - intros [j c] I. cbn [fst snd]. apply enumerated in I as (e2 & E2 & ->). eapply match_either; eauto.
    - apply enumerate_in. rewrite nth_error_map, E. reflexivity.
    - cbn [fst snd]. apply fails; auto. apply nth_error_In in E. apply lines_wave in E. tauto.
  Qed.
  Lemma bad_dec t : {exists f i e, nth_error (lines t f) i = Some e /\ bad i e} + {forall f i e, nth_error (lines t f) i = Some e -> ~ bad i e}.
  Proof.
    assert (L : forall (l : list entry) k, (forall e, In e l -> In e (of_wave (lit W) es)) ->
      {exists i e, nth_error l i = Some e /\ bad (k + i) e} + {forall i e, nth_error l i = Some e -> ~ bad (k + i) e}).
    { induction l as [|a l IH]; intros k Hl; [right; intros [|i]; discriminate|].
      destruct (dec k a) as [B|B]; [apply Hl; now left| |].
      - left. exists 0, a. rewrite Nat.add_0_r. auto.
      - destruct (IH (S k)) as [D|D]; [intros; apply Hl; now right| |].
        + left. destruct D as (i & e & E & D). exists (S i), e. split; [exact E|]. now rewrite Nat.add_succ_r.
        + right. intros [|i] e E; [injection E as <-; now rewrite Nat.add_0_r|]. rewrite Nat.add_succ_r. apply (D i e E). }
    assert (M : forall l, {exists f i e, In f l /\ nth_error (lines t f) i = Some e /\ bad i e}
                          + {forall f i e, In f l -> nth_error (lines t f) i = Some e -> ~ bad i e}).
    { induction l as [|f l IH]; [right; intros f i e []|].
      destruct (L (lines t f) 0) as [D|D]; [intros e I; apply lines_wave in I; tauto| |].
      - left. destruct D as (i & e & D). exists f, i, e. split; [now left|exact D].
      - destruct IH as [D2|D2]; [left; destruct D2 as (g & i & e & I & D2); exists g, i, e; split; [now right|exact D2]|].
        right. intros g i e [<-|I]; [apply (D i e)|apply D2; exact I]. }
    destruct (M frqs) as [D|D]; [left; destruct D as (f & i & e & _ & D); eauto|right].
    intros f i e E. apply (D f i e); auto. apply nth_error_In in E. apply lines_wave in E as (I & _ & <-).
    apply firsts_in, in_map. exact I.
  Qed.
  Lemma window_either t : In t (map e_time (of_wave (lit W) es)) ->
    either x (parse_peaks (contents header es) w' (Some t) (Some frqs) (Some n)).
  Proof.
    intros It. assert (Ew : effective_wavetype w' (group 1 wf) = w') by exact (effective_again _ _ W V).
    destruct (bad_dec t) as [D|D].
    - right. destruct D as (f & i & e & E & B).
      unfold parse_peaks. rewrite Sw, (search_header get_process_type header es pt) by auto. cbn [groups bind]. rewrite Ew.
      rewrite (mapM_fails x _ _ f); [reflexivity| | |].
      + intros g Ig. apply column_either; auto.
      + pose proof (nth_error_In _ _ E) as I. apply lines_wave in I as (I & _ & <-). apply firsts_in, in_map. exact I.
      + apply (column_fails t f i e); auto. pose proof (nth_error_In _ _ E) as I. apply lines_wave in I as (I & _ & <-). apply firsts_in, in_map. exact I.
    - left. destruct (parse_window header es w' W t frqs n row_of wf pt) as (p & P & _); eauto.
      + now apply search_header.
      + now rewrite Ew.
      + intros e I. assert (J : In e (lines t (e_frq e))) by (unfold lines, at_frequency; apply filter_In; split; [exact I|apply text_eqb_refl]).
        apply In_nth_error in J as (i & E). apply (holds i e t (e_frq e) E). apply (D (e_frq e)). exact E.
      + apply in_map_iff in It as (e & <- & Ie). apply in_of_wave in Ie as [Ie _]. apply (Eo e Ie).
      + apply in_map_iff in It as (e & <- & Ie). apply (St e Ie).
      + apply firsts_nodup.
      + intros f If. apply firsts_in, in_map_iff in If. destruct If as (e2 & <- & I2). destruct (St e2 I2) as [_ Fs]. split; auto.
        apply in_of_wave in I2. apply (Eo e2), I2.
      + intros e I. apply firsts_in, in_map. eapply window_wave; eauto.
      + intros f If. destruct (lines t f) as [|a l] eqn:El; [unfold lines in El; rewrite El; cbn; lia|].
        fold (lines t f). assert (Hl : exists e, nth_error (lines t f) (List.length (lines t f) - 1) = Some e).
        { destruct (nth_error (lines t f) (List.length (lines t f) - 1)) eqn:Q; [eauto|]. apply nth_error_None in Q. rewrite El in Q. cbn in Q. lia. }
        destruct Hl as (e & E). destruct (holds _ e t f E (D f _ e E)). rewrite El in *. cbn [List.length] in *. lia.
  Qed.
  Lemma file_fails t f i e : nth_error (lines t f) i = Some e -> bad i e ->
    read_file (contents header es) w = (w', Err x).
  Proof.
    intros E B. unfold read_file.
    assert (Ev : check_version (contents header es) = Ok tt).
    { unfold check_version in *. destruct (search get_geopsy_version header) as [c|] eqn:Q; [|discriminate].
      now rewrite (search_header _ _ _ c) by auto. }
    rewrite Ev, Sw, (search_header get_nmaxima header es cn) by auto. cbn [groups bind]. fold w' n.
    assert (V' : validate_wavetypes w' = Ok W) by exact V. unfold get_peak_from_max at 1. rewrite V'. cbn [as_pattern bind].
    rewrite (window_found W header es) by eauto using validate_name. fold (of_wave (lit W) es).
    rewrite map_cap1, map_cap2, !firsts_distinct. fold frqs.
    pose proof (nth_error_In _ _ E) as I. apply lines_wave in I as (I & Et & Ef).
    rewrite (mapM_fails x _ _ t); [reflexivity| | |].
    - intros u Iu. apply window_either. apply firsts_in. exact Iu.
    - apply firsts_in. rewrite <- Et. apply in_map. exact I.
    - assert (It : In t (map e_time (of_wave (lit W) es))) by (rewrite <- Et; now apply in_map).
      assert (If : In f frqs) by (rewrite <- Ef; now apply firsts_in, in_map).
      unfold parse_peaks. rewrite Sw, (search_header get_process_type header es pt) by auto. cbn [groups bind].
      assert (Ew : effective_wavetype w' (group 1 wf) = w') by exact (effective_again _ _ W V). rewrite Ew.
      rewrite (mapM_fails x _ _ f); [reflexivity| |exact If|].
      + intros g Ig. apply column_either; auto.
      + apply (column_fails t f i e); auto.
  Qed.
End Files.
