(* C50: files that cannot be read, and letters of process names. *)
From Verif Require Import NumFacts MaxModel MaxSpec RegexProofs MaxProofs MaxProps MaxNumberSpec MaxFaultSpec MaxFaultProofs.
Local Open Scope nat_scope.
Local Open Scope list_scope.

(** A slowness of zero on any line of the wave type, in whatever window, makes reading the whole
    file a ZeroDivisionError: no window is returned. *)
Theorem C50_zero_slowness : forall header es w W cn wf pt,
  check_version header = Ok tt -> search get_nmaxima header = Some cn -> search get_process_type header = Some pt ->
  search get_wavetype (contents header es) = Some wf ->
  validate_wavetypes (effective_wavetype w (group 1 wf)) = Ok W ->
  header_ok (lit W) header -> (forall e, In e es -> entry_ok e) ->
  (forall e, In e (of_wave (lit W) es) -> legible e) ->
  (forall e, In e (of_wave (lit W) es) -> time_stands_out (e_time e) es /\ frequency_stands_out (e_frq e) es) ->
  (forall t f, List.length (at_frequency f (of_window t (lit W) es)) <= clamp_nmaxima (cap 1 cn)) ->
  (exists e, In e (of_wave (lit W) es) /\ zero_slowness e) ->
  read_file (contents header es) w = (effective_wavetype w (group 1 wf), Err ZeroDivisionError).
Proof.
  intros header es w W cn wf pt Cv Sn Sp Sw V H Eo Lg St Cnt (e & I & Z).
  assert (J : In e (at_frequency (e_frq e) (of_window (e_time e) (lit W) es))).
  { unfold at_frequency. apply filter_In. split; [|apply text_eqb_refl]. apply in_of_window. apply in_of_wave in I. tauto. }
  apply In_nth_error in J as (i & E).
  apply (file_fails header es w W cn wf pt Cv Sn Sp Sw V H Eo St ZeroDivisionError
           (fun i e => i < clamp_nmaxima (cap 1 cn) /\ zero_slowness e)) with (t := e_time e) (f := e_frq e) (i := i) (e := e); auto.
  - intros j e2 _. destruct (lt_dec j (clamp_nmaxima (cap 1 cn))); [destruct (zero_dec e2); [left; auto|right; tauto]|right; tauto].
  - intros j e2 I2 [Hj Z2]. apply read_zero; auto.
  - intros j e2 t f E2 B. assert (Hj : j < clamp_nmaxima (cap 1 cn)).
    { pose proof (proj1 (nth_error_Some (at_frequency f (of_window t (lit W) es)) j)) as Q. rewrite E2 in Q.
      specialize (Q ltac:(discriminate)). specialize (Cnt t f). lia. }
    split; [exact Hj|]. apply legible_reads; [|tauto]. apply Lg.
    apply nth_error_In in E2. unfold at_frequency in E2. apply filter_In in E2 as [E2 _]. apply in_of_window in E2. apply in_of_wave. tauto.
  - split; [|exact Z]. assert (Q : i < List.length (at_frequency (e_frq e) (of_window (e_time e) (lit W) es))) by (apply nth_error_Some; rewrite E; discriminate).
    specialize (Cnt (e_time e) (e_frq e)). lia.
Qed.
Print Assumptions C50_zero_slowness.

(** More peaks at one time and frequency than the header announces: an IndexError. *)
Theorem C50_too_many : forall header es w W cn wf pt,
  check_version header = Ok tt -> search get_nmaxima header = Some cn -> search get_process_type header = Some pt ->
  search get_wavetype (contents header es) = Some wf ->
  validate_wavetypes (effective_wavetype w (group 1 wf)) = Ok W ->
  header_ok (lit W) header -> (forall e, In e es -> entry_ok e) ->
  (forall e, In e (of_wave (lit W) es) -> legible e /\ ~ zero_slowness e) ->
  (forall e, In e (of_wave (lit W) es) -> time_stands_out (e_time e) es /\ frequency_stands_out (e_frq e) es) ->
  (exists t f, clamp_nmaxima (cap 1 cn) < List.length (at_frequency f (of_window t (lit W) es))) ->
  read_file (contents header es) w = (effective_wavetype w (group 1 wf), Err IndexError).
Proof.
  intros header es w W cn wf pt Cv Sn Sp Sw V H Eo Lg St (t & f & L).
  destruct (nth_error (at_frequency f (of_window t (lit W) es)) (clamp_nmaxima (cap 1 cn))) as [e|] eqn:E.
  2:{ apply nth_error_None in E. lia. }
  apply (file_fails header es w W cn wf pt Cv Sn Sp Sw V H Eo St IndexError
           (fun i e => clamp_nmaxima (cap 1 cn) <= i)) with (t := t) (f := f) (i := clamp_nmaxima (cap 1 cn)) (e := e); auto.
  - intros j e2 _. apply le_dec.
  - intros j e2 I2 Hj. apply read_beyond; auto. apply Lg. exact I2.
  - intros j e2 t2 f2 E2 B. split; [lia|].
    assert (I2 : In e2 (of_wave (lit W) es)).
    { apply nth_error_In in E2. unfold at_frequency in E2. apply filter_In in E2 as [E2 _]. apply in_of_window in E2. apply in_of_wave. tauto. }
    destruct (Lg e2 I2). apply legible_reads; auto.
Qed.
Print Assumptions C50_too_many.

Definition window_of (l : list entry) : Prop :=
  (forall e, In e l -> entry_ok e) /\
  (forall e, In e (of_wave (lit "Rayleigh") l) -> time_stands_out (e_time e) l /\ frequency_stands_out (e_frq e) l).
Lemma window_check l : forallb entry_b l = true -> forallb (fun e => fixed_b 2 1 (e_time e) && fixed_b 2 1 (e_frq e))%bool l = true -> window_of l.
Proof.
  intros A B. split; [apply (forall_check _ entry_b); [apply entry_check|exact A]|].
  intros e I. apply in_of_wave in I as [I _]. revert e I. rewrite forallb_forall in B. apply (C50_fixed_width 2 1); intros e I; specialize (B e I);
    apply andb_true_iff in B as [B1 B2]; eauto using fixed_check.
Qed.
Definition resting : list entry := [peak "05.0" "10.5" "Rayleigh" "0.002" "0"; peak "15.0" "10.5" "Rayleigh" "0.00" "inf"].
Definition crowded : list entry :=
  [peak "15.0" "10.5" "Rayleigh" "0.002" "0"; peak "05.0" "10.5" "Rayleigh" "0.004" "0"; peak "05.0" "10.5" "Rayleigh" "0.005" "0";
   peak "05.0" "10.5" "Love" "0.004" "0"; peak "05.0" "10.5" "Rayleigh" "0.006" "0"].
Lemma peak_legible t f w s noise a b c : parse_float (lit f) = Ok a -> parse_float (lit s) = Ok (Fin b) -> parse_float (lit noise) = Ok c ->
  legible (peak t f w s noise).
Proof.
  intros A B C. unfold legible, peak; cbn [e_frq e_slo e_azi e_ell e_noi e_pwr].
  split; [eauto|]. split; [eauto|]. split; [eexists; reflexivity|]. split; [eexists; reflexivity|]. split; [eauto|]. eexists; reflexivity.
Qed.
Lemma peak_moves t f w s noise q : parse_float (lit s) = Ok (Fin q) -> Qceqb q 0%Qc = false -> ~ zero_slowness (peak t f w s noise).
Proof.
  intros E N Z. unfold zero_slowness, peak in Z; cbn [e_slo] in Z. rewrite E in Z. injection Z as ->. vm_compute in N. discriminate.
Qed.
Example C50_zero_example : window_of resting /\ (forall e, In e (of_wave (lit "Rayleigh") resting) -> legible e)
  /\ (forall t f, List.length (at_frequency f (of_window t (lit "Rayleigh") resting)) <= 2)
  /\ (exists e, In e (of_wave (lit "Rayleigh") resting) /\ zero_slowness e)
  /\ snd (read_file (contents sample_header resting) "rayleigh") = Err ZeroDivisionError.
Proof.
  split; [apply window_check; vm_compute; reflexivity|]. split.
  { intros e I. apply in_of_wave in I as [I _]. destruct I as [<-|[<-|[]]]; eapply peak_legible; reflexivity. }
  split.
  { intros t f. unfold at_frequency, of_window.
    assert (L : forall (p : entry -> bool) l, List.length (filter p l) <= List.length l).
    { intros p l. induction l as [|a l IH]; cbn; [lia|]. destruct (p a); cbn; lia. }
    etransitivity; [apply L|]. apply (L _ resting). }
  split; [|vm_compute; reflexivity].
  exists (peak "15.0" "10.5" "Rayleigh" "0.00" "inf"). split; [right; left; reflexivity|].
  unfold zero_slowness. cbn [peak e_slo]. transitivity (Ok (Fin (scale10 0 (-2)))); [reflexivity|].
  apply f_equal, f_equal. apply Qceqb_eq. vm_compute. reflexivity.
Qed.
Example C50_many_example : window_of crowded /\ (forall e, In e (of_wave (lit "Rayleigh") crowded) -> legible e /\ ~ zero_slowness e)
  /\ 2 < List.length (at_frequency (lit "10.5") (of_window (lit "05.0") (lit "Rayleigh") crowded))
  /\ snd (read_file (contents sample_header crowded) "rayleigh") = Err IndexError.
Proof.
  split; [apply window_check; vm_compute; reflexivity|]. split.
  { intros e I. apply in_of_wave in I as [I _]. destruct I as [<-|[<-|[<-|[<-|[<-|[]]]]]];
      (split; [eapply peak_legible; reflexivity|eapply peak_moves; [reflexivity|vm_compute; reflexivity]]). }
  split; [vm_compute; lia|vm_compute; reflexivity].
Qed.

(** The name of the processing in the identifiers has every capital letter made small and
    everything else left alone. *)
Theorem C50_small_letters : forall t, Forall2 made_small t (lower t).
Proof.
  assert (C : forall a, made_small a (lower_char a)).
  { intros a. destruct a as [[|] [|] [|] [|] [|] [|] [|] [|]];
      first [ left; cbv; repeat first [left; reflexivity | right]; fail
            | right; split; [reflexivity|cbv; intuition discriminate] ]. }
  induction t as [|a t IH]; constructor; auto.
Qed.
Print Assumptions C50_small_letters.
Example C50_small_example : lower (lit "RTbf-2@[Z") = lit "rtbf-2@[z".
Proof. reflexivity. Qed.
