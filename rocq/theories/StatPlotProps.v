From Verif Require Import StatPlotModel StatPlotSpec StatPlotProofs.
Local Open Scope string_scope.
Local Open Scope nat_scope.
Local Open Scope list_scope.

(** ** C103: plotting the statistics shows the numbers given, in the style asked for *)

(** The call succeeds exactly when the numbers can be drawn and no option repeats an argument. *)
Theorem C103_succeeds : forall ax xx mean stddev o,
  (exists ax', plot_statistics ax xx mean stddev o = Ok ax') <->
  (plottable xx mean stddev /\ forall key v, given o key v -> ~ reserved key).
Proof.
  intros ax xx mean sd o. rewrite plot_form. split.
  - intros [ax' H]. apply errorbar_ok_inv in H. destruct H as [C P]. split; [exact P|]. intros k v G R.
    enough (clash (merge errorbar_defaults (user o)) = true) by congruence. apply clash_merge. now exists k, v.
  - intros [P N]. destruct (clash (merge errorbar_defaults (user o))) eqn:C.
    + apply clash_merge in C. destruct C as [k [v [R G]]]. now destruct (N k v G).
    + eexists. now apply errorbar_ok.
Qed.
Print Assumptions C103_succeeds.

(** One set of error bars is added after what was there; it shows the given points and standard
    deviations; each option has the user's value, or else the usual one, and there is no other. *)
Theorem C103_drawn : forall ax xx mean stddev o ax', a_dict o -> plot_statistics ax xx mean stddev o = Ok ax' ->
  exists b, ax' = ax ++ [b] /\ bx b = xx /\ by_ b = mean /\ List.length (bhalf b) = List.length xx /\
    (forall i, i < List.length xx -> nth_error (bhalf b) i =
       if List.length stddev =? List.length xx then nth_error stddev i else nth_error stddev 0) /\
    forall key v, assoc key (bstyle b) = Some v <-> wanted o key v.
Proof.
  intros ax xx mean sd o ax' D H. rewrite plot_form in H. destruct (errorbar_ok_inv _ _ _ _ _ _ H) as [C P].
  rewrite (errorbar_ok ax xx mean sd _ C P) in H. injection H as <-. destruct P as [L [S _]].
  eexists. split; [reflexivity|]. cbn [bx by_ bhalf bstyle]. rewrite L. split; [reflexivity|]. split; [reflexivity|].
  split; [|split].
  - destruct (Nat.eqb_spec (List.length sd) (List.length xx)) as [E|_]; [exact E|apply repeat_length].
  - intros i Hi. destruct (Nat.eqb_spec (List.length sd) (List.length xx)) as [E|N]; [reflexivity|].
    destruct S as [S|S]; [contradiction|]. destruct sd as [|s [|? ?]]; try discriminate.
    cbn [hd nth_error]. rewrite (nth_error_nth' _ s) by now rewrite repeat_length. apply f_equal. apply nth_repeat.
  - intros k v. symmetry. now apply wanted_iff.
Qed.
Print Assumptions C103_drawn.

(** Failures: an option that repeats an argument, else numbers that cannot be drawn. *)
Theorem C103_errors : forall ax xx mean stddev o e, plot_statistics ax xx mean stddev o = Err e ->
  (e = TypeError /\ exists key v, given o key v /\ reserved key) \/
  (e = ValueError /\ ~ plottable xx mean stddev /\ forall key v, given o key v -> ~ reserved key).
Proof.
  intros ax xx mean sd o e H. rewrite plot_form in H. destruct (errorbar_err _ _ _ _ _ _ H) as [[C ->]|[C ->]].
  - left. split; [reflexivity|]. apply clash_merge in C. destruct C as [k [v [R G]]]. now exists k, v.
  - right. split; [reflexivity|]. split.
    + intros P. rewrite (errorbar_ok _ _ _ _ _ C P) in H. discriminate.
    + intros k v G R. enough (clash (merge errorbar_defaults (user o)) = true) by congruence. apply clash_merge. now exists k, v.
Qed.
Print Assumptions C103_errors.

(** Whatever statistics() returns can be plotted, also where the standard deviation is missing. *)
Theorem C103_statistics : forall fsqrt C (corrcoef : list (list flt) -> C) ps xt yt xx ic cnt ms xx' mean sd corr ax o,
  (forall q, ~ negative (fsqrt q)) -> (forall key v, given o key v -> ~ reserved key) ->
  statistics fsqrt corrcoef ps xt yt xx ic cnt ms = Ok (xx', mean, sd, corr) ->
  exists ax', plot_statistics ax xx' mean sd o = Ok ax'.
Proof.
  intros fsqrt C cc ps xt yt xx ic cnt ms xx' mean sd corr ax o Q N H. apply C103_succeeds. split; [|exact N].
  exact (statistics_plottable _ _ _ _ _ _ _ _ _ _ _ _ _ _ Q H).
Qed.
Print Assumptions C103_statistics.

(** Blue bars with a label; the second standard deviation is missing. *)
Example a_plot : exists b, plot_statistics [] [f0; f1] [f1; f1] [f1; NaN]
    (Some [("color", KStr "b"); ("label", KStr "mean")]) = Ok [b] /\
  assoc "color" (bstyle b) = Some (KStr "b") /\ assoc "label" (bstyle b) = Some (KStr "mean") /\
  assoc "marker" (bstyle b) = Some (KStr "o") /\ assoc "alpha" (bstyle b) = None.
Proof. eexists. split; [reflexivity|]. repeat split. Qed.
Example a_repeated_argument : plot_statistics [] [f0] [f1] [f1] (Some [("yerr", KNone)]) = Err TypeError.
Proof. reflexivity. Qed.
Example a_negative_deviation : plot_statistics [] [f0] [f1] [fneg f1] None = Err ValueError.
Proof. reflexivity. Qed.
