(* Property C46 in full: what statistics() gives for any number of points. *)
From Coq Require Import Sorted Lia.
From Verif Require Import PyFacts NumFacts PeaksProofs SuiteModel SuiteSpec SuiteProofs SuiteStatProofs SuiteDropSpec SuiteDropProofs SuiteProps.
Local Open Scope nat_scope.
Local Open Scope list_scope.

(** The mean and standard deviation of the observed values in a list. *)
Definition summarised (fsqrt : flt -> flt) (l : list flt) (mean std : flt) : Prop :=
  (filter (fun x => negb (is_nan x)) l = [] -> mean = NaN) /\
  (List.length (filter (fun x => negb (is_nan x)) l) <= 1 -> std = NaN) /\
  forall qs, filter (fun x => negb (is_nan x)) l = map Fin qs ->
    (qs <> [] -> mean = Fin (mean_of qs)) /\ (2 <= List.length qs -> std = fsqrt (Fin (variance_of qs))).

(** Sparse members and sparse points are removed by the rule of C47 (with one percent and the
    given number); each remaining point gets the mean and standard deviation of the values
    which the remaining members have there.  [is_] and [js] are the remaining members and points. *)
Theorem C46_outcome : forall fsqrt C (corrcoef : list (list flt) -> C) ps xt yt xx ic cnt ms m,
  3 <= List.length ps -> to_array ps xt yt xx = Ok (xx, m) ->
  exists is1 js1 is2 js2 is_ js mean std corr,
    let share := Q2Qc (1 # 100) in
    columns_first share share cnt (List.length m) (List.length xx) m is1 js1 /\
    rows_first share share cnt (List.length m) (List.length xx) m is2 js2 /\
    ((gain m is2 js2 < gain m is1 js1)%Qc /\ is_ = is1 /\ js = js1 \/ (gain m is1 js1 <= gain m is2 js2)%Qc /\ is_ = is2 /\ js = js2) /\
    statistics fsqrt corrcoef ps xt yt xx ic cnt ms = Ok (map (fun j => nth j xx NaN) js, mean, std, corr) /\
    List.length mean = List.length js /\ List.length std = List.length js /\
    forall k j, nth_error js k = Some j ->
      exists a b, nth_error mean k = Some a /\ nth_error std k = Some b /\ summarised fsqrt (column_part m j is_) a b.
Proof.
  intros fsqrt C cc ps xt yt xx ic cnt ms m L A. destruct (to_array_rect _ _ _ _ _ _ A) as (_ & R & _).
  destruct (drop_choice (Q2Qc (1 # 100)) (Q2Qc (1 # 100)) cnt xx m R) as (is1 & js1 & is2 & js2 & C1 & C2 & D).
  assert (G : exists is_ js, drop (Q2Qc (1 # 100)) (Q2Qc (1 # 100)) cnt xx m = (map (fun j => nth j xx NaN) js, part m is_ js) /\
    ((gain m is2 js2 < gain m is1 js1)%Qc /\ is_ = is1 /\ js = js1 \/ (gain m is1 js1 <= gain m is2 js2)%Qc /\ is_ = is2 /\ js = js2)).
  { destruct D as [[D E]|[D E]]; [exists is1, js1|exists is2, js2]; (split; [exact E|]); [left|right]; auto. }
  destruct G as (is_ & js & E & G). exists is1, js1, is2, js2, is_, js.
  set (n := List.length (map (fun j => nth j xx NaN) js)).
  exists (map nanmean (transpose n (part m is_ js))), (map (nanstd fsqrt) (transpose n (part m is_ js))).
  exists (if ic then None else Some (cc (transpose n (if ms then substitute n (part m is_ js) else part m is_ js)))).
  cbv zeta. split; [exact C1|]. split; [exact C2|]. split; [exact G|]. split.
  { unfold statistics. destruct (Nat.ltb_spec (List.length ps) 3); [lia|]. rewrite A. cbn [bind fst snd]. rewrite E. reflexivity. }
  assert (Ln : n = List.length js) by apply map_length.
  split; [now rewrite map_length, transpose_length|]. split; [now rewrite map_length, transpose_length|].
  intros k j K. assert (Hk : k < n) by (rewrite Ln; apply nth_error_Some; congruence).
  assert (T : nth_error (transpose n (part m is_ js)) k = Some (column_part m j is_)).
  { rewrite (nth_error_nth' _ []) by now rewrite transpose_length. apply f_equal. rewrite transpose_nth by exact Hk.
    unfold part, column_part. rewrite map_map. apply map_ext. intros i. rewrite (nth_map_lt (entry m i) js k NaN 0) by lia.
    apply f_equal. now apply nth_error_nth. }
  exists (nanmean (column_part m j is_)), (nanstd fsqrt (column_part m j is_)).
  split; [now apply map_nth_error|]. split; [now apply map_nth_error|]. unfold summarised.
  split; [|split].
  - intros N. unfold nanmean, nums. rewrite N. reflexivity.
  - intros N. unfold nanstd, nums. destruct (Nat.leb_spec (List.length (filter (fun x => negb (is_nan x)) (column_part m j is_))) 1); [reflexivity|lia].
  - intros qs Q. split; intros H; [now apply nanmean_fin|now apply nanstd_fin].
Qed.
Print Assumptions C46_outcome.
(** Errors come from the resampling (C48). *)
Theorem C46_errors : forall fsqrt C (corrcoef : list (list flt) -> C) ps xt yt xx ic cnt ms e,
  statistics fsqrt corrcoef ps xt yt xx ic cnt ms = Err e ->
  (e = ValueError /\ List.length ps < 3) \/ (3 <= List.length ps /\ to_array ps xt yt xx = Err e).
Proof.
  intros fsqrt C cc ps xt yt xx ic cnt ms e. unfold statistics. destruct (Nat.ltb_spec (List.length ps) 3); [intros [= <-]; now left|].
  destruct (to_array ps xt yt xx) as [a|e'] eqn:A; cbn [bind].
  - destruct (drop _ _ cnt (fst a) (snd a)); discriminate.
  - intros [= <-]. now right.
Qed.
Print Assumptions C46_errors.
(** The case of 150 points in C46_long_refuted. *)
Example C46_outcome_example : 3 <= List.length long_members /\
  match to_array long_members "frequency" "velocity" long_points with Ok (xx, m) => List.length m = 4 /\ List.length xx = 150 | Err _ => False end.
Proof. split; [cbn; lia|vm_compute; auto]. Qed.
