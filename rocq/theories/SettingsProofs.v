From Verif Require Import NumFacts PyFacts WorkflowModel WorkflowSpec SettingsSpec.
Local Open Scope string_scope.
Local Open Scope nat_scope.
Local Open Scope list_scope.
Local Open Scope py_scope.

Lemma falsy_truth v : falsy v <-> truth v = false.
Proof.
  split; [intros []; reflexivity|]. destruct v as [|b|x|z|s|d]; cbn.
  - constructor.
  - intros ->. constructor.
  - destruct x as [q| | |]; try discriminate. destruct (Qceqb q 0%Qc) eqn:E; [|discriminate]. intros _.
    apply Qceqb_eq in E. subst q. constructor.
  - destruct (Z.eqb_spec z 0) as [->|]; [|discriminate]. constructor.
  - destruct (String.eqb_spec s "") as [->|]; [|discriminate]. constructor.
  - destruct d; [|discriminate]. constructor.
Qed.
Lemma at_item st k t v : at_path st (k :: t) = Some v -> exists j, item st k = Ok j /\ at_path j t = Some v.
Proof.
  destruct st; try discriminate. cbn. destruct (lookup k d) as [j|]; [|discriminate]. intros H. now exists j.
Qed.
Lemma item_at st k j t : item st k = Ok j -> at_path st (k :: t) = at_path j t.
Proof.
  destruct st; try discriminate. cbn. destruct (lookup k d) as [x|]; [|discriminate]. now intros [= ->].
Qed.
Lemma at_1 st k v : at_path st [k] = Some v -> item st k = Ok v.
Proof. intros H. destruct (at_item _ _ _ _ H) as [j [I J]]. now injection J as ->. Qed.
Lemma item_1 st k v : item st k = Ok v -> at_path st [k] = Some v.
Proof. intros H. now rewrite (item_at _ _ _ [] H). Qed.
Lemma on_truth v st path : on st path -> at_path st path = Some v -> truth v = true.
Proof.
  intros [w [A N]] B. assert (w = v) by congruence. subst w. destruct (truth v) eqn:E; [reflexivity|]. now rewrite <- falsy_truth in E.
Qed.
Lemma off_truth v st path : off st path -> at_path st path = Some v -> truth v = false.
Proof. intros [w [A F]] B. assert (w = v) by congruence. subst w. now apply falsy_truth. Qed.
Lemma whole_iff j z : whole j z <-> (j = JInt z \/ exists b, j = JBool b /\ z = Z.b2z b).
Proof.
  split; [destruct 1; [now left|right; now exists true|right; now exists false]|].
  intros [->|(b & -> & ->)]; [constructor|destruct b; constructor].
Qed.
Lemma num_number j q : num j = Ok q <-> number j [] q.
Proof.
  unfold number. cbn [at_path]. split.
  - destruct j as [|b|[x| | |]|z|s|d]; cbn [num]; try discriminate; intros [= <-]; [right|now left|right].
    + exists (JBool b), (Z.b2z b). split; [reflexivity|]. split; [apply whole_iff; eauto|reflexivity].
    + exists (JInt z), z. repeat split; constructor.
  - intros [[= ->]|(i & z & [= ->] & W & ->)]; [reflexivity|]. destruct W; reflexivity.
Qed.
Lemma real_bound j x : real j = Ok x <-> bound j [] x.
Proof.
  unfold bound. cbn [at_path]. split.
  - destruct j as [|b|y|z|s|d]; cbn [real]; try discriminate; intros [= <-]; [right|now left|right].
    + exists (JBool b), (Z.b2z b). split; [reflexivity|]. split; [apply whole_iff; eauto|reflexivity].
    + exists (JInt z), z. repeat split; constructor.
  - intros [[= ->]|(i & z & [= ->] & W & ->)]; [reflexivity|]. destruct W; reflexivity.
Qed.
Lemma number_item st k t q : number st (k :: t) q -> exists j, item st k = Ok j /\ number j t q.
Proof.
  intros [H|(i & z & H & W & ->)]; destruct (at_item _ _ _ _ H) as [j [I J]]; exists j; (split; [exact I|]); [now left|right; now exists i, z].
Qed.
Lemma item_number st k j t q : item st k = Ok j -> (number st (k :: t) q <-> number j t q).
Proof. intros I. unfold number. now rewrite (item_at _ _ _ t I). Qed.
Lemma item_bound st k j t q : item st k = Ok j -> (bound st (k :: t) q <-> bound j t q).
Proof. intros I. unfold bound. now rewrite (item_at _ _ _ t I). Qed.
Lemma bound_item st k t q : bound st (k :: t) q -> exists j, item st k = Ok j /\ bound j t q.
Proof.
  intros [H|(i & z & H & W & ->)]; destruct (at_item _ _ _ _ H) as [j [I J]]; exists j; (split; [exact I|]); [now left|right; now exists i, z].
Qed.
Lemma item_on st k j t : item st k = Ok j -> (on st (k :: t) <-> on j t).
Proof. intros I. unfold on. now rewrite (item_at _ _ _ t I). Qed.
Lemma item_off st k j t : item st k = Ok j -> (off st (k :: t) <-> off j t).
Proof. intros I. unfold off. now rewrite (item_at _ _ _ t I). Qed.
Lemma on_item st k t : on st (k :: t) -> exists j, item st k = Ok j /\ on j t.
Proof. intros [v [H N]]. destruct (at_item _ _ _ _ H) as [j [I J]]. exists j. split; [exact I|now exists v]. Qed.
Lemma off_item st k t : off st (k :: t) -> exists j, item st k = Ok j /\ off j t.
Proof. intros [v [H N]]. destruct (at_item _ _ _ _ H) as [j [I J]]. exists j. split; [exact I|now exists v]. Qed.
Lemma on_here v : on v [] <-> truth v = true.
Proof.
  split; [intros H; exact (on_truth v v [] H eq_refl)|]. intros H. exists v. split; [reflexivity|]. rewrite falsy_truth. congruence.
Qed.
Lemma off_here v : off v [] <-> truth v = false.
Proof. split; [intros H; exact (off_truth v v [] H eq_refl)|]. intros H. exists v. split; [reflexivity|now apply falsy_truth]. Qed.
Lemma switched_here b v : switched b v [] <-> truth v = b.
Proof. destruct b; [apply on_here|apply off_here]. Qed.
Lemma item_switched b st k j t : item st k = Ok j -> (switched b st (k :: t) <-> switched b j t).
Proof. destruct b; [apply item_on|apply item_off]. Qed.
Lemma switched_item b st k t : switched b st (k :: t) -> exists j, item st k = Ok j /\ switched b j t.
Proof. destruct b; [apply on_item|apply off_item]. Qed.


(** One look-up in the goal, carried over to the hypotheses. *)
Ltac into I :=
  repeat match goal with
  | H : number ?j (?k :: ?t) ?q |- _ => match type of I with item j k = Ok _ => apply (proj1 (item_number _ _ _ t q I)) in H end
  | H : bound ?j (?k :: ?t) ?q |- _ => match type of I with item j k = Ok _ => apply (proj1 (item_bound _ _ _ t q I)) in H end
  | H : on ?j (?k :: ?t) |- _ => match type of I with item j k = Ok _ => apply (proj1 (item_on _ _ _ t I)) in H end
  | H : off ?j (?k :: ?t) |- _ => match type of I with item j k = Ok _ => apply (proj1 (item_off _ _ _ t I)) in H end
  | H : switched ?b ?j (?k :: ?t) |- _ => match type of I with item j k = Ok _ => apply (proj1 (item_switched b _ _ _ t I)) in H end
  | H : at_path ?j (?k :: ?t) = Some _ |- _ => match type of I with item j k = Ok _ => rewrite (item_at _ _ _ t I) in H end
  end.
Ltac missing I :=
  exfalso;
  match goal with
  | H : number _ _ _ |- _ => destruct (number_item _ _ _ _ H) as [? [? _]]; congruence
  | H : bound _ _ _ |- _ => destruct (bound_item _ _ _ _ H) as [? [? _]]; congruence
  | H : on _ _ |- _ => destruct (on_item _ _ _ H) as [? [? _]]; congruence
  | H : off _ _ |- _ => destruct (off_item _ _ _ H) as [? [? _]]; congruence
  | H : switched ?b _ _ |- _ => destruct (switched_item b _ _ _ H) as [? [? _]]; congruence
  | H : at_path _ _ = Some _ |- _ => destruct (at_item _ _ _ _ H) as [? [? _]]; congruence
  end.
Ltac look :=
  match goal with |- context [item ?j ?k] =>
    let I := fresh "I" in destruct (item j k) as [?j|?e] eqn:I; [cbn [bind]; into I|missing I] end.
Ltac here :=
  repeat match goal with
  | H : number _ [] _ |- _ => apply (proj2 (num_number _ _)) in H
  | H : bound _ [] _ |- _ => apply (proj2 (real_bound _ _)) in H
  | H : on _ [] |- _ => apply (proj1 (on_here _)) in H
  | H : off _ [] |- _ => apply (proj1 (off_here _)) in H
  | H : switched ?b _ [] |- _ => apply (proj1 (switched_here b _)) in H
  | H : at_path _ [] = Some _ |- _ => injection H as ?
  end.
Ltac use := repeat match goal with H : ?l = _ |- context [?l] => rewrite H; cbn [bind] end.

Lemma opt_num_number j q : num j = Ok q -> opt_num j = Ok (Some q).
Proof. intros H. unfold opt_num. destruct j; try discriminate; rewrite H; reflexivity. Qed.

(** ** Each step does what the settings ask for *)
Section Steps.
  Variables (E : environment) (st : json).
  Lemma offsets_asked w mn mx :
    bound st ["pre-processing"; "offsets"; "min"] mn -> bound st ["pre-processing"; "offsets"; "max"] mx ->
    offsets_step st w = carry E (Plain (KeepOffsets mn mx)) w.
  Proof. intros A B. unfold offsets_step. do 4 look. here. use. reflexivity. Qed.
  Lemma window_asked d a b e : number d ["begin"] b -> number d ["end"] e ->
    window_of d a = do c <- copy_array a; changed (array_trim c b e).
  Proof.
    intros A B. unfold window_of. destruct (copy_array a) as [c|]; [|reflexivity]. cbn [bind]. do 2 look. here. use. reflexivity.
  Qed.
  Definition one (E : environment) (l : list stage) (w : wf) := carry_out E l w.
  Lemma carry_one s w : carry_out E [s] w = carry E s w.
  Proof. cbn [carry_out]. destruct (carry E s w); reflexivity. Qed.
  Lemma noise_asked w o : asks_snr st o ->
    noise_step st w = carry_out E (if_asked o (fun n => [Plain (SelectNoise (fst (n_noise n)) (snd (n_noise n)))])) w.
  Proof.
    unfold noise_step. destruct o as [n|]; cbn [asks_snr if_asked].
    - intros (A & (B & B') & _). cbn [app] in B, B'. rewrite carry_one. do 2 look. here. use.
      cbn [carry act]. destruct (w_noise w); [reflexivity|]. look. rewrite (window_asked _ _ _ _ B B').
      destruct (copy_array (w_array w)) as [c|]; reflexivity.
    - intros A. do 2 look. here. use. reflexivity.
  Qed.
  Lemma signal_asked w o : asks_snr st o ->
    signal_step st w = carry_out E (if_asked o (fun n => [Plain (SelectSignal (fst (n_signal n)) (snd (n_signal n)))])) w.
  Proof.
    unfold signal_step. destruct o as [n|]; cbn [asks_snr if_asked].
    - intros (A & _ & (B & B') & _). cbn [app] in B, B'. rewrite carry_one. do 2 look. here. use.
      cbn [carry act]. destruct (w_signal w); [reflexivity|]. look. rewrite (window_asked _ _ _ _ B B').
      destruct (copy_array (w_array w)) as [c|]; reflexivity.
    - intros A. do 2 look. here. use. reflexivity.
  Qed.
  Lemma trim_asked w o : asks_trim st o ->
    time_step st w = carry_out E (if_asked o (fun be => [Plain (TrimTime (fst be) (snd be))])) w.
  Proof.
    unfold time_step. destruct o as [be|]; cbn [asks_trim if_asked].
    - intros (A & (B & B')). cbn [app] in B, B'. rewrite carry_one. do 3 look. here. use. do 2 look. here. use. reflexivity.
    - intros A. do 3 look. here. use. reflexivity.
  Qed.
  Lemma pad_asked w o : asks_pad st o ->
    pad_step st w = carry_out E (if_asked o (fun d => [Plain (PadRecords d)])) w.
  Proof.
    unfold pad_step. destruct o as [d|]; cbn [asks_pad if_asked].
    - intros (A & B). rewrite carry_one. do 3 look. here. use. look. here. use. reflexivity.
    - intros A. do 3 look. here. use. reflexivity.
  Qed.
  Lemma mute_asked w o : asks_mute st o ->
    mute_step E st w = carry_out E (if_asked o (fun mw => [MuteWith (fst mw) (snd mw)])) w.
  Proof.
    unfold mute_step. destruct o as [[method window]|]; cbn [asks_mute if_asked].
    - intros (A & B & C). rewrite carry_one. 
      destruct (item st "pre-processing") as [pp|] eqn:I1; [cbn [bind]; rewrite (item_at _ _ _ _ I1) in C; into I1|missing I1].
      destruct (item pp "mute") as [m|] eqn:I2; [cbn [bind]; rewrite (item_at _ _ _ _ I2) in C; into I2|missing I2].
      look. here. use. cbn [carry fst snd].
      destruct (w_lines w) as [l|].
      + assert (D : dget m "window kwargs" = Ok (match at_path m ["window kwargs"] with Some k => k | None => JNull end)).
        { destruct m; try discriminate. cbn. now destruct (lookup "window kwargs" d). }
        rewrite D. cbn [bind]. subst window. destruct (at_path m ["window kwargs"]) as [[]|]; reflexivity.
      + look. here. subst. reflexivity.
    - intros A. do 3 look. here. use. reflexivity.
  Qed.
  (** The signal-to-noise ratio reads the frequencies in the entry "processing". *)
  Lemma snr_asked w o proc fl fh : asks_snr st o -> at_path st ["processing"] = Some proc ->
    (o <> None -> number proc ["fmin"] fl /\ number proc ["fmax"] fh) ->
    snr_step E st w = carry_out E (if_asked o (fun n => [Ratio fl fh (n_pad n) (n_df n)])) w.
  Proof.
    unfold snr_step. intros A P N. apply at_1 in P. destruct o as [n|]; cbn [asks_snr if_asked] in *.
    - destruct N as [Nl Nh]; [discriminate|]. destruct A as (A & _ & _ & B & C). rewrite carry_one.
      destruct (n_df n) as [q|].
      + look. rewrite P. cbn [bind]. look. here. use. do 5 look. here. use. 
        match goal with H : num ?j = Ok q |- _ => rewrite (opt_num_number j q H) end. cbn [bind].
        cbn [carry]. use. reflexivity.
      + look. rewrite P. cbn [bind]. look. here. use. do 5 look. here. use. subst. cbn [opt_num bind carry]. reflexivity.
    - look. rewrite P. cbn [bind]. look. here. use. reflexivity.
  Qed.
End Steps.
