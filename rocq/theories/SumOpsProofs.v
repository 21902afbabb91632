(* Proofs: preparing a sum of records. *)
From Verif Require Import NumFacts PyFacts SeriesModel ArrayModel SumSpec SumProofs.
Local Open Scope nat_scope.
Local Open Scope list_scope.

Definition adds (f : sensor -> sensor * result unit) : Prop := forall s t s' t', same_receiver s t -> f s = (s', Ok tt) -> f t = (t', Ok tt) ->
  f (added_sensor s t) = (added_sensor s' t', Ok tt) /\ same_receiver s' t'.
Lemma each_added f l m : adds f -> Forall2 same_receiver l m -> forall l' m', for_each f l = (l', Ok tt) -> for_each f m = (m', Ok tt) ->
  for_each f (map2 added_sensor l m) = (map2 added_sensor l' m', Ok tt) /\ Forall2 same_receiver l' m'.
Proof.
  intros F L. induction L as [|s t l m Y L IH]; intros l' m' A B; cbn [for_each map2] in *.
  - injection A as <-. injection B as <-. split; [reflexivity|constructor].
  - destruct (f s) as [s' [[]|]] eqn:Es; [|discriminate]. destruct (f t) as [t' [[]|]] eqn:Et; [|discriminate]. destruct (F s t s' t' Y Es Et) as [G Y']. rewrite G.
    destruct (for_each f l) as [l0 r] eqn:El. injection A as <- ->. destruct (for_each f m) as [m0 r] eqn:Em. injection B as <- ->. destruct (IH l0 m0 eq_refl eq_refl) as [I J]. rewrite I. split; [reflexivity|now constructor].
Qed.
Lemma cut_added i j (l m : list Qc) : List.length l = List.length m -> skipn i (firstn j (map2 Qcplus l m)) = map2 Qcplus (skipn i (firstn j l)) (skipn i (firstn j m)) /\ List.length (skipn i (firstn j l)) = List.length (skipn i (firstn j m)).
Proof.
  intros E. split; [|now rewrite !skipn_length, !firstn_length, E]. destruct (pairs_of l m E) as (A & B & C). rewrite <- C. rewrite <- A at 2. rewrite <- B at 3. generalize (combine l m). intros q. rewrite !firstn_map, !skipn_map. apply both_map.
Qed.
Lemma trim_adds st en : adds (sensor_trim st en).
Proof.
  intros s t s' t' (E & D & L & M & X) A B. destruct s as [[sa sd sn sl sm] sx1 sy1 sz1], t as [[ta td tn tl tm] tx ty tz]. cbn [ser amp dt delay multiple sx] in *. subst td tl tm tx.
  unfold sensor_trim, trim, base_trim, added_sensor in *. cbn [ser] in *.
  assert (T1 : time (mkSeries ta sd tn sl sm) = time (mkSeries sa sd sn sl sm)) by (unfold time, nsamples; cbn [amp dt delay]; now rewrite E).
  assert (T2 : time (mkSeries (map2 Qcplus sa ta) sd sn sl sm) = time (mkSeries sa sd sn sl sm)) by (unfold time, nsamples; cbn [amp dt delay]; now rewrite length_added).
  cbn [amp dt delay multiple nstacks sx sy sz] in *. rewrite T1 in B. rewrite T2. destruct (time (mkSeries sa sd sn sl sm)) as [|t0 ts]; [discriminate|]. destruct (_ || _); [discriminate|].
  destruct (argmin (map (fun z => Qcabs (z - st)%Qc) _)) as [i|]; [|discriminate]. destruct (argmin _) as [j|]; [|discriminate]. unfold set_ser, set_amp in *. cbn [amp dt delay multiple nstacks sx sy sz] in *.
  injection A as <-. injection B as <-. destruct (cut_added i (j + 1) sa ta E) as [G H]. rewrite G. split; [reflexivity|]. repeat split; assumption.
Qed.
Lemma zeros_added k (l : list Qc) : forall m, List.length l = List.length m -> map2 Qcplus l m ++ repeat 0%Qc k = map2 Qcplus (l ++ repeat 0%Qc k) (m ++ repeat 0%Qc k).
Proof.
  induction l as [|x l IH]; intros [|y m] E; try discriminate; cbn [app map2]; [|injection E as E; now rewrite IH].
  induction k as [|k IH]; [reflexivity|]. cbn [repeat map2]. rewrite <- IH. f_equal.
Qed.
Lemma pad_adds df : adds (sensor_zero_pad df).
Proof.
  intros s t s' t' (E & D & L & M & X) A B. destruct s as [[sa sd sn sl sm] sx1 sy1 sz1], t as [[ta td tn tl tm] tx ty tz]. cbn [ser amp dt delay multiple sx] in *. subst td tl tm tx.
  unfold sensor_zero_pad, zero_pad, append_zeros, added_sensor, set_multiple, set_amp, nsamples in *. cbn [ser amp dt delay multiple nstacks sx sy sz] in *. rewrite <- E in B. rewrite length_added by exact E.
  assert (Z : forall k, List.length (sa ++ repeat 0%Qc k) = List.length (ta ++ repeat 0%Qc k)) by (intros k; rewrite !app_length; now rewrite E).
  repeat match goal with |- context [if ?b then _ else _] => destruct b; try discriminate end;
    injection A as <-; injection B as <-; unfold set_ser; cbn [ser amp dt delay multiple nstacks sx sy sz]; (split; [now rewrite ?zeros_added by exact E|]); repeat split; cbn [ser amp]; auto.
Qed.
Lemma array_each f a b a' b' : adds f -> same_layout a b -> (let (l, r) := for_each f (sensors a) in (set_sensors a l, r)) = (a', Ok tt) -> (let (l, r) := for_each f (sensors b) in (set_sensors b l, r)) = (b', Ok tt) ->
  (let (l, r) := for_each f (sensors (added a b)) in (set_sensors (added a b) l, r)) = (added a' b', Ok tt) /\ same_layout a' b'.
Proof.
  intros F [L S] A B. destruct (for_each f (sensors a)) as [l r] eqn:El. injection A as <- ->. destruct (for_each f (sensors b)) as [m r] eqn:Em. injection B as <- ->.
  destruct (each_added f _ _ F L l m El Em) as [G H]. cbn [added sensors]. rewrite G. split; [reflexivity|]. split; assumption.
Qed.
Lemma array_trim_added st en a b a' b' : same_layout a b -> array_trim a st en = (a', Ok tt) -> array_trim b st en = (b', Ok tt) -> array_trim (added a b) st en = (added a' b', Ok tt) /\ same_layout a' b'.
Proof. apply array_each, trim_adds. Qed.
Lemma array_pad_added df a b a' b' : same_layout a b -> array_zero_pad a df = (a', Ok tt) -> array_zero_pad b df = (b', Ok tt) -> array_zero_pad (added a b) df = (added a' b', Ok tt) /\ same_layout a' b'.
Proof. apply array_each, pad_adds. Qed.

(** * Mute *)
Lemma products_added (w : list Qc) : forall l m, List.length l = List.length m -> map2 Qcmult (map2 Qcplus l m) w = map2 Qcplus (map2 Qcmult l w) (map2 Qcmult m w) /\ List.length (map2 Qcmult l w) = List.length (map2 Qcmult m w).
Proof. induction w as [|x w IH]; intros [|y l] [|z m] E; try discriminate; try (split; reflexivity). injection E as E. destruct (IH l m E) as [G H]. cbn [map2 List.length]. rewrite G, H. split; [f_equal; ring|reflexivity]. Qed.
Lemma scaled_added v (l : list Qc) : forall m, List.length l = List.length m -> map (fun x => (x * v)%Qc) (map2 Qcplus l m) = map2 Qcplus (map (fun x => (x * v)%Qc) l) (map (fun x => (x * v)%Qc) m).
Proof. induction l as [|x l IH]; intros [|y m] E; try discriminate; [reflexivity|]. injection E as E. cbn [map map2]. rewrite IH by exact E. f_equal. ring. Qed.
Lemma scale_added w l m l' m' : List.length l = List.length m -> scale_by l w = Ok l' -> scale_by m w = Ok m' -> scale_by (map2 Qcplus l m) w = Ok (map2 Qcplus l' m') /\ List.length l' = List.length m'.
Proof.
  unfold scale_by. intros E A B. rewrite length_added by exact E. rewrite <- E in B. destruct (Nat.eqb _ _).
  - injection A as <-. injection B as <-. destruct (products_added w l m E) as [G H]. now rewrite G.
  - destruct w as [|v [|]]; try discriminate. injection A as <-. injection B as <-. rewrite scaled_added by exact E. rewrite !map_length. now split.
Qed.
Lemma mute_adds taper n p q : adds (mute_sensor taper n p q).
Proof.
  intros s t s' t' (E & D & L & M & X) A B. unfold mute_sensor in *. destruct (bind (tukey _ _) _) as [w|]; [|discriminate]. cbn [bind] in *. cbn [added_sensor ser amp].
  destruct (scale_by (amp (ser s)) w) as [l|] eqn:El; [|discriminate]. destruct (scale_by (amp (ser t)) w) as [m|] eqn:Em; [|discriminate]. injection A as <-. injection B as <-. destruct (scale_added w _ _ l m E El Em) as [G H]. rewrite G.
  split; [reflexivity|]. unfold set_ser, set_amp. repeat split; cbn [ser amp dt delay multiple sx]; assumption.
Qed.
Lemma loop_added taper n l m : Forall2 same_receiver l m -> forall idx l' m', mute_loop taper n idx l = (l', Ok tt) -> mute_loop taper n idx m = (m', Ok tt) ->
  mute_loop taper n idx (map2 added_sensor l m) = (map2 added_sensor l' m', Ok tt) /\ Forall2 same_receiver l' m'.
Proof.
  intros L. induction L as [|s t l m Y L IH]; intros [|[p q] idx] l' m' A B; cbn [mute_loop map2] in *; try (injection A as <-; injection B as <-; split; [reflexivity|now constructor]).
  destruct (mute_sensor taper n p q s) as [s' [[]|]] eqn:Es; [|discriminate]. destruct (mute_sensor taper n p q t) as [t' [[]|]] eqn:Et; [|discriminate]. destruct (mute_adds taper n p q s t s' t' Y Es Et) as [G Y']. rewrite G.
  destruct (mute_loop taper n idx l) as [l0 r] eqn:El. injection A as <- ->. destruct (mute_loop taper n idx m) as [m0 r] eqn:Em. injection B as <- ->. destruct (IH idx l0 m0 El Em) as [I J]. rewrite I. split; [reflexivity|now constructor].
Qed.
Lemma mute_added taper ss se a b a' b' : same_layout a b -> mute a taper ss se = (a', Ok tt) -> mute b taper ss se = (b', Ok tt) -> mute (added a b) taper ss se = (added a' b', Ok tt) /\ same_layout a' b'.
Proof.
  intros Y A B. destruct (layout_rows a b Y) as (_ & _ & _ & P1 & P2). destruct Y as [L S]. unfold mute in *. rewrite P2. rewrite P1 in B. clear P1 P2. set (pos := position a) in *. clearbody pos. unfold added, set_sensors in *. cbn [sensors src] in *.
  destruct (sensors a) as [|s l] eqn:Ea; [discriminate|]. destruct (sensors b) as [|t m] eqn:Eb; [discriminate|]. assert (Y : same_receiver s t) by now inversion L. destruct Y as (E & D & K & _). cbn [map2]. unfold nsamples in *. cbn [added_sensor ser dt delay amp] in *.
  rewrite <- D, <- K, <- E in B. rewrite length_added by exact E. destruct (Qceqb (dt (ser s)) 0); [discriminate|]. destruct (bind _ _) as [idx|]; [|discriminate].
  destruct (mute_loop _ _ idx (s :: l)) as [l0 r] eqn:El. injection A as <- ->. destruct (mute_loop _ _ idx (t :: m)) as [m0 r] eqn:Em. injection B as <- ->.
  destruct (loop_added _ _ _ _ L idx l0 m0 El Em) as [G H]. cbn [map2] in G. rewrite G. split; [reflexivity|]. split; assumption.
Qed.
