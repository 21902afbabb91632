(* Facts about the Python vocabulary. *)
From Verif Require Import Py.
From Coq Require Import Sorting.Permutation.

Lemma length_map2 {A B C} (f : A -> B -> C) l m :
  length (map2 f l m) = Nat.min (length l) (length m).
Proof. revert m; induction l as [|a l IH]; intros [|b m]; simpl; auto. Qed.

Lemma nth_error_map2 {A B C} (f : A -> B -> C) l m i :
  nth_error (map2 f l m) i =
  match nth_error l i, nth_error m i with
  | Some a, Some b => Some (f a b)
  | _, _ => None
  end.
Proof.
  revert m i; induction l as [|a l IH]; intros [|b m] [|i]; simpl; auto.
  - now destruct (nth_error l i).
Qed.

Lemma nth_map2 {A B C} (f : A -> B -> C) l m i da db dc :
  i < length l -> i < length m ->
  nth i (map2 f l m) dc = f (nth i l da) (nth i m db).
Proof.
  revert m i; induction l as [|a l IH]; intros [|b m] [|i]; simpl; intros; try lia; auto.
  apply IH; lia.
Qed.

Lemma map2_ext_in {A B C} (f g : A -> B -> C) l m :
  (forall a b, In a l -> In b m -> f a b = g a b) -> map2 f l m = map2 g l m.
Proof.
  revert m; induction l as [|a l IH]; intros [|b m] H; simpl; auto.
  f_equal; [apply H; simpl; auto | apply IH; intros; apply H; simpl; auto].
Qed.

Lemma nth_error_ext {A} (l m : list A) :
  (forall i, nth_error l i = nth_error m i) -> l = m.
Proof.
  revert m; induction l as [|a l IH]; intros [|b m] H; auto.
  - specialize (H 0); discriminate.
  - specialize (H 0); discriminate.
  - f_equal; [specialize (H 0); simpl in H; congruence |].
    apply IH; intro i; apply (H (S i)).
Qed.

Lemma nth_ext_len {A} (d : A) (l m : list A) :
  length l = length m -> (forall i, i < length l -> nth i l d = nth i m d) -> l = m.
Proof. intros H1 H2; apply nth_ext with (d := d) (d' := d); auto. Qed.

Lemma nth_firstn_lt {A} (d : A) l n i : i < n -> nth i (firstn n l) d = nth i l d.
Proof.
  revert n i; induction l as [|a l IH]; intros [|n] [|i] H; simpl; auto; try lia.
  apply IH; lia.
Qed.

Lemma nth_skipn {A} (d : A) l n i : nth i (skipn n l) d = nth (n + i) l d.
Proof.
  revert l; induction n as [|n IH]; intros [|a l]; simpl; auto.
  destruct i; auto.
Qed.

Lemma nth_error_firstn_lt {A} (l : list A) n i : i < n -> nth_error (firstn n l) i = nth_error l i.
Proof.
  revert n i; induction l as [|a l IH]; intros [|n] [|i] H; simpl; auto; try lia.
  apply IH; lia.
Qed.

Lemma nth_error_skipn {A} (l : list A) n i : nth_error (skipn n l) i = nth_error l (n + i).
Proof.
  revert l; induction n as [|n IH]; intros [|a l]; simpl; auto.
  destruct i; auto.
Qed.

Lemma nth_repeat_any {A} (a : A) n i : nth i (repeat a n) a = a.
Proof. revert i; induction n as [|n IH]; intros [|i]; simpl; auto. Qed.

(** ** argbest *)
Section Best.
  Context {A : Type} (better : A -> A -> bool) (d : A).
  (* [better] is a strict weak order *)
  Hypothesis irr : forall a, better a a = false.
  Hypothesis trans : forall a b c, better a b = true -> better b c = true -> better a c = true.
  Hypothesis negtrans : forall a b c, better a b = false -> better b c = false -> better a c = false.

  Lemma argbest_aux_spec pre l i best :
    i < length pre ->
    nth i pre d = best ->
    (forall j, j < length pre -> better (nth j pre d) best = false) ->
    (forall j, j < i -> better best (nth j pre d) = true) ->
    let k := argbest_aux better l (length pre) i best in
    k < length (pre ++ l) /\
    (forall j, j < length (pre ++ l) -> better (nth j (pre ++ l) d) (nth k (pre ++ l) d) = false) /\
    (forall j, j < k -> better (nth k (pre ++ l) d) (nth j (pre ++ l) d) = true).
  Proof.
    revert pre i best; induction l as [|a l IH]; intros pre i best Hi Hn Hmax Hfirst; cbn zeta.
    - simpl. rewrite app_nil_r. subst best. auto.
    - cbn [argbest_aux].
      assert (E : pre ++ a :: l = (pre ++ [a]) ++ l) by now rewrite <- app_assoc.
      assert (L : length (pre ++ [a]) = S (length pre)) by (rewrite app_length; simpl; lia).
      rewrite E, <- L.
      destruct (better a best) eqn:Hb.
      + apply IH.
        * rewrite L; lia.
        * rewrite app_nth2, Nat.sub_diag by lia; reflexivity.
        * intros j Hj. rewrite L in Hj.
          destruct (Nat.eq_dec j (length pre)) as [->|].
          -- rewrite app_nth2, Nat.sub_diag by lia. apply irr.
          -- rewrite app_nth1 by lia.
             destruct (better (nth j pre d) a) eqn:Hc; auto.
             specialize (Hmax j ltac:(lia)). rewrite (trans _ _ _ Hc Hb) in Hmax. discriminate.
        * intros j Hj. rewrite app_nth1 by lia.
          destruct (better a (nth j pre d)) eqn:Hc; auto.
          pose proof (negtrans _ _ _ Hc (Hmax j ltac:(lia))). congruence.
      + apply IH.
        * rewrite L; lia.
        * rewrite app_nth1 by lia; auto.
        * intros j Hj. rewrite L in Hj.
          destruct (Nat.eq_dec j (length pre)) as [->|].
          -- rewrite app_nth2, Nat.sub_diag by lia. apply Hb.
          -- rewrite app_nth1 by lia; apply Hmax; lia.
        * intros j Hj. rewrite app_nth1 by lia; auto.
  Qed.

  Lemma argbest_ok l : l <> [] -> exists k, argbest better l = Ok k.
  Proof. destruct l; [congruence|]; simpl; eauto. Qed.

  Lemma argbest_spec l k :
    argbest better l = Ok k ->
    k < length l /\
    (forall j, j < length l -> better (nth j l d) (nth k l d) = false) /\
    (forall j, j < k -> better (nth k l d) (nth j l d) = true).
  Proof.
    destruct l as [|a l]; [discriminate|]. cbn [argbest]. intro H; injection H as <-.
    apply (argbest_aux_spec [a] l 0 a).
    - simpl; lia.
    - reflexivity.
    - intros [|j] Hj; [apply irr | simpl in Hj; lia].
    - intros j Hj; lia.
  Qed.

  (** The specification determines the index. *)
  Lemma argbest_unique l k :
    k < length l ->
    (forall j, j < length l -> better (nth j l d) (nth k l d) = false) ->
    (forall j, j < k -> better (nth k l d) (nth j l d) = true) ->
    argbest better l = Ok k.
  Proof.
    intros Hk Hm Hf.
    destruct (argbest_ok l) as [k' E]; [now destruct l; simpl in *; [lia|]|].
    rewrite E; f_equal.
    destruct (argbest_spec _ _ E) as (Hk' & Hm' & Hf').
    destruct (lt_eq_lt_dec k' k) as [[H|H]|H]; auto.
    - specialize (Hf _ H). rewrite (Hm' k Hk) in Hf. discriminate.
    - specialize (Hf' _ H). rewrite (Hm k' Hk') in Hf'. discriminate.
  Qed.
End Best.

(** ** slices *)
Lemma clip_index_nonneg n i : (0 <= i)%Z -> clip_index n i = Nat.min (Z.to_nat i) n.
Proof. unfold clip_index, norm_index; intros. destruct (Z.ltb_spec i 0); try lia. 
  destruct (Z.ltb_spec i 0); lia. Qed.

Lemma clip_index_neg n i : (i < 0)%Z -> clip_index n i = n - Z.to_nat (- i).
Proof. unfold clip_index, norm_index; intros. destruct (Z.ltb_spec i 0); try lia. 
  destruct (Z.ltb_spec (i + Z.of_nat n) 0); lia. Qed.

Lemma pyslice_all {A} (l : list A) : pyslice None None l = l.
Proof. unfold pyslice; simpl. now rewrite firstn_all. Qed.

Lemma length_pyslice_le {A} lo hi (l : list A) : length (pyslice lo hi l) <= length l.
Proof. unfold pyslice. rewrite skipn_length, firstn_length. lia. Qed.

(** ** for_each / mapM *)
Lemma length_for_each {S} (f : S -> S * result unit) l :
  length (fst (for_each f l)) = length l.
Proof.
  induction l as [|s t IH]; simpl; auto.
  destruct (f s) as [s' [[]|e]]; simpl; auto.
  destruct (for_each f t) as [t' r]; simpl in *; auto.
Qed.

Lemma for_each_ok {S} (f : S -> S * result unit) l l' :
  for_each f l = (l', Ok tt) <->
  Forall2 (fun s s' => f s = (s', Ok tt)) l l'.
Proof.
  revert l'; induction l as [|s t IH]; intros l'; simpl; split; intro H.
  - injection H as <-; constructor.
  - inversion H; reflexivity.
  - destruct (f s) as [s' [[]|e]] eqn:E; [|discriminate].
    destruct (for_each f t) as [t' r] eqn:E2. injection H as <- ->.
    constructor; auto. apply IH; auto.
  - inversion H as [|? s' ? t' Hs Ht]; subst. rewrite Hs.
    apply IH in Ht. rewrite Ht. reflexivity.
Qed.

Lemma for_each_all_ok {S} (f : S -> S * result unit) (g : S -> S) l :
  (forall s, In s l -> f s = (g s, Ok tt)) -> for_each f l = (map g l, Ok tt).
Proof.
  induction l as [|s t IH]; simpl; intros H; auto.
  rewrite (H s) by auto. rewrite IH by auto. reflexivity.
Qed.

Lemma mapM_ok {A B} (f : A -> result B) l l' :
  mapM f l = Ok l' <-> Forall2 (fun a b => f a = Ok b) l l'.
Proof.
  revert l'; induction l as [|a t IH]; intros l'; simpl; split; intro H.
  - injection H as <-; constructor.
  - inversion H; reflexivity.
  - destruct (f a) as [b|e] eqn:E; [|discriminate]. simpl in H.
    destruct (mapM f t) as [bs|e] eqn:E2; [|discriminate]. simpl in H.
    injection H as <-. constructor; auto. apply IH; auto.
  - inversion H as [|? b ? t' Ha Ht]; subst. rewrite Ha; simpl.
    apply IH in Ht. rewrite Ht. reflexivity.
Qed.

Lemma select_all_true {A} (l : list A) : select (repeat true (length l)) l = l.
Proof. induction l; simpl; congruence. Qed.

Lemma select_map {A B} (f : A -> B) m l : select m (map f l) = map f (select m l).
Proof. revert l; induction m as [|[] m IH]; intros [|a l]; simpl; auto. now rewrite IH. Qed.

Lemma length_select_eq {A B} m (l : list A) (k : list B) :
  length l = length k -> length (select m l) = length (select m k).
Proof.
  revert l k; induction m as [|[] m IH]; intros [|a l] [|b k]; simpl; intros; auto; try lia.
  all: rewrite (IH l k); lia.
Qed.

Lemma In_select {A} (a : A) m l :
  In a (select m l) <-> exists i, nth_error m i = Some true /\ nth_error l i = Some a.
Proof.
  revert l; induction m as [|b m IH]; intros [|c l]; simpl; split; try tauto;
    try (intros [[|i] [H1 H2]]; simpl in *; discriminate).
  - destruct b; simpl.
    + intros [->|H]; [exists 0; auto|]. apply IH in H as [i Hi]. exists (S i); auto.
    + intro H. apply IH in H as [i Hi]. exists (S i); auto.
  - intros [[|i] [H1 H2]]; simpl in *.
    + injection H1 as ->; injection H2 as ->. simpl; auto.
    + assert (In a (select m l)) by (apply IH; eauto). destruct b; simpl; auto.
Qed.

Lemma nth_map_lt {A B} (f : A -> B) l i d d' :
  i < length l -> nth i (map f l) d = f (nth i l d').
Proof.
  revert i; induction l as [|a l IH]; intros [|i] H; simpl in *; auto; try lia.
  apply IH; lia.
Qed.

Lemma nth_map_seq {A} (f : nat -> A) a n i d :
  i < n -> nth i (map f (seq a n)) d = f (a + i).
Proof.
  intro H. rewrite (nth_map_lt f _ _ d 0) by (rewrite seq_length; auto).
  now rewrite seq_nth.
Qed.

Lemma Forall2_impl {A B} (R S : A -> B -> Prop) l m :
  (forall a b, R a b -> S a b) -> Forall2 R l m -> Forall2 S l m.
Proof. intros H. induction 1; constructor; auto. Qed.
Lemma Forall2_length {A B} (R : A -> B -> Prop) l m : Forall2 R l m -> length l = length m.
Proof. induction 1; cbn; congruence. Qed.
