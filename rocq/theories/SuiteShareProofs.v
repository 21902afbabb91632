(* Which objects a rejection in a suite reaches. *)
From Coq Require Import List Arith Lia Bool String.
From Verif Require Import Py PyFacts PeaksModel PeaksSpec PeaksProofs SuiteModel SuiteSpec SuiteProofs.
Import ListNotations.
Local Open Scope bool_scope.
Local Open Scope nat_scope.

Lemma set_nth_length {A} n (a : A) l : List.length (set_nth n a l) = List.length l.
Proof. revert n. induction l as [|b l IH]; intros [|n]; cbn [set_nth List.length]; auto. Qed.

Lemma deref_set w r p i : r < List.length (objs w) ->
  deref (set_obj w r p) i = if i =? r then p else deref w i.
Proof.
  intros H. unfold deref, set_obj; cbn [objs]. rewrite nth_set_nth.
  apply Nat.ltb_lt in H. rewrite H, andb_true_r. reflexivity.
Qed.

Lemma reject_refs_length rs : forall w x,
  List.length (objs (fst (reject_refs w rs x))) = List.length (objs w).
Proof.
  induction rs as [|r rs IH]; intros w x; cbn [reject_refs]; [reflexivity|].
  destruct (do_reject (deref w r) x) as [p [u|e]]; cbn [fst].
  - rewrite IH. unfold set_obj; cbn [objs]. apply set_nth_length.
  - unfold set_obj; cbn [objs]. apply set_nth_length.
Qed.

Lemma reject_refs_outside rs : forall w x i,
  ~ In i rs -> deref (fst (reject_refs w rs x)) i = deref w i.
Proof.
  induction rs as [|r rs IH]; intros w x i H; cbn [reject_refs]; [reflexivity|].
  assert (N : i <> r) by (intros ->; apply H; left; reflexivity).
  assert (M : ~ In i rs) by (intros K; apply H; right; exact K).
  assert (D : forall p, deref (set_obj w r p) i = deref w i).
  { intros p. unfold deref, set_obj; cbn [objs]. rewrite nth_set_nth.
    apply Nat.eqb_neq in N. rewrite N. reflexivity. }
  destruct (do_reject (deref w r) x) as [p [u|e]]; cbn [fst].
  - rewrite IH by exact M. apply D.
  - apply D.
Qed.

Lemma reject_refs_all rs : forall w x, NoDup rs ->
  Forall (fun r => r < List.length (objs w)) rs ->
  (forall r, In r rs -> snd (do_reject (deref w r) x) = Ok tt) ->
  snd (reject_refs w rs x) = Ok tt
  /\ forall r, In r rs -> deref (fst (reject_refs w rs x)) r = fst (do_reject (deref w r) x).
Proof.
  induction rs as [|r rs IH]; intros w x N F H; cbn [reject_refs].
  - split; [reflexivity|]. intros r [].
  - inversion N as [|? ? N1 N2]; subst. inversion F as [|? ? F1 F2]; subst.
    pose proof (H r (or_introl eq_refl)) as E.
    destruct (do_reject (deref w r) x) as [p res] eqn:D. cbn [snd] in E. subst res.
    destruct (IH (set_obj w r p) x N2) as [Q1 Q2].
    + unfold set_obj; cbn [objs]. rewrite set_nth_length. exact F2.
    + intros i Hi. rewrite deref_set by exact F1.
      assert (X : i <> r) by (intros ->; apply N1; exact Hi).
      apply Nat.eqb_neq in X. rewrite X. apply H. right. exact Hi.
    + split; [exact Q1|]. intros i [<- | Hi].
      * rewrite reject_refs_outside by exact N1. rewrite deref_set by exact F1.
        rewrite Nat.eqb_refl, D. reflexivity.
      * rewrite (Q2 i Hi). rewrite deref_set by exact F1.
        assert (X : i <> r) by (intros ->; apply N1; exact Hi).
        apply Nat.eqb_neq in X. rewrite X. reflexivity.
Qed.

Lemma reject_refs_stop pre r post : forall w x e, NoDup (pre ++ r :: post) ->
  Forall (fun r => r < List.length (objs w)) (pre ++ r :: post) ->
  (forall i, In i pre -> snd (do_reject (deref w i) x) = Ok tt) ->
  snd (do_reject (deref w r) x) = Err e ->
  snd (reject_refs w (pre ++ r :: post) x) = Err e
  /\ (forall i, In i pre \/ i = r ->
       deref (fst (reject_refs w (pre ++ r :: post) x)) i = fst (do_reject (deref w i) x))
  /\ (forall i, In i post ->
       deref (fst (reject_refs w (pre ++ r :: post) x)) i = deref w i).
Proof.
  induction pre as [|a pre IH]; intros w x e N F H E; cbn [app reject_refs] in *.
  - inversion N as [|? ? N1 N2]; subst. inversion F as [|? ? F1 F2]; subst.
    destruct (do_reject (deref w r) x) as [p res] eqn:D. cbn [snd] in E. subst res. cbn [fst snd].
    split; [reflexivity|]. split.
    + intros i [[] | ->]. rewrite deref_set by exact F1. rewrite Nat.eqb_refl, D. reflexivity.
    + intros i Hi. rewrite deref_set by exact F1.
      assert (X : i <> r) by (intros ->; apply N1; exact Hi).
      apply Nat.eqb_neq in X. rewrite X. reflexivity.
  - inversion N as [|? ? N1 N2]; subst. inversion F as [|? ? F1 F2]; subst.
    pose proof (H a (or_introl eq_refl)) as E1.
    destruct (do_reject (deref w a) x) as [p res] eqn:D. cbn [snd] in E1. subst res.
    assert (K : forall i, In i (pre ++ r :: post) -> deref (set_obj w a p) i = deref w i).
    { intros i Hi. rewrite deref_set by exact F1.
      assert (X : i <> a) by (intros ->; apply N1; exact Hi).
      apply Nat.eqb_neq in X. rewrite X. reflexivity. }
    destruct (IH (set_obj w a p) x e N2) as (Q1 & Q2 & Q3).
    + unfold set_obj; cbn [objs]. rewrite set_nth_length. exact F2.
    + intros i Hi. rewrite K by (apply in_or_app; left; exact Hi). apply H. right. exact Hi.
    + rewrite K by (apply in_or_app; right; left; reflexivity). exact E.
    + split; [exact Q1|]. split.
      * intros i [[<- | Hi] | ->].
        -- rewrite reject_refs_outside by exact N1. rewrite deref_set by exact F1.
           rewrite Nat.eqb_refl, D. reflexivity.
        -- rewrite Q2 by auto. rewrite K by (apply in_or_app; left; exact Hi). reflexivity.
        -- rewrite Q2 by auto. rewrite K by (apply in_or_app; right; left; reflexivity). reflexivity.
      * intros i Hi. rewrite Q3 by exact Hi. apply K. apply in_or_app. right. right. exact Hi.
Qed.
