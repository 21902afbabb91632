(* Properties C91 and C44, continued: loading suites from any JSON documents, and empty ones. *)
From Coq Require ListDec.
From Verif Require Import PyFacts NumFacts PeaksModel PeaksSpec PeaksProofs PeaksLoadSpec PeaksLoadProofs PeaksTreeSpec PeaksProps PeaksLoadProps SuiteModel SuiteProofs.
Local Open Scope string_scope.
Local Open Scope nat_scope.
Local Open Scope list_scope.

(** The dataset [kv] of a document holds the peaks [p]. *)
Definition dataset (kv : string * json) (p : peaks) : Prop := exists d, snd kv = JObj d /\ holds d (fst kv) p.
(** A document whose datasets name nothing twice (as those read from a file) and have lists and tables. *)
Definition proper (kvs : list (string * json)) : Prop := forall k d, In (k, JObj d) kvs -> NoDup (keys d) /\ flat_document d.

Lemma entry_iff kv p : (forall d, snd kv = JObj d -> NoDup (keys d)) -> (entry_peaks kv = Ok p <-> dataset kv p).
Proof.
  intros N. unfold entry_peaks, dataset. destruct kv as [k j]; cbn [fst snd] in *. split.
  - destruct j as [| | | | |d]; try discriminate. intros H. exists d. split; auto. apply loaded; auto.
  - intros (d & -> & H). apply loaded; auto.
Qed.
Lemma entries_iff kvs ps : proper kvs -> (mapM entry_peaks kvs = Ok ps <-> Forall2 dataset kvs ps).
Proof.
  revert ps. induction kvs as [|[k j] kvs IH]; intros ps P; cbn [mapM].
  - split; [intros E; injection E as <-; constructor|]. inversion 1; reflexivity.
  - assert (E : forall p, entry_peaks (k, j) = Ok p <-> dataset (k, j) p).
    { intros p. apply entry_iff. cbn. intros d ->. apply (P k). now left. }
    assert (P' : proper kvs) by (intros x d I; apply (P x); now right).
    split.
    + destruct (entry_peaks (k, j)) as [p|] eqn:A; [|discriminate]. cbn [bind]. destruct (mapM entry_peaks kvs) as [t|] eqn:B; [|discriminate]. cbn [bind].
      intros H; injection H as <-. constructor; [now apply E|now apply IH].
    + inversion 1 as [|? ? ? t D F]; subst. apply E in D. rewrite D. cbn [bind]. apply (IH _ P') in F. now rewrite F.
Qed.

(** A suite is loaded from documents exactly if all their datasets hold peaks, under different
    names, and there is one; its members are those peaks in the order of the documents. *)
Theorem C91_suite : forall docs s, (forall kvs, In kvs docs -> proper kvs) ->
  (suite_from_json (map (fun kvs => Doc (JObj kvs)) docs) = Ok s <->
   Forall2 dataset (List.concat docs) (members s) /\ members s <> [] /\ NoDup (map identifier (members s)) /\ ids s = map identifier (members s)).
Proof.
  intros docs s P. unfold suite_from_json.
  assert (L : mapM json_load (map (fun kvs => Doc (JObj kvs)) docs) = Ok (map JObj docs)).
  { clear P. induction docs as [|kvs docs IH]; cbn [map mapM json_load]; auto. cbn [bind]. now rewrite IH. }
  rewrite L. cbn [bind]. unfold suite_from_dicts.
  assert (M : forall ps, (exists pss, mapM doc_peaks (map JObj docs) = Ok pss /\ ps = List.concat pss) <-> Forall2 dataset (List.concat docs) ps).
  { clear L s. induction docs as [|kvs docs IH]; intros ps; cbn [map mapM List.concat].
    - split; [intros (pss & E & ->); injection E as <-; constructor|]. inversion 1. exists []. auto.
    - assert (IH' := IH (fun k I => P k (or_intror I))). cbn [doc_peaks]. split.
      + intros (pss & E & ->). destruct (mapM entry_peaks kvs) as [p|] eqn:A; [|discriminate]. cbn [bind] in E.
        destruct (mapM doc_peaks (map JObj docs)) as [t|] eqn:B; [|discriminate]. injection E as <-. cbn [List.concat].
        apply Forall2_app; [apply entries_iff; auto; apply P; now left|]. apply IH'. eauto.
      + intros F. apply Forall2_app_inv_l in F as (p1 & p2 & F1 & F2 & ->). apply entries_iff in F1; [|apply P; now left]. rewrite F1. cbn [bind].
        apply IH' in F2 as (pss & -> & ->). exists (p1 :: pss). auto. }
  split.
  - destruct (mapM doc_peaks (map JObj docs)) as [pss|] eqn:E; [|discriminate]. cbn [bind]. intros H.
    assert (NE : List.concat pss <> []) by (intros Q; rewrite Q in H; discriminate).
    destruct (ListDec.NoDup_dec string_dec (map identifier (List.concat pss))) as [N|N].
    + rewrite from_peaks_ok in H by auto. injection H as <-. cbn [members ids]. split; [apply M; eauto|auto].
    + rewrite from_peaks_err in H by auto. discriminate.
  - intros (F & NE & N & I). apply M in F as (pss & -> & Q). cbn [bind]. destruct s as [ms is]. cbn [members ids] in *. subst ms is. now apply from_peaks_ok.
Qed.
Print Assumptions C91_suite.

(** What is said otherwise: no dataset at all, a name given twice, something else than a dataset
    or a document, a file that is missing or broken. *)
Theorem C91_suite_refused :
  suite_from_json [] = Err IndexError /\
  (forall docs, docs <> [] -> (forall kvs, In kvs docs -> kvs = []) -> suite_from_json (map (fun kvs => Doc (JObj kvs)) docs) = Err IndexError) /\
  (forall docs ps, (forall kvs, In kvs docs -> proper kvs) -> Forall2 dataset (List.concat docs) ps -> ~ NoDup (map identifier ps) ->
     suite_from_json (map (fun kvs => Doc (JObj kvs)) docs) = Err KeyError) /\
  (forall j, (forall kvs, j <> JObj kvs) -> suite_from_json [Doc j] = Err AttributeError) /\
  (forall kvs k j rest ps, proper kvs -> Forall2 dataset kvs ps -> (forall d, j <> JObj d) ->
     suite_from_json [Doc (JObj (kvs ++ (k, j) :: rest))] = Err AttributeError) /\
  (forall a b, (forall f, In f a -> exists j, f = Doc j) ->
     suite_from_json (a ++ Absent :: b) = Err FileNotFoundError /\ suite_from_json (a ++ Broken :: b) = Err ValueError).
Proof.
  split; [reflexivity|]. split; [|split; [|split; [|split]]].
  - intros docs NE E. unfold suite_from_json.
    assert (L : mapM json_load (map (fun kvs => Doc (JObj kvs)) docs) = Ok (map JObj docs)).
    { clear E NE. induction docs as [|kvs docs IH]; cbn [map mapM json_load]; auto. cbn [bind]. now rewrite IH. }
    rewrite L. cbn [bind]. unfold suite_from_dicts.
    assert (M : mapM doc_peaks (map JObj docs) = Ok (map (fun _ => []) docs)).
    { clear NE L. induction docs as [|kvs docs IH]; cbn [map mapM]; auto. rewrite (E kvs (or_introl eq_refl)). cbn [doc_peaks mapM bind].
      rewrite IH; auto. intros k I. apply E. now right. }
    rewrite M. cbn [bind]. assert (C : List.concat (map (fun _ : list (string * json) => @nil peaks) docs) = []).
    { clear. induction docs; auto. }
    rewrite C. reflexivity.
  - intros docs ps P F N. unfold suite_from_json.
    assert (L : mapM json_load (map (fun kvs => Doc (JObj kvs)) docs) = Ok (map JObj docs)).
    { clear P F. induction docs as [|kvs docs IH]; cbn [map mapM json_load]; auto. cbn [bind]. now rewrite IH. }
    rewrite L. cbn [bind]. unfold suite_from_dicts.
    assert (M : exists pss, mapM doc_peaks (map JObj docs) = Ok pss /\ ps = List.concat pss).
    { clear L N. revert ps F. induction docs as [|kvs docs IH]; intros ps F; cbn [map mapM List.concat] in *.
      - inversion F. exists []. auto.
      - apply Forall2_app_inv_l in F as (p1 & p2 & F1 & F2 & ->). apply entries_iff in F1; [|apply P; now left]. cbn [doc_peaks]. rewrite F1. cbn [bind].
        destruct (IH (fun k I => P k (or_intror I)) _ F2) as (pss & -> & ->). exists (p1 :: pss). auto. }
    destruct M as (pss & -> & ->). cbn [bind]. apply from_peaks_err; auto. intros Q. apply N. rewrite Q. constructor.
  - intros j H. unfold suite_from_json. cbn [mapM json_load bind]. unfold suite_from_dicts. cbn [mapM]. destruct j as [| | | | |kvs]; try reflexivity. exfalso. now apply (H kvs).
  - intros kvs k j rest ps P F H. unfold suite_from_json. cbn [mapM json_load bind]. unfold suite_from_dicts. cbn [mapM doc_peaks].
    assert (M : mapM entry_peaks (kvs ++ (k, j) :: rest) = Err AttributeError).
    { revert ps P F. induction kvs as [|[x i] kvs IH]; intros ps P F; cbn [app mapM].
      - unfold entry_peaks. cbn [snd]. destruct j as [| | | | |d]; try reflexivity. exfalso. now apply (H d).
      - inversion F as [|? ? ? t D F']; subst. apply entry_iff in D; [|cbn; intros d ->; apply (P x); now left]. rewrite D. cbn [bind].
        rewrite (IH t); auto. intros y0 d I. apply (P y0). now right. }
    now rewrite M.
  - intros a b A. unfold suite_from_json.
    assert (M : forall f e, json_load f = Err e -> mapM json_load (a ++ f :: b) = Err e).
    { intros f e E. revert A. induction a as [|g a IH]; intros A; cbn [app mapM]; [now rewrite E|].
      destruct (A g (or_introl eq_refl)) as [j ->]. cbn [json_load bind]. rewrite IH; auto. intros h I. apply A. now right. }
    split; erewrite M by reflexivity; reflexivity.
Qed.
Print Assumptions C91_suite_refused.

Example C91_suite_example :
  proper [("h", JObj by_hand); ("g", JObj by_hand)] /\
  (exists s, suite_from_json [Doc (JObj [("h", JObj by_hand); ("g", JObj by_hand)])] = Ok s /\ ids s = ["h"; "g"]) /\
  suite_from_json [Doc (JObj [("h", JObj by_hand)]); Doc (JObj [("h", JObj by_hand)])] = Err KeyError.
Proof.
  split; [|split; [eexists; split; reflexivity|reflexivity]].
  assert (N : NoDup (keys by_hand)) by (repeat constructor; cbn; intuition discriminate).
  intros k d [Q|[Q|[]]]; injection Q as <- <-; (split; [exact N|exact C91_by_hand_flat]).
Qed.

(** ** C44: no suite without members *)
Theorem C44_empty : forall (M : Type) (ident : M -> string) ss,
  from_peaks ident [] = Err IndexError /\ from_peakssuite ident [] = Err IndexError /\
  from_peakssuite ident (mkSuite [] [] :: ss) = Err IndexError.
Proof. intros. repeat split. Qed.
Print Assumptions C44_empty.
