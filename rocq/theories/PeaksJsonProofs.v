(* Proofs about the JSON part and the equality of PeaksModel.v. *)
From Verif Require Import PyFacts NumFacts PeaksModel PeaksSpec PeaksProofs.
Local Open Scope string_scope.
Local Open Scope nat_scope.
Local Open Scope list_scope.

(** * Arrays and JSON trees *)

Lemma rows_S {A} r c (l : list A) : rows (S r) c l = firstn c l :: rows r c (skipn c l).
Proof.
  unfold rows, range. cbn [seq map]. cbn [Nat.mul skipn]. f_equal.
  rewrite <- seq_shift, map_map. apply map_ext. intros i.
  cbn [Nat.mul]. f_equal. generalize (i * c) as m. intros m. clear.
  revert l. induction c as [|c IH]; intros l; cbn [Nat.add]; [reflexivity|].
  destruct l; cbn [skipn]; [rewrite skipn_nil; reflexivity|apply IH].
Qed.
Lemma rows_concat {A} r c (l : list A) : List.length l = r * c -> concat (rows r c l) = l.
Proof.
  revert l. induction r as [|r IH]; intros l H.
  - destruct l; [reflexivity|discriminate].
  - rewrite rows_S. cbn [concat]. rewrite IH, firstn_skipn; [reflexivity|].
    rewrite skipn_length. cbn in H. lia.
Qed.
Lemma rows_length {A} r c (l : list A) : List.length (rows r c l) = r.
Proof. unfold rows, range. rewrite map_length, seq_length. reflexivity. Qed.
Lemma rows_each {A} r c (l : list A) : List.length l = r * c ->
  Forall (fun x => List.length x = c) (rows r c l).
Proof.
  revert l. induction r as [|r IH]; intros l H; [constructor|].
  rewrite rows_S. cbn in H. constructor.
  - rewrite firstn_length. lia.
  - apply IH. rewrite skipn_length. lia.
Qed.

Section Leaf.
  Context {A : Type} (wr : A -> json) (rd : json -> result A).
  Hypothesis rd_wr : forall x, rd (wr x) = Ok x.
  Hypothesis wr_leaf : forall x l, wr x <> JArr l.
  Lemma mapM_leaf l : mapM rd (map wr l) = Ok l.
  Proof. induction l as [|a l IH]; cbn; [reflexivity|]. rewrite rd_wr; cbn. rewrite IH. reflexivity. Qed.
  Lemma mapM_lists ls : mapM (as_list rd) (map (fun l => JArr (map wr l)) ls) = Ok ls.
  Proof.
    induction ls as [|a l IH]; cbn [map mapM as_list]; [reflexivity|].
    rewrite mapM_leaf; cbn [bind]. rewrite IH. reflexivity.
  Qed.
  Lemma to_nd_tolist a : List.length (dat a) = size (shp a) ->
    to_nd rd (tolist wr a) = Ok (match shp a with S2 O _ => ND (S1 0) (dat a) | _ => a end).
  Proof.
    destruct a as [[n|r c] l]; cbn [shp dat size]; unfold tolist; cbn [shp dat]; intros H.
    - assert (to_nd rd (JArr (map wr l)) =
              bind (mapM rd (map wr l)) (fun xs => Ok (ND (S1 (List.length xs)) xs))) as ->.
      { destruct l as [|x l]; [reflexivity|]. cbn [map to_nd].
        destruct (wr x) eqn:E; try reflexivity. exfalso. eapply wr_leaf; eauto. }
      rewrite mapM_leaf. cbn [bind]. rewrite H. reflexivity.
    - destruct r as [|r].
      + destruct l; [reflexivity|discriminate].
      + rewrite rows_S. cbn [map to_nd].
        change (JArr (map wr (firstn c l)) :: map (fun l => JArr (map wr l)) (rows r c (skipn c l)))
          with (map (fun l => JArr (map wr l)) (firstn c l :: rows r c (skipn c l))).
        rewrite <- rows_S, mapM_lists. cbn [bind].
        rewrite map_length. assert (List.length (firstn c l) = c) as ->.
        { rewrite firstn_length. cbn in H. lia. }
        assert (forallb (fun x => List.length x =? c) (rows (S r) c l) = true) as ->.
        { apply forallb_forall. intros x Hx. apply Nat.eqb_eq.
          pose proof (rows_each (S r) c l H) as F. rewrite Forall_forall in F. auto. }
        rewrite rows_length, rows_concat by exact H. reflexivity.
  Qed.
End Leaf.

(** The object read back: only an array without rows loses its column count. *)
Definition squash {A} (a : nd A) : nd A :=
  match shp a with S2 O _ => ND (S1 0) (dat a) | _ => a end.
Definition squash_peaks (p : peaks) : peaks :=
  mkPeaks (identifier p) (map (fun kv => (fst kv, squash (snd kv))) (fields p)) (squash (valid p)).

Lemma read_num a : List.length (dat a) = size (shp a) -> to_nd leaf_num (tolist JNum a) = Ok (squash a).
Proof. apply (to_nd_tolist JNum leaf_num); [reflexivity|discriminate]. Qed.
Lemma read_bool a : List.length (dat a) = size (shp a) -> to_nd leaf_bool (tolist JBool a) = Ok (squash a).
Proof. apply (to_nd_tolist JBool leaf_bool); [reflexivity|discriminate]. Qed.

Lemma assoc_app {A} k (l m : list (string * A)) : ~ In k (map fst l) -> assoc k (l ++ m) = assoc k m.
Proof.
  induction l as [|[k' v] t IH]; cbn [app assoc map fst In]; intros H; [reflexivity|].
  destruct (String.eqb_spec k k'); [subst; tauto|]. apply IH. tauto.
Qed.
Lemma dict_del_absent {A} k (l : dict A) : ~ In k (map fst l) -> dict_del k l = l.
Proof.
  induction l as [|[k' v] t IH]; cbn [map fst In]; intros H; [reflexivity|].
  unfold dict_del in *. cbn [filter fst]. destruct (String.eqb_spec k k'); [subst; tauto|].
  cbn [negb]. rewrite IH by tauto. reflexivity.
Qed.
Lemma dict_del_app {A} k (l m : dict A) : dict_del k (l ++ m) = dict_del k l ++ dict_del k m.
Proof. apply filter_app. Qed.
Lemma dict_del_head {A} k v (l : dict A) : ~ In k (map fst l) -> dict_del k ((k, v) :: l) = l.
Proof.
  intros H. unfold dict_del. cbn [filter fst]. rewrite String.eqb_refl. cbn [negb].
  apply (dict_del_absent k l H).
Qed.

Definition written (p : peaks) : dict json :=
  map (fun kv => (fst kv, tolist JNum (snd kv))) (fields p).
Lemma written_keys p : map fst (written p) = map fst (fields p).
Proof. unfold written. rewrite map_map. reflexivity. Qed.

Lemma from_to_dict s p : well_formed s p ->
  from_dict (to_dict p) (identifier p) = (written p, Ok (squash_peaks p)).
Proof.
  intros W. pose proof W as ((f & v & kw & Ef) & F & Sv & Lv & ND & FN).
  assert (NV : forall k, k = "valid" \/ k = "identifier" \/ k = "self" -> ~ In k (map fst (written p))).
  { intros k Hk. rewrite written_keys. intros Hi. rewrite Forall_forall in FN.
    specialize (FN k Hi). destruct Hk as [Hk|[Hk|Hk]]; subst; tauto. }
  assert (D : dict_del "valid" (to_dict p) = written p).
  { unfold to_dict. rewrite dict_del_app. fold (written p).
    rewrite (dict_del_absent "valid" (written p)) by (apply NV; auto).
    cbn. apply app_nil_r. }
  unfold from_dict. cbv zeta. rewrite D. f_equal.
  assert (has_key "identifier" (written p) = false) as ->.
  { unfold has_key. destruct (assoc "identifier" (written p)) eqn:E; [|reflexivity].
    exfalso. apply (NV "identifier"); auto. apply assoc_In in E.
    apply (in_map fst) in E. exact E. }
  assert (has_key "self" (written p) = false) as ->.
  { unfold has_key. destruct (assoc "self" (written p)) eqn:E; [|reflexivity].
    exfalso. apply (NV "self"); auto. apply assoc_In in E.
    apply (in_map fst) in E. exact E. }
  assert (assoc "valid" (to_dict p) = Some (tolist JBool (valid p))) as ->.
  { unfold to_dict. fold (written p). rewrite assoc_app by (apply NV; auto). reflexivity. }
  unfold written. rewrite Ef. cbn [map fst snd].
  cbn [assoc String.eqb Ascii.eqb Bool.eqb].
  rewrite Ef in F, ND, FN. cbn [map fst] in ND, FN. inversion F as [|? ? [Sf Lf] F1]; subst.
  inversion F1 as [|? ? [Sv' Lv'] F2]; subst. cbn [snd] in *.
  rewrite (read_num f), (read_num v) by congruence. cbn [bind].
  inversion ND as [|? ? N1 ND1]; subst. inversion ND1 as [|? ? N2 ND2]; subst.
  set (w := map (fun kv : string * nd flt => (fst kv, tolist JNum (snd kv))) kw).
  assert (Kw : map fst w = map fst kw) by (unfold w; rewrite map_map; reflexivity).
  assert (dict_del "frequency" (("frequency", tolist JNum f) :: ("velocity", tolist JNum v) :: w)
          = ("velocity", tolist JNum v) :: w) as ->.
  { apply dict_del_head. cbn [map fst]. rewrite Kw. exact N1. }
  rewrite dict_del_head by (rewrite Kw; exact N2).
  assert (NC : forall y, In y kw -> computed (fst y) = false).
  { intros y Hy. destruct (computed (fst y)) eqn:C; [|reflexivity]. exfalso. rewrite Forall_forall in FN.
    specialize (FN (fst y) (or_intror (or_intror (in_map fst _ _ Hy)))).
    unfold computed in C. rewrite !orb_true_iff, !String.eqb_eq in C. tauto. }
  assert (mapM (fun kv => bind (to_nd leaf_num (snd kv)) (fun a => if computed (fst kv) then Err AttributeError else Ok (fst kv, a))) w
          = Ok (map (fun kv => (fst kv, squash (snd kv))) kw)) as ->.
  { unfold w. clear - F2 NC. induction kw as [|[k a] t IH]; [reflexivity|].
    inversion F2 as [|? ? [S1' L1'] F3]; subst. cbn [map mapM fst snd].
    rewrite read_num by (cbn [snd] in *; congruence). cbn [bind].
    pose proof (NC _ (or_introl eq_refl)) as C. cbn [fst] in C. rewrite C. cbn [bind].
    rewrite (IH F3); [reflexivity|]. intros y Hy. apply NC. now right. }
  cbn [bind]. unfold new_peaks.
  assert (existsb (fun kv : string * nd flt => computed (fst kv))
                  (map (fun kv : string * nd flt => (fst kv, squash (snd kv))) kw) = false) as ->.
  { destruct (existsb _ _) eqn:E; [|reflexivity]. exfalso.
    apply existsb_exists in E as (x & Hx & C). apply in_map_iff in Hx as (y & <- & Hy).
    cbn [fst] in C. rewrite (NC y Hy) in C. discriminate. }
  cbn [bind]. rewrite (read_bool (valid p)) by congruence.
  destruct (tolist JBool (valid p)) eqn:T; cbn [bind];
    try (unfold tolist in T; destruct (shp (valid p)); discriminate).
  unfold squash_peaks, set_valid. cbn [identifier fields]. rewrite Ef. reflexivity.
Qed.

Lemma squash_dat {A} (a : nd A) : dat (squash a) = dat a.
Proof. unfold squash. destruct (shp a) as [|[|r] c]; reflexivity. Qed.
Lemma squash_id {A} (a : nd A) : (forall c, shp a <> S2 0 c) -> squash a = a.
Proof. unfold squash. destruct (shp a) as [|[|r] c]; auto. intros H. exfalso. apply (H c); auto. Qed.
Lemma squash_same p : same_content p (squash_peaks p).
Proof.
  unfold same_content, squash_peaks; cbn [identifier fields valid].
  rewrite !map_map. cbn [fst snd]. split; [auto|]. split; [auto|]. split; [|apply squash_dat].
  apply map_ext. intros kv. apply squash_dat.
Qed.
Lemma squash_peaks_id s p : well_formed s p -> (forall c, s <> S2 0 c) -> squash_peaks p = p.
Proof.
  intros (_ & F & Sv & _) H. unfold squash_peaks. destruct p as [i fs v]; cbn [identifier fields valid] in *.
  rewrite squash_id by congruence. f_equal.
  induction F as [|[k a] t [Sa La] F IH]; cbn [map fst snd]; [reflexivity|].
  rewrite squash_id by (cbn [snd] in *; congruence). rewrite IH. reflexivity.
Qed.

Lemma dict_set_absent {A} k (v : A) d : has_key k d = false -> dict_set k v d = d ++ [(k, v)].
Proof.
  unfold has_key. induction d as [|[k' v'] t IH]; cbn [assoc dict_set app]; [reflexivity|].
  destruct (String.eqb k k'); [discriminate|]. intros H. rewrite IH; auto.
Qed.
Lemma has_key_In {A} k (d : dict A) : has_key k d = true <-> In k (map fst d).
Proof.
  unfold has_key. destruct (assoc k d) eqn:E.
  - split; [|auto]. intros _. apply assoc_In in E. apply (in_map fst) in E. exact E.
  - apply assoc_none in E. split; [discriminate|tauto].
Qed.

Lemma json_round_trip s p f : well_formed s p ->
  exists q, from_json (final f (fst (to_json p false f))) = Ok q
    /\ same_content p q /\ ((forall c, s <> S2 0 c) -> q = p).
Proof.
  intros W. exists (squash_peaks p). split; [|split; [apply squash_same|apply squash_peaks_id; auto]].
  unfold to_json, dump_states, final; cbn [fst last]. unfold from_json; cbn [json_load bind].
  rewrite (from_to_dict s p W). reflexivity.
Qed.

(** * Equality *)

Lemma isclose_spec x y : isclose x y = true <-> close_to x y.
Proof.
  destruct x, y; cbn; try (split; auto; discriminate).
  apply Qcleb_le.
Qed.
Lemma forallb_combine (f : flt -> flt -> bool) l m : List.length l = List.length m ->
  forallb (fun xy => f (fst xy) (snd xy)) (combine l m) = true <-> Forall2 (fun x y => f x y = true) l m.
Proof.
  revert m. induction l as [|x l IH]; intros [|y m] H; cbn in *; try discriminate.
  - split; constructor.
  - rewrite andb_true_iff, IH by lia. split.
    + intros [? ?]; constructor; auto.
    + intros F; inversion F; auto.
Qed.
Lemma allclose_true l m : allclose l m = Ok true ->
  Forall2 close_to l m
  \/ (exists x, l = [x] /\ List.length m <> 1 /\ Forall (close_to x) m)
  \/ (exists y, m = [y] /\ List.length l <> 1 /\ Forall (fun x => close_to x y) l).
Proof.
  unfold allclose. destruct (Nat.eqb_spec (List.length l) (List.length m)) as [E|E].
  - intros [= H]. left. apply forallb_combine in H; auto.
    eapply Forall2_impl; [|exact H]. intros; apply isclose_spec; auto.
  - destruct l as [|x [|x' l]].
    + destruct m as [|y [|y' m]]; try discriminate. intros _. right; right. exists y.
      split; [auto|]. split; [cbn; lia|]. constructor.
    + intros [= H]. right; left. exists x. split; [auto|]. split; [cbn in E; lia|].
      rewrite Forall_forall. rewrite forallb_forall in H. intros y Hy. apply isclose_spec. auto.
    + destruct m as [|y [|y' m]]; try discriminate. intros [= H]. right; right. exists y.
      split; [auto|]. split; [cbn; lia|].
      rewrite Forall_forall. change (forallb (fun x => isclose x y) (x :: x' :: l) = true) in H.
      rewrite forallb_forall in H. intros z Hz. apply isclose_spec. auto.
Qed.
Lemma allclose_refl l : allclose l l = Ok true.
Proof.
  unfold allclose. rewrite Nat.eqb_refl. f_equal. apply forallb_combine; auto.
  induction l as [|x l IH]; constructor; auto. apply isclose_spec.
  destruct x; cbn; auto. replace (q - q)%Qc with 0%Qc by ring.
  change (Qcabs 0) with 0%Qc.
  assert (0 <= Qcabs q)%Qc by apply Qcabs_nonneg. qclra.
Qed.

Lemma attrs_eq_true p q ks : attrs_eq p q ks = Ok true ->
  forall k, In k ks -> exists l m, public p k = Ok l /\ public q k = Ok m /\ allclose l m = Ok true.
Proof.
  induction ks as [|k ks IH]; cbn [attrs_eq In]; [tauto|].
  destruct (public p k) as [l|[]] eqn:P; try discriminate.
  destruct (public q k) as [m|[]] eqn:Q; try discriminate.
  destruct (allclose l m) as [[|]|[]] eqn:C; try discriminate.
  intros H k' [<-|Hk]; [eauto|auto].
Qed.
Lemma attrs_eq_all p q ks :
  (forall k, In k ks -> exists l m, public p k = Ok l /\ public q k = Ok m /\ allclose l m = Ok true) ->
  attrs_eq p q ks = Ok true.
Proof.
  induction ks as [|k ks IH]; cbn [attrs_eq In]; [reflexivity|]. intros H.
  destruct (H k (or_introl eq_refl)) as (l & m & -> & -> & ->). apply IH. auto.
Qed.

Lemma readable_of_ok p k l : public p k = Ok l -> readable p k.
Proof.
  intros H. unfold readable, derived.
  destruct (string_dec k "slowness"); [tauto|].
  destruct (string_dec k "wavelength"); [tauto|].
  destruct (string_dec k "wavenumber"); [tauto|].
  right. unfold public in H.
  destruct (String.eqb_spec k "slowness"); [tauto|].
  destruct (String.eqb_spec k "wavelength"); [tauto|].
  destruct (String.eqb_spec k "wavenumber"); [tauto|].
  destruct (propertied k) eqn:P; [|discriminate]. apply propertied_named in P.
  split; [auto|]. unfold masked, field_of in H.
  destruct (assoc k (fields p)) eqn:A; [|discriminate].
  apply assoc_In in A. apply (in_map fst) in A. exact A.
Qed.

Lemma peaks_eq_true s t p q : well_formed s p -> well_formed t q -> peaks_eq p q = Ok true ->
  identifier p = identifier q
  /\ Permutation (attrs p) (attrs q)
  /\ forall k, In k (attrs p) ->
       let l := map (value p k) (valid_positions p) in
       let m := map (value q k) (valid_positions q) in
       Forall2 close_to l m
       \/ (List.length l = 1 /\ List.length m <> 1 /\ forall x y, In x l -> In y m -> close_to x y)
       \/ (List.length m = 1 /\ List.length l <> 1 /\ forall x y, In x l -> In y m -> close_to x y).
Proof.
  intros W W' H. unfold peaks_eq in H.
  destruct (String.eqb_spec (identifier p) (identifier q)) as [I|]; [|discriminate]. cbn [negb] in H.
  destruct (Nat.eqb_spec (List.length (attrs p)) (List.length (attrs q))) as [L|]; [|discriminate].
  cbn [negb] in H. pose proof (attrs_eq_true p q _ H) as A. split; [auto|]. split.
  - apply NoDup_Permutation_bis; [|lia|].
    + unfold attrs. apply W.
    + intros k Hk. destruct (A k Hk) as (l & m & P & Q & _).
      apply readable_of_ok in Q. destruct Q as [D|[_ Q]]; [|exact Q].
      exfalso. exact (wf_not_derived s p W k Hk D).
  - intros k Hk. destruct (A k Hk) as (l & m & P & Q & C).
    rewrite (public_ok s p k W) in P by (eapply readable_of_ok; eauto).
    rewrite (public_ok t q k W') in Q by (eapply readable_of_ok; eauto).
    injection P as <-. injection Q as <-. cbv zeta.
    apply allclose_true in C. destruct C as [C|[(x & -> & N & F)|(y & -> & N & F)]]; [auto| |].
    + right; left. split; [auto|]. split; [auto|]. intros x' y' [<-|[]] Hy.
      rewrite Forall_forall in F. auto.
    + right; right. split; [auto|]. split; [auto|]. intros x' y' Hx [<-|[]].
      rewrite Forall_forall in F. auto.
Qed.
Lemma peaks_eq_refl s p : well_formed s p -> (forall k, In k (attrs p) -> named k) ->
  peaks_eq p p = Ok true.
Proof.
  intros W N. unfold peaks_eq. rewrite String.eqb_refl, Nat.eqb_refl. cbn [negb].
  apply attrs_eq_all. intros k Hk.
  rewrite (public_ok s p k W) by (right; split; auto).
  eexists _, _. split; [reflexivity|]. split; [reflexivity|]. apply allclose_refl.
Qed.
