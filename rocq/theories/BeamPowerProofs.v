(* Proofs about frequency-domain beamforming. *)
From Verif Require Import BeamModel BeamSpec PyFacts NumFacts BeamProofs.
From Coq Require Import Lra Lia.
Local Open Scope R_scope.
Local Open Scope list_scope.

Lemma quadratic_form n steer m : List.length steer = n -> square n m ->
  quadratic steer m = form n m (fun a => nth a steer C0).
Proof.
  intros Hs [Hm Hr]. unfold quadratic, form.
  rewrite (Csum_map2 Cmul C0 C0) by (unfold range; now rewrite map_length, seq_length).
  rewrite map_length. unfold range. rewrite seq_length, Hs.
  rewrite (sumC_ext n _ (fun c => sumC n (fun a => Cmul (Cmul (Cconj (nth a steer C0)) (at2 m a c)) (nth c steer C0)))).
  - apply sumC_exchange.
  - intros c Hc. rewrite nth_map_seq by auto. cbn [Nat.add].
    rewrite (Csum_map2 (fun s row => Cmul (Cconj s) (nth c row C0)) C0 []) by congruence.
    rewrite Hs. now rewrite sumC_mul_r.
Qed.
Lemma sscm_square n b t : tensor n b t -> square n (sscm t).
Proof.
  intros [Hl Hr]. unfold sscm. split; [now rewrite map_length|]. intros r I. apply in_map_iff in I.
  destruct I as (x & <- & _). now rewrite map_length.
Qed.
Lemma tensor_row n b t a : tensor n b t -> (a < n)%nat -> List.length (nth a t []) = b.
Proof. intros [Hl Hr] Ha. apply Hr, nth_In. lia. Qed.
Lemma sscm_at n b t a c : tensor n b t -> (a < n)%nat -> (c < n)%nat ->
  at2 (sscm t) a c = Cmul (sumC b (fun j => Cmul (at2 t a j) (Cconj (at2 t c j)))) (RtoC (/ INR b)).
Proof.
  intros T Ha Hc. pose proof T as [Hl Hr]. unfold at2 at 1, sscm.
  rewrite (nth_map_lt _ _ _ _ []) by lia. rewrite (nth_map_lt _ _ _ _ []) by lia.
  rewrite (tensor_row n b t a) by auto. f_equal.
  rewrite (Csum_map2 _ C0 C0) by now rewrite !(tensor_row n b t).
  now rewrite (tensor_row n b t a).
Qed.
Lemma geometric_at wt xs a c : (a < List.length xs)%nat -> (c < List.length xs)%nat ->
  nth c (nth a (geometric wt xs) []) 0 = receiver_weight wt (nth a xs 0) * receiver_weight wt (nth c xs 0).
Proof.
  intros Ha Hc. unfold geometric, receiver_weight.
  destruct wt as [w|]; [destruct (String.eqb w "sqrt")|];
    rewrite (nth_map_lt _ _ _ _ 0) by auto; rewrite (nth_map_lt _ _ _ _ 0) by auto; ring.
Qed.
Lemma geometric_shape wt xs : List.length (geometric wt xs) = List.length xs /\
  forall r, In r (geometric wt xs) -> List.length r = List.length xs.
Proof.
  unfold geometric. destruct wt as [w|]; [destruct (String.eqb w "sqrt")|];
    (split; [now rewrite map_length|]); intros r I; apply in_map_iff in I; destruct I as (x & <- & _); now rewrite map_length.
Qed.
Lemma weigh_square n m wt xs : square n m -> List.length xs = n -> square n (weigh m (geometric wt xs)).
Proof.
  intros [Hl Hr] Hx. destruct (geometric_shape wt xs) as [G1 G2]. unfold weigh. split.
  - rewrite length_map2, G1. lia.
  - intros r I. apply (In_nth _ _ []) in I. destruct I as (i & Hi & <-). rewrite length_map2 in Hi.
    rewrite (nth_map2 _ _ _ _ [] []) by lia. rewrite length_map2, Hr, G2 by (apply nth_In; lia). lia.
Qed.
Lemma weigh_at n m wt xs a c : square n m -> List.length xs = n -> (a < n)%nat -> (c < n)%nat ->
  at2 (weigh m (geometric wt xs)) a c
  = Cmul (at2 m a c) (RtoC (receiver_weight wt (nth a xs 0) * receiver_weight wt (nth c xs 0))).
Proof.
  intros [Hl Hr] Hx Ha Hc. destruct (geometric_shape wt xs) as [G1 G2]. unfold at2, weigh.
  rewrite (nth_map2 _ _ _ _ [] []) by lia.
  rewrite (nth_map2 _ _ _ _ C0 0) by (rewrite ?Hr, ?G2; try (apply nth_In; lia); lia).
  now rewrite geometric_at by lia.
Qed.

(** The beam of block [j]: sum over the channels of conj(steering) * weight * spectrum. *)
Definition beam (n : nat) (s : nat -> C) (w : nat -> R) (t : list (list C)) (j : nat) : C :=
  sumC n (fun a => Cmul (Cmul (Cconj (s a)) (RtoC (w a))) (at2 t a j)).
Lemma power_form n b t s (w : nat -> R) m :
  (forall a c, (a < n)%nat -> (c < n)%nat -> at2 m a c =
     Cmul (Cmul (sumC b (fun j => Cmul (at2 t a j) (Cconj (at2 t c j)))) (RtoC (/ INR b))) (RtoC (w a * w c))) ->
  form n m s = RtoC (/ INR b * sumR b (fun j => Cmod (beam n s w t j) * Cmod (beam n s w t j))).
Proof.
  intros Hm. unfold form.
  transitivity (sumC n (fun a => sumC n (fun c => sumC b (fun j =>
     Cmul (RtoC (/ INR b)) (Cmul (Cmul (Cmul (Cconj (s a)) (RtoC (w a))) (at2 t a j))
           (Cconj (Cmul (Cmul (Cconj (s c)) (RtoC (w c))) (at2 t c j)))))))).
  - apply sumC_ext. intros a Ha. apply sumC_ext. intros c Hc. rewrite Hm by auto.
    rewrite RtoC_mul.
    transitivity (Cmul (Cmul (RtoC (/ INR b)) (Cmul (Cmul (Cconj (s a)) (RtoC (w a))) (Cmul (s c) (RtoC (w c)))))
                       (sumC b (fun j => Cmul (at2 t a j) (Cconj (at2 t c j))))); [ring|].
    rewrite <- sumC_mul. apply sumC_ext. intros j Hj. rewrite !Cconj_mul, Cconj_conj, Cconj_real. ring.
  - transitivity (sumC b (fun j => Cmul (RtoC (/ INR b)) (Cmul (beam n s w t j) (Cconj (beam n s w t j))))).
    + transitivity (sumC n (fun a => sumC b (fun j => sumC n (fun c =>
        Cmul (RtoC (/ INR b)) (Cmul (Cmul (Cmul (Cconj (s a)) (RtoC (w a))) (at2 t a j))
           (Cconj (Cmul (Cmul (Cconj (s c)) (RtoC (w c))) (at2 t c j)))))))).
      { apply sumC_ext. intros a _. apply sumC_exchange. }
      rewrite sumC_exchange. apply sumC_ext. intros j _.
      unfold beam at 2. rewrite <- sumC_conj.
      transitivity (sumC n (fun a => Cmul (Cmul (Cmul (Cconj (s a)) (RtoC (w a))) (at2 t a j))
         (Cmul (RtoC (/ INR b)) (sumC n (fun c => Cconj (Cmul (Cmul (Cconj (s c)) (RtoC (w c))) (at2 t c j))))))).
      * apply sumC_ext. intros a _. rewrite <- !sumC_mul. apply sumC_ext. intros c _. ring.
      * rewrite sumC_mul_r. unfold beam. ring.
    + rewrite <- sumR_mul, <- sumR_real. apply sumC_ext. intros j _. rewrite Cmul_conj, !RtoC_mul; reflexivity.
Qed.

(** * The correlation matrix *)
Lemma sscm_hermitian n b t a c : tensor n b t -> (a < n)%nat -> (c < n)%nat ->
  at2 (sscm t) c a = Cconj (at2 (sscm t) a c).
Proof.
  intros T Ha Hc. rewrite !(sscm_at n b) by auto. rewrite Cconj_mul, Cconj_real, <- sumC_conj. f_equal.
  apply sumC_ext. intros j _. rewrite Cconj_mul, Cconj_conj. ring.
Qed.
Lemma sscm_psd n b t u : tensor n b t -> (0 < b)%nat -> real_nonneg (form n (sscm t) u).
Proof.
  intros T Hb. rewrite (power_form n b t u (fun _ => 1)).
  - split; [reflexivity|]. cbn [fst RtoC]. apply Rmult_le_pos.
    + apply Rlt_le, Rinv_0_lt_compat. now apply lt_0_INR.
    + apply sumR_nonneg. intros. apply sq_nonneg.
  - intros a c Ha Hc. rewrite (sscm_at n b) by auto. rewrite Rmult_1_r, RtoC_1. ring.
Qed.

(** * Power *)
Lemma all_some_map {A B} (f : A -> option B) l l' : all_some (map f l) = Some l' ->
  List.length l' = List.length l /\ forall i da db, (i < List.length l)%nat -> f (nth i l da) = Some (nth i l' db).
Proof.
  revert l'. induction l as [|a l IH]; intros l' H; cbn in H.
  - injection H as <-. split; [reflexivity|]. cbn; intros; lia.
  - destruct (f a) as [b|] eqn:E; [|discriminate]. destruct (all_some (map f l)) as [l2|]; [|discriminate].
    cbn in H. injection H as <-. destruct (IH l2 eq_refl) as [L N]. split; [cbn; lia|].
    intros [|i] da db Hi; cbn; auto. apply N. cbn in Hi; lia.
Qed.
Lemma weighted_tensor wt n b t t' : tensor n b t -> weighted_spectra wt t = Some t' -> tensor n b t'.
Proof.
  intros T H. unfold weighted_spectra in H. destruct wt as [w|]; [|now injection H as <-].
  destruct (String.eqb w "invamp"); [|now injection H as <-].
  destruct (all_some_map _ _ _ H) as [L N]. destruct T as [Hl Hr]. split; [congruence|].
  intros r I. apply (In_nth _ _ []) in I. destruct I as (i & Hi & <-).
  specialize (N i [] [] ltac:(lia)). unfold invamp_row in N.
  destruct (Req_EM_T _ 0); [discriminate|]. injection N as <-. rewrite map_length. apply Hr, nth_In. lia.
Qed.
Lemma length_steer angle st f v xs : List.length (steer_vector angle st f v xs) = List.length xs.
Proof. apply map_length. Qed.
Lemma fdbf_cell_form angle wt st xs n b t t' v f : v <> 0 -> List.length xs = n -> tensor n b t ->
  weighted_spectra wt t = Some t' ->
  fdbf_cell angle wt st xs t v f = Some (RtoC (/ INR b * sumR b (fun j =>
    let z := beam n (fun a => nth a (steer_vector angle st f v xs) C0) (fun a => receiver_weight wt (nth a xs 0)) t' j
    in Cmod z * Cmod z))).
Proof.
  intros Hv Hx T Hw. unfold fdbf_cell. destruct (Req_EM_T v 0); [contradiction|]. rewrite Hw. f_equal.
  pose proof (weighted_tensor wt n b t t' T Hw) as T'. pose proof (sscm_square n b t' T') as S.
  rewrite (quadratic_form n) by (rewrite ?length_steer; auto using weigh_square).
  apply power_form. intros a c Ha Hc. rewrite (weigh_at n) by auto. now rewrite (sscm_at n b).
Qed.
Lemma fdbf_cell_nonneg angle wt st xs n b t v f p : v <> 0 -> List.length xs = n -> tensor n b t -> (0 < b)%nat ->
  fdbf_cell angle wt st xs t v f = Some p -> real_nonneg p.
Proof.
  intros Hv Hx T Hb H. pose proof H as H0. unfold fdbf_cell in H0. destruct (Req_EM_T v 0); [contradiction|].
  destruct (weighted_spectra wt t) as [t'|] eqn:E; [|discriminate]. clear H0.
  rewrite (fdbf_cell_form angle wt st xs n b t t' v f Hv Hx T E) in H. injection H as <-.
  split; [reflexivity|]. cbn [fst RtoC]. apply Rmult_le_pos.
  - apply Rlt_le, Rinv_0_lt_compat. now apply lt_0_INR.
  - apply sumR_nonneg. intros. apply sq_nonneg.
Qed.
(** When is the power a number? *)
Lemma fdbf_cell_defined angle wt st xs t v f : v <> 0 -> wt <> Some "invamp"%string ->
  exists p, fdbf_cell angle wt st xs t v f = Some p.
Proof.
  intros Hv Hw. unfold fdbf_cell. destruct (Req_EM_T v 0); [contradiction|]. unfold weighted_spectra.
  destruct wt as [w|]; [|eauto]. destruct (String.eqb_spec w "invamp") as [->|]; [contradiction|eauto].
Qed.
Lemma all_some_ok {A B} (f : A -> option B) l : (forall a, In a l -> exists b, f a = Some b) -> exists l', all_some (map f l) = Some l'.
Proof.
  induction l as [|a l IH]; intros H; cbn; [eauto|]. destruct (H a) as [b ->]; [now left|].
  destruct IH as [l' ->]; [intros; apply H; now right|]. cbn. eauto.
Qed.
Lemma fdbf_cell_defined_invamp angle st xs t v f : v <> 0 ->
  (forall r, In r t -> Cmod (Cmul (Csum r) (RtoC (/ INR (List.length r)))) <> 0) ->
  exists p, fdbf_cell angle (Some "invamp"%string) st xs t v f = Some p.
Proof.
  intros Hv H. unfold fdbf_cell. destruct (Req_EM_T v 0); [contradiction|].
  cbn [weighted_spectra]. cbn [String.eqb Ascii.eqb Bool.eqb].
  destruct (all_some_ok invamp_row t) as [l' ->]; [|eauto].
  intros r Hr. unfold invamp_row. destruct (Req_EM_T _ 0) as [E|E]; [|eauto]. exfalso. exact (H r Hr E).
Qed.

(** * Plane waves *)
Lemma nth_steer angle st f v xs a : (a < List.length xs)%nat ->
  nth a (steer_vector angle st f v xs) C0 = cexp (- steering_phase angle st (2 * PI * f / v * nth a xs 0)).
Proof. intros. unfold steer_vector. now rewrite (nth_map_lt _ _ _ _ 0). Qed.
(** no beam exceeds the sum of the magnitudes *)
Lemma beam_bound angle st wt xs n t f v j : List.length xs = n -> (forall x, In x xs -> 0 <= x) ->
  Cmod (beam n (fun a => nth a (steer_vector angle st f v xs) C0) (fun a => receiver_weight wt (nth a xs 0)) t j)
  <= sumR n (fun a => receiver_weight wt (nth a xs 0) * Cmod (at2 t a j)).
Proof.
  intros Hx Hp. eapply Rle_trans; [apply Cmod_sumC|]. apply sumR_le. intros a Ha.
  rewrite !Cmod_mul, Cmod_conj, nth_steer, Cmod_cexp by lia.
  rewrite Cmod_real; [lra|]. unfold receiver_weight. destruct wt as [w|]; [destruct (String.eqb w "sqrt")|]; try lra.
  apply Hp, nth_In. lia.
Qed.
Lemma receiver_weight_nonneg wt x : 0 <= x -> 0 <= receiver_weight wt x.
Proof. intros. unfold receiver_weight. destruct wt as [w|]; [destruct (String.eqb w "sqrt")|]; lra. Qed.
Lemma Cmod_cexp_mul A t : 0 <= A -> Cmod (Cmul (RtoC A) (cexp t)) = A.
Proof. intros. rewrite Cmod_mul, Cmod_cexp, Cmod_real by auto. ring. Qed.

(** plane-wave spectra: channel a has amplitude A_a and phase phi - k0 x_a *)
Definition plane (xs : list R) (k0 phi : R) (A : nat -> R) (t : list (list C)) : Prop :=
  tensor (List.length xs) 1 t /\
  forall a, (a < List.length xs)%nat -> 0 < A a /\ at2 t a 0 = Cmul (RtoC (A a)) (cexp (phi - k0 * nth a xs 0)).
Lemma weighted_plane wt xs k0 phi A t : plane xs k0 phi A t ->
  exists t' A', weighted_spectra wt t = Some t' /\ plane xs k0 phi A' t'.
Proof.
  intros [T H]. unfold weighted_spectra. destruct wt as [w|]; [|exists t, A; split; [reflexivity|split; auto]].
  destruct (String.eqb w "invamp"); [|exists t, A; split; [reflexivity|split; auto]].
  pose proof T as [Hl Hr].
  assert (E : forall a, (a < List.length xs)%nat -> nth a t [] = [at2 t a 0]).
  { intros a Ha. pose proof (tensor_row _ _ _ a T Ha) as L. unfold at2. destruct (nth a t []) as [|u [|u' r]]; cbn in L; try lia. reflexivity. }
  assert (Z : forall a, (a < List.length xs)%nat -> invamp_row (nth a t []) = Some [cexp (phi - k0 * nth a xs 0)]).
  { intros a Ha. rewrite E by auto. destruct (H a Ha) as [PA ->]. unfold invamp_row. cbn [List.length].
    rewrite Csum_cons, Csum_nil. cbn [INR]. rewrite Rinv_1, RtoC_1.
    set (u := Cmul (RtoC (A a)) _). replace (Cmul (Cadd u C0) C1) with u by ring.
    assert (M : Cmod u = A a) by (unfold u; apply Cmod_cexp_mul; lra). rewrite M.
    destruct (Req_EM_T (A a) 0); [lra|]. f_equal. cbn [map]. f_equal. unfold u.
    transitivity (Cmul (RtoC (A a * / A a)) (cexp (phi - k0 * nth a xs 0))); [rewrite RtoC_mul; ring|].
    rewrite Rinv_r by lra. rewrite RtoC_1. ring. }
  destruct (all_some_ok invamp_row t) as [t' Et].
  { intros r Ir. apply (In_nth _ _ []) in Ir. destruct Ir as (a & Ha & <-). rewrite Hl in Ha. rewrite Z by auto. eauto. }
  exists t', (fun _ => 1). split; [exact Et|].
  pose proof (all_some_map _ _ _ Et) as [L N].
  assert (T' : tensor (List.length xs) 1 t').
  { apply (weighted_tensor (Some "invamp"%string) (List.length xs) 1 t t' T). exact Et. }
  split; [exact T'|]. intros a Ha. split; [lra|]. specialize (N a [] [] ltac:(lia)). rewrite Z in N by auto.
  injection N as N. unfold at2. rewrite <- N. cbn [nth]. rewrite RtoC_1. ring.
Qed.
(** the power at the true velocity *)
Lemma beam_aligned angle st wt xs t' f v0 phi A' : v0 <> 0 -> st <> Some "cylindrical"%string ->
  (forall x, In x xs -> 0 <= x) -> plane xs (2 * PI * f / v0) phi A' t' ->
  Cmod (beam (List.length xs) (fun a => nth a (steer_vector angle st f v0 xs) C0)
          (fun a => receiver_weight wt (nth a xs 0)) t' 0)
  = sumR (List.length xs) (fun a => receiver_weight wt (nth a xs 0) * A' a).
Proof.
  intros Hv Hs Hp [T H]. unfold beam.
  rewrite (sumC_ext _ _ (fun a => Cmul (cexp phi) (RtoC (receiver_weight wt (nth a xs 0) * A' a)))).
  - rewrite sumC_mul, sumR_real, Cmod_mul, Cmod_cexp, Rmult_1_l. apply Cmod_real. apply sumR_nonneg.
    intros a Ha. apply Rmult_le_pos; [apply receiver_weight_nonneg, Hp, nth_In; auto|]. destruct (H a Ha). lra.
  - intros a Ha. rewrite nth_steer by auto. destruct (H a Ha) as [_ ->].
    assert (E : steering_phase angle st (2 * PI * f / v0 * nth a xs 0) = 2 * PI * f / v0 * nth a xs 0).
    { unfold steering_phase. destruct st as [s|]; auto. destruct (String.eqb_spec s "cylindrical") as [->|]; [contradiction|auto]. }
    rewrite E, cexp_conj, Ropp_involutive.
    set (k := 2 * PI * f / v0 * nth a xs 0).
    transitivity (Cmul (Cmul (cexp k) (cexp (phi - k))) (Cmul (RtoC (receiver_weight wt (nth a xs 0))) (RtoC (A' a)))); [ring|].
    rewrite <- cexp_add, <- RtoC_mul. do 2 f_equal. ring.
Qed.
Lemma plane_mod xs k0 phi A t a : plane xs k0 phi A t -> (a < List.length xs)%nat -> Cmod (at2 t a 0) = A a.
Proof. intros [_ H] Ha. destruct (H a Ha) as [P ->]. apply Cmod_cexp_mul. lra. Qed.
Lemma sq_le a b : 0 <= a -> a <= b -> a * a <= b * b.
Proof. intros. apply Rmult_le_compat; lra. Qed.
Lemma plane_peak angle wt st xs t f v0 phi A v : v0 <> 0 -> v <> 0 -> st <> Some "cylindrical"%string ->
  (forall x, In x xs -> 0 <= x) -> plane xs (2 * PI * f / v0) phi A t ->
  exists p0 p, fdbf_cell angle wt st xs t v0 f = Some (RtoC p0) /\
               fdbf_cell angle wt st xs t v f = Some (RtoC p) /\ p <= p0.
Proof.
  intros Hv0 Hv Hs Hp P. destruct (weighted_plane wt _ _ _ _ _ P) as (t' & A' & Ew & P').
  pose proof P as [T _].
  eexists; eexists. split; [exact (fdbf_cell_form angle wt st xs _ 1 t t' v0 f Hv0 eq_refl T Ew)|].
  split; [exact (fdbf_cell_form angle wt st xs _ 1 t t' v f Hv eq_refl T Ew)|].
  cbv zeta. apply Rmult_le_compat_l; [cbn; rewrite Rinv_1; lra|].
  apply sumR_le. intros j Hj. assert (j = 0)%nat by lia. subst j.
  apply sq_le; [apply Cmod_nonneg|].
  rewrite (beam_aligned angle st wt xs t' f v0 phi A' Hv0 Hs Hp P').
  eapply Rle_trans; [apply beam_bound; auto|]. apply sumR_le. intros a Ha.
  rewrite (plane_mod xs _ phi A' t' a P' Ha). lra.
Qed.
