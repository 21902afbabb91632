(* Proofs about numbers and names in .max files. *)
From Verif Require Import MaxModel RegexProofs MaxSpec MaxNumberSpec MaxProofs PyFacts NumFacts.
Local Open Scope nat_scope.
Local Open Scope list_scope.
Local Open Scope char_scope.

Lemma figure_digit a : digit a = true -> digit_val a = figure a.
Proof. destruct a as [[] [] [] [] [] [] [] []]; intros H; try discriminate H; reflexivity. Qed.
Lemma digits_val_decimal t : digits t -> forall acc, digits_val acc t = (acc * 10 ^ Z.of_nat (List.length t) + decimal t)%Z.
Proof.
  unfold digits. induction t as [|a t IH]; cbn [forallb digits_val decimal List.length]; intros D acc; [cbn; lia|].
  apply andb_prop in D as [Da D]. rewrite (IH D), (figure_digit a Da). rewrite Nat2Z.inj_succ, Z.pow_succ_r by lia. ring.
Qed.
Lemma split_prefix a r : digits a -> (forall c u, r = c :: u -> digit c = false) -> split_digits (a ++ r) = (a, r).
Proof.
  unfold digits. intros D R. induction a as [|c a IH]; cbn [app split_digits].
  - destruct r as [|c u]; [reflexivity|]. cbn. now rewrite (R c u eq_refl).
  - cbn in D. apply andb_prop in D as [Dc D]. rewrite Dc. now rewrite (IH D).
Qed.
Lemma digit_not c d : digit c = true -> digit d = false -> Ascii.eqb c d = false.
Proof. intros A B. destruct (Ascii.eqb_spec c d) as [->|]; congruence. Qed.
Lemma scale10_ten m e : scale10 m e = (QcZ m * ten e)%Qc.
Proof.
  unfold scale10, ten. destruct (0 <=? e)%Z eqn:E.
  - apply QcZ_mul.
  - unfold Qcdiv. ring.
Qed.
Lemma exponent_value x e : written_exponent x e -> float_exponent x = Some e /\ (forall c u, x = c :: u -> digit c = false /\ c <> ".").
Proof.
  intros [[-> ->]|(c & d & C & N & D & X)]; [split; [reflexivity|discriminate]|]. split.
  - assert (Sd : split_digits d = (d, [])) by (rewrite <- (app_nil_r d) at 1; apply split_prefix; [exact D|discriminate]).
    assert (Ec : (is c "e" || is c "E")%bool = true) by (destruct C as [-> | ->]; reflexivity).
    assert (V : digits_val 0 d = decimal d) by (rewrite digits_val_decimal; auto).
    destruct X as [[-> ->]|[[-> ->]|[-> ->]]]; cbn [float_exponent]; rewrite Ec; cbn [is Ascii.eqb Bool.eqb].
    + destruct d as [|c1 d1]; [congruence|]. unfold digits in D. cbn in D. apply andb_prop in D as [D1 _].
      unfold is. rewrite (digit_not c1 "-"), (digit_not c1 "+") by auto. rewrite Sd. f_equal; exact V.
    + unfold is. cbn -[digits_val split_digits]. rewrite Sd. destruct d as [|c1 d1]; [congruence|]. f_equal; exact V.
    + unfold is. cbn -[digits_val split_digits]. rewrite Sd. destruct d as [|c1 d1]; [congruence|]. f_equal; exact (f_equal Z.opp V).
  - intros c' u Q. destruct X as [[-> _]|[[-> _]|[-> _]]]; injection Q as <- _; (destruct C as [-> | ->]; (split; [reflexivity|discriminate])).
Qed.
Lemma unsigned_value a p b x e : a <> [] -> digits a -> digits b -> (p = [] /\ b = []) \/ p = ["."] -> written_exponent x e ->
  float_unsigned (a ++ p ++ b ++ x) = Some (QcZ (decimal (a ++ b)) * ten (e - Z.of_nat (List.length b)))%Qc.
Proof.
  intros N Da Db P X. destruct (exponent_value x e X) as [Ex Hx]. unfold float_unsigned.
  assert (Dab : digits (a ++ b)) by (unfold digits in *; rewrite forallb_app, Da; exact Db).
  destruct P as [[-> ->]| ->].
  - cbn [app]. rewrite split_prefix; [|exact Da|intros c u Q; now apply (Hx c u)].
    destruct x as [|c u].
    + cbn [float_exponent] in Ex |- *. rewrite app_nil_r. destruct a; [congruence|]. injection Ex as <-.
      rewrite digits_val_decimal by exact Da. now rewrite scale10_ten.
    + destruct (Hx c u eq_refl) as [_ Nd]. unfold is at 1. destruct (Ascii.eqb_spec c "."); [contradiction|]. rewrite app_nil_r.
      destruct a; [congruence|]. rewrite Ex. rewrite digits_val_decimal by exact Da. now rewrite scale10_ten.
  - cbn [app]. rewrite split_prefix; [|exact Da|intros c u Q; injection Q as <- _; reflexivity].
    change (is "." ".") with true. cbv iota. rewrite split_prefix; [|exact Db|intros c u Q; now apply (Hx c u)].
    destruct (a ++ b) as [|c r] eqn:E; [destruct a; [congruence|discriminate]|]. rewrite Ex.
    rewrite digits_val_decimal by exact Dab. now rewrite scale10_ten.
Qed.
Lemma starts_digit_neq c t s : digit c = true -> match s with [] => true | d :: _ => negb (digit d) end = true -> text_eqb (c :: t) s = false.
Proof.
  intros D H. unfold text_eqb. destruct s as [|d s]; [reflexivity|]. cbn [string_of_list_ascii].
  destruct (String.eqb_spec (String c (string_of_list_ascii t)) (String d (string_of_list_ascii s))) as [Q|]; [|reflexivity].
  injection Q as -> _. rewrite D in H. discriminate.
Qed.
Lemma minus_neq c t s : digit c = true -> match s with "-" :: d :: _ => negb (digit d) | _ => true end = true -> text_eqb ("-" :: c :: t) s = false.
Proof.
  intros D H. unfold text_eqb.
  destruct (String.eqb_spec (string_of_list_ascii ("-" :: c :: t)) (string_of_list_ascii s)) as [Q|]; [|reflexivity].
  destruct s as [|d [|d' s]]; try discriminate. cbn [string_of_list_ascii] in Q. injection Q as <- <- _. rewrite D in H. discriminate.
Qed.
Lemma parse_written t v : written t v -> parse_float t = Ok (Fin v).
Proof.
  intros (s & a & p & b & x & e & S & N & Da & Db & P & X & -> & ->).
  pose proof (unsigned_value a p b x e N Da Db P X) as U.
  destruct a as [|c a]; [congruence|]. pose proof Da as D0. unfold digits in D0. cbn in D0. apply andb_prop in D0 as [Dc _].
  unfold parse_float. destruct S as [-> | ->].
  - cbn [app] in *. rewrite !starts_digit_neq by (auto; reflexivity). unfold is. rewrite (digit_not c "-") by auto. rewrite U. reflexivity.
  - cbn [app] in *. rewrite !minus_neq by (auto; reflexivity). change (is "-" "-") with true. cbv iota. rewrite U. reflexivity.
Qed.
Lemma count_spec t : digits t ->
  clamp_nmaxima t = (if decimal t <? 1 then 1%nat else if 100 <? decimal t then 100%nat else Z.to_nat (decimal t))%Z.
Proof.
  intros D. unfold clamp_nmaxima. rewrite digits_val_decimal by exact D. cbn [Z.mul Z.add].
  destruct (Z.ltb_spec (decimal t) 1); [|destruct (Z.ltb_spec 100 (decimal t))]; lia.
Qed.
Lemma names_spec w W : validate_wavetypes w = Ok W <-> In (w, W) wave_names.
Proof.
  unfold validate_wavetypes, wave_names. cbn [In]. split.
  - repeat (match goal with |- context [String.eqb ?a ?b] => destruct (String.eqb_spec a b) as [->|] end); intros Q; inversion Q; auto 10.
  - intros [Q|[Q|[Q|[Q|[Q|[]]]]]]; injection Q as <- <-; reflexivity.
Qed.
Lemma effective_spec w from : effective_wavetype w from =
  (if String.eqb w "rayleigh" then match from with Some t => if text_eqb t (lit "Vertical") then "vertical" else "rayleigh" | None => "rayleigh" end else w)%string.
Proof.
  unfold effective_wavetype. destruct (String.eqb_spec w "rayleigh") as [->|]; [|reflexivity]. cbn [andb].
  destruct from as [t|]; [destruct (text_eqb t _)|]; reflexivity.
Qed.
