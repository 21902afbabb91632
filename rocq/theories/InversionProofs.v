(* Proofs about the least-squares inversion. *)
Set Warnings "-notation-overridden,-ambiguous-paths".
From mathcomp Require Import all_ssreflect all_algebra.
From Verif Require Import InversionModel InversionSpec.
Set Implicit Arguments. Unset Strict Implicit. Unset Printing Implicit Defensive.
Import GRing.Theory Num.Theory Order.Theory.
Local Open Scope ring_scope.

Section Proofs.
Variables (F : realFieldType) (j k : nat).
Implicit Types (Cp : 'M[F]_j) (Cd : 'M[F]_k) (G : 'M[F]_(k, j)) (p : 'cV[F]_j) (d : 'cV[F]_k).
Local Notation S Cp Cd G := (Cd + G *m Cp *m G^T).
Local Notation H Cp Cd G := (information Cp Cd G).

(** H Cp G' = G' Cd^-1 S *)
Lemma push Cp Cd G : Cp \in unitmx -> Cd \in unitmx -> H Cp Cd G *m (Cp *m G^T) = G^T *m invmx Cd *m S Cp Cd G.
Proof.
move=> uP uD; rewrite /information mulmxDl mulmxDr mulKmx // addrC; congr (_ + _); last by rewrite !mulmxA.
by rewrite -mulmxA mulVmx // mulmx1.
Qed.
Definition posterior Cp Cd G : 'M[F]_j := Cp - Cp *m G^T *m invmx (S Cp Cd G) *m (G *m Cp).
Lemma information_posterior Cp Cd G : Cp \in unitmx -> Cd \in unitmx -> S Cp Cd G \in unitmx -> H Cp Cd G *m posterior Cp Cd G = 1%:M.
Proof.
move=> uP uD uS; rewrite /posterior mulmxBr.
rewrite (mulmxA (H Cp Cd G) (_ *m invmx (S Cp Cd G))) (mulmxA (H Cp Cd G) (Cp *m G^T)) push // mulmxK //.
by rewrite /information mulmxDl mulVmx // !mulmxA addrC addrA addNr add0r.
Qed.
Lemma information_unit Cp Cd G : Cp \in unitmx -> Cd \in unitmx -> S Cp Cd G \in unitmx -> H Cp Cd G \in unitmx.
Proof. by move=> uP uD uS; case: (mulmx1_unit (information_posterior uP uD uS)). Qed.
Lemma posterior_inverse Cp Cd G : Cp \in unitmx -> Cd \in unitmx -> S Cp Cd G \in unitmx -> posterior Cp Cd G = invmx (H Cp Cd G).
Proof.
move=> uP uD uS; have uH := information_unit uP uD uS.
by rewrite -[LHS](mulKmx uH) information_posterior // mulmx1.
Qed.
Lemma gain Cp Cd G : Cp \in unitmx -> Cd \in unitmx -> S Cp Cd G \in unitmx ->
  Cp *m G^T *m invmx (S Cp Cd G) = invmx (H Cp Cd G) *m (G^T *m invmx Cd).
Proof.
move=> uP uD uS; have uH := information_unit uP uD uS.
by rewrite -[LHS](mulKmx uH) (mulmxA (H Cp Cd G) (Cp *m G^T)) push // mulmxK.
Qed.

(** Positive definite matrices. *)
Lemma quadD n (M N : 'M[F]_n) x : quad (M + N) x = quad M x + quad N x.
Proof. by rewrite /quad mulmxDr mulmxDl mxE. Qed.
Lemma quad0 n (M : 'M[F]_n) : quad M 0 = 0.
Proof. by rewrite /quad mulmx0 mxE. Qed.
Lemma quadN n (M : 'M[F]_n) x : quad M (- x) = quad M x.
Proof. have T : (- x)^T = - x^T by rewrite linearN.
by rewrite /quad T !mulNmx mulmxN opprK. Qed.
Lemma pd_ge0 n (M : 'M[F]_n) x : positive_definite M -> 0 <= quad M x.
Proof. by case=> _ P; have [->|N] := eqVneq x 0; [rewrite quad0|apply/ltW/P]. Qed.
Lemma pd_unit n (M : 'M[F]_n) : positive_definite M -> M \in unitmx.
Proof.
case=> _ P; rewrite -row_free_unit; apply: inj_row_free => v vM; apply/eqP; apply: contraT => N.
have: 0 < quad M v^T by apply: P; apply: contraNneq N => E; rewrite -[v]trmxK E trmx0.
by rewrite /quad trmxK vM mul0mx mxE ltxx.
Qed.
Lemma pd_inv n (M : 'M[F]_n) : positive_definite M -> positive_definite (invmx M).
Proof.
move=> pM; have uM := pd_unit pM; case: (pM) => sM P; split; first by rewrite trmx_inv sM.
move=> x N; have E : quad (invmx M) x = quad M (invmx M *m x).
  by rewrite /quad trmx_mul trmx_inv sM !mulmxA mulmxKV //.
rewrite E; apply: P; apply: contraNneq N => Z; by rewrite -[x](mulKVmx uM) Z mulmx0.
Qed.
Lemma quad_congr n m (M : 'M[F]_n) (A : 'M[F]_(n, m)) x : quad (A^T *m M *m A) x = quad M (A *m x).
Proof. by rewrite /quad trmx_mul !mulmxA. Qed.
Lemma pd_plus n (M N : 'M[F]_n) : positive_definite M -> positive_semidefinite N -> positive_definite (M + N).
Proof.
case=> sM P [sN Q]; split; first by rewrite linearD /= sM sN.
by move=> x Nx; rewrite quadD ltr_paddr ?P.
Qed.
Lemma psd_congr n m (M : 'M[F]_n) (A : 'M[F]_(n, m)) : positive_definite M -> positive_semidefinite (A^T *m M *m A).
Proof.
move=> pM; split; first by rewrite !trmx_mul trmxK (proj1 pM) mulmxA.
by move=> x; rewrite quad_congr pd_ge0.
Qed.
Lemma pd_S Cp Cd G : positive_definite Cp -> positive_definite Cd -> positive_definite (S Cp Cd G).
Proof. by move=> pP pD; apply: pd_plus => //; rewrite -{1}[G]trmxK; apply: psd_congr. Qed.
Lemma pd_information Cp Cd G : positive_definite Cp -> positive_definite Cd -> positive_definite (H Cp Cd G).
Proof. by move=> pP pD; rewrite /information addrC; apply: pd_plus; [apply: pd_inv|apply/psd_congr/pd_inv]. Qed.

(** Runs. *)
Lemma iterative_solved p0 pm Cp d0 dm Cd G : S Cp Cd G \in unitmx ->
  leastsquare_iterativealgorithm p0 pm Cp d0 dm Cd G = Solved (p0 + Cp *m G^T *m invmx (S Cp Cd G) *m (d0 - dm + G *m (pm - p0))).
Proof. by move=> uS; rewrite /leastsquare_iterativealgorithm /inv uS. Qed.
Lemma iterative_information p0 pm Cp d0 dm Cd G : Cp \in unitmx -> Cd \in unitmx -> S Cp Cd G \in unitmx ->
  leastsquare_iterativealgorithm p0 pm Cp d0 dm Cd G =
  Solved (p0 + invmx (H Cp Cd G) *m (G^T *m invmx Cd) *m (d0 - dm + G *m (pm - p0))).
Proof. by move=> uP uD uS; rewrite iterative_solved // gain. Qed.
Lemma linear_residual (p0 pm : 'cV[F]_j) d0 c G : d0 - (G *m pm + c) + G *m (pm - p0) = d0 - (G *m p0 + c).
Proof. by rewrite mulmxBr !opprD !addrA (addrAC _ (- c)) subrK addrAC. Qed.
Lemma square_sum n (M : 'M[F]_n) (x y : 'cV[F]_n) : M^T = M -> quad M (x + y) = quad M x + quad M y + (x^T *m M *m y) 0 0 *+ 2.
Proof.
move=> sM; have T : (x + y)^T = x^T + y^T by rewrite linearD.
rewrite /quad T !mulmxDl !mulmxDr.
have D (A B : 'M[F]_1) : (A + B) 0 0 = A 0 0 + B 0 0 by rewrite mxE.
rewrite !D.
have -> : (y^T *m M *m x) 0 0 = (x^T *m M *m y) 0 0.
  have E : (x^T *m M *m y)^T = y^T *m M *m x by rewrite !trmx_mul sM trmxK mulmxA.
  by rewrite -E mxE.
have R (a b c : F) : a + c + (c + b) = a + b + c *+ 2 by rewrite mulr2n (addrC c b) addrACA.
by rewrite R.
Qed.

Lemma quad_unit (M : 'M[F]_1) : M^T = M. Proof. by apply/matrixP=> a b; rewrite !ord1 mxE. Qed.
Lemma normal_equations p0 Cp d0 Cd G (r : 'cV[F]_k) u : H Cp Cd G *m u = G^T *m invmx Cd *m r ->
  invmx Cp *m u = G^T *m invmx Cd *m (r - G *m u).
Proof.
rewrite /information mulmxDl => E; rewrite mulmxBr !mulmxA.
by apply/eqP; rewrite eq_sym subr_eq addrC -E eq_refl.
Qed.
Lemma misfit_expansion p0 Cp d0 Cd G c u q : positive_definite Cp -> positive_definite Cd ->
  H Cp Cd G *m u = G^T *m invmx Cd *m (d0 - (G *m p0 + c)) ->
  misfit p0 Cp d0 Cd q (G *m q + c) = misfit p0 Cp d0 Cd (p0 + u) (G *m (p0 + u) + c) + quad (H Cp Cd G) (q - (p0 + u)).
Proof.
move=> pP pD E; have [sP _] := pd_inv pP; have [sD _] := pd_inv pD.
have N := normal_equations p0 d0 E; set r := d0 - (G *m p0 + c) in E N; set e := q - (p0 + u).
have Eq : q = p0 + u + e by rewrite /e addrC subrK.
clearbody e; rewrite {}Eq.
have Q1 : p0 + u + e - p0 = u + e by rewrite -[p0 + u + e]addrA addrC addKr.
have Q2 : p0 + u - p0 = u by rewrite addrC addKr.
have Q3 v : d0 - (G *m (p0 + v) + c) = r - G *m v by rewrite /r mulmxDr !opprD !addrA addrAC.
have Q4 : d0 - (G *m (p0 + u + e) + c) = (r - G *m u) + G *m (- e) by rewrite -[p0 + u + e]addrA Q3 mulmxDr opprD addrA mulmxN.
rewrite /misfit Q1 Q2 Q4 Q3 (square_sum u e sP) (square_sum (r - G *m u) (G *m - e) sD).
have X : ((r - G *m u)^T *m invmx Cd *m (G *m - e)) 0 0 = - (u^T *m invmx Cp *m e) 0 0.
  have -> : (r - G *m u)^T *m invmx Cd *m (G *m - e) = - ((r - G *m u)^T *m invmx Cd *m G *m e) by rewrite !mulmxN mulmxA.
  have -> : (r - G *m u)^T *m invmx Cd *m G = u^T *m invmx Cp.
    by apply: trmx_inj; rewrite !trmx_mul !trmxK sP sD N mulmxA.
  by rewrite mxE.
have Y : quad (invmx Cd) (G *m - e) = quad (G^T *m invmx Cd *m G) e.
  by rewrite -quad_congr quadN.
rewrite X Y /information [quad (_ + _) e]quadD mulNrn.
set A := quad _ u; set B := quad (invmx Cp) e; set C := _ *+ 2; set D := quad _ (r - _); set K := quad (_ *m _) e.
by rewrite addrACA subrr addr0 addrACA [B + K]addrC.
Qed.
Lemma information_solution p0 Cp d0 Cd G c pm : Cp \in unitmx -> Cd \in unitmx -> S Cp Cd G \in unitmx ->
  exists u, leastsquare_iterativealgorithm p0 pm Cp d0 (G *m pm + c) Cd G = Solved (p0 + u) /\
    H Cp Cd G *m u = G^T *m invmx Cd *m (d0 - (G *m p0 + c)).
Proof.
move=> uP uD uS; have uH := information_unit uP uD uS.
exists (invmx (H Cp Cd G) *m (G^T *m invmx Cd *m (d0 - (G *m p0 + c)))); split; last by rewrite mulKVmx.
by rewrite iterative_information // linear_residual -(mulmxA (invmx _)).
Qed.
Lemma fixed_point p0 pm Cp d0 dm Cd G : Cp \in unitmx -> Cd \in unitmx -> S Cp Cd G \in unitmx ->
  leastsquare_iterativealgorithm p0 pm Cp d0 dm Cd G = Solved pm <-> invmx Cp *m (pm - p0) = G^T *m invmx Cd *m (d0 - dm).
Proof.
move=> uP uD uS; have uH := information_unit uP uD uS; rewrite iterative_information //.
have K : H Cp Cd G *m (pm - p0) = invmx Cp *m (pm - p0) + G^T *m invmx Cd *m (G *m (pm - p0)).
  by rewrite /information mulmxDl addrC -!mulmxA.
split.
- case=> E; have : H Cp Cd G *m (pm - p0) = G^T *m invmx Cd *m (d0 - dm + G *m (pm - p0)).
    by rewrite -{1}E addrC addKr -(mulmxA (invmx _)) mulKVmx.
  rewrite K (mulmxDr _ (d0 - dm)) => Z; exact: (addIr _ Z).
- move=> E; congr Solved; rewrite (mulmxDr _ (d0 - dm)) -(mulmxA (invmx _) _ (d0 - dm)) -E.
  have -> : invmx (H Cp Cd G) *m (invmx Cp *m (pm - p0)) + invmx (H Cp Cd G) *m (G^T *m invmx Cd) *m (G *m (pm - p0)) = pm - p0.
    by rewrite -(mulmxA (invmx _) (G^T *m _)) -mulmxDr -K mulKmx.
  by rewrite addrC subrK.
Qed.
Lemma posterior_solved Cp Cd G : S Cp Cd G \in unitmx -> leastsquare_posterioricovmatrix Cp Cd G = Solved (posterior Cp Cd G).
Proof. by move=> uS; rewrite /leastsquare_posterioricovmatrix /inv uS. Qed.
Lemma posterior_sym Cp Cd G : Cp^T = Cp -> Cd^T = Cd -> (posterior Cp Cd G)^T = posterior Cp Cd G.
Proof.
move=> sP sD; have sS : (S Cp Cd G)^T = S Cp Cd G by rewrite linearD /= !trmx_mul trmxK sP sD mulmxA.
by rewrite /posterior linearB /= !trmx_mul trmxK trmx_inv sS sP !mulmxA.
Qed.
Lemma posterior_below Cp Cd G : positive_definite Cp -> positive_definite Cd ->
  positive_semidefinite (Cp - posterior Cp Cd G).
Proof.
move=> pP pD; have pI := pd_inv (pd_S G pP pD); rewrite /posterior subKr.
have -> : Cp *m G^T *m invmx (S Cp Cd G) *m (G *m Cp) = (G *m Cp)^T *m invmx (S Cp Cd G) *m (G *m Cp) by rewrite trmx_mul (proj1 pP).
exact: psd_congr.
Qed.
Lemma quad_delta n (M : 'M[F]_n) i : quad M (delta_mx i 0) = M i i.
Proof. by rewrite /quad trmx_delta -rowE -colE !mxE. Qed.
Lemma pd_identity n : positive_definite (1%:M : 'M[F]_n).
Proof.
split=> [|x N]; first by rewrite trmx1.
have E : quad 1%:M x = \sum_i x i 0 ^+ 2 by rewrite /quad mulmx1 mxE; apply: eq_bigr => i _; rewrite mxE expr2.
have [i Ni] : exists i, x i 0 != 0.
  apply/existsP; apply: contraT; rewrite negb_exists => /forallP Z; case/eqP: N; apply/matrixP => a b; rewrite ord1 mxE; apply/eqP.
  by have := Z a; rewrite negbK.
rewrite E (bigD1 i) //=; apply: ltr_paddr; last by rewrite exprn_even_gt0 //= orbC Ni.
by apply: sumr_ge0 => b _; rewrite sqr_ge0.
Qed.
End Proofs.
