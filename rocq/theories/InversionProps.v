(* Properties of the least-squares inversion. *)
Set Warnings "-notation-overridden,-ambiguous-paths".
From mathcomp Require Import all_ssreflect all_algebra.
From Verif Require Import InversionModel InversionSpec InversionProofs.
Set Implicit Arguments. Unset Strict Implicit. Unset Printing Implicit Defensive.
Import GRing.Theory Num.Theory Order.Theory.
Local Open Scope ring_scope.

(** * C67: the update, for the forward model p |-> G p + c *)

(** The outcome does not depend on the current iterate. *)
Theorem C67_one_step : forall (F : realFieldType) j k (p0 pm pm' : 'cV[F]_j) (Cp : 'M[F]_j) (d0 c : 'cV[F]_k) (Cd : 'M[F]_k) (G : 'M[F]_(k, j)),
  leastsquare_iterativealgorithm p0 pm Cp d0 (G *m pm + c) Cd G = leastsquare_iterativealgorithm p0 pm' Cp d0 (G *m pm' + c) Cd G.
Proof. by move=> F j k p0 pm pm' Cp d0 c Cd G; rewrite /leastsquare_iterativealgorithm; case: (inv _) => // b; rewrite !linear_residual. Qed.
Print Assumptions C67_one_step.

(** Data predicted by the prior reproduce the prior. *)
Theorem C67_prior : forall (F : realFieldType) j k (p0 pm : 'cV[F]_j) (Cp : 'M[F]_j) (d0 c : 'cV[F]_k) (Cd : 'M[F]_k) (G : 'M[F]_(k, j)) x,
  d0 = G *m p0 + c -> leastsquare_iterativealgorithm p0 pm Cp d0 (G *m pm + c) Cd G = Solved x -> x = p0.
Proof.
move=> F j k p0 pm Cp d0 c Cd G x E; rewrite /leastsquare_iterativealgorithm; case: (inv _) => // b.
by rewrite linear_residual -E subrr mulmx0 addr0; case.
Qed.
Print Assumptions C67_prior.

(** The information form: the parameters solve the weighted normal equations. *)
Theorem C67_information : forall (F : realFieldType) j k (p0 pm : 'cV[F]_j) (Cp : 'M[F]_j) (d0 c : 'cV[F]_k) (Cd : 'M[F]_k) (G : 'M[F]_(k, j)) x,
  Cp \in unitmx -> Cd \in unitmx -> leastsquare_iterativealgorithm p0 pm Cp d0 (G *m pm + c) Cd G = Solved x ->
  information Cp Cd G \in unitmx /\ x = p0 + invmx (information Cp Cd G) *m (G^T *m invmx Cd *m (d0 - (G *m p0 + c))).
Proof.
move=> F j k p0 pm Cp d0 c Cd G x uP uD E.
have uS : Cd + G *m Cp *m G^T \in unitmx by move: E; rewrite /leastsquare_iterativealgorithm /inv; case: ifP.
have uH := information_unit uP uD uS; split=> //; move: E; rewrite iterative_information // linear_residual => -[<-].
by rewrite !mulmxA.
Qed.
Print Assumptions C67_information.

(** For covariances that are symmetric and positive definite the update succeeds, and
    its result is the only minimiser of the misfit. *)
Theorem C67_minimiser : forall (F : realFieldType) j k (p0 pm : 'cV[F]_j) (Cp : 'M[F]_j) (d0 c : 'cV[F]_k) (Cd : 'M[F]_k) (G : 'M[F]_(k, j)),
  positive_definite Cp -> positive_definite Cd ->
  exists x, leastsquare_iterativealgorithm p0 pm Cp d0 (G *m pm + c) Cd G = Solved x /\
    forall q, q != x -> misfit p0 Cp d0 Cd x (G *m x + c) < misfit p0 Cp d0 Cd q (G *m q + c).
Proof.
move=> F j k p0 pm Cp d0 c Cd G pP pD; have uS := pd_unit (pd_S G pP pD).
have [u [E N]] := information_solution p0 d0 c pm (pd_unit pP) (pd_unit pD) uS.
exists (p0 + u); split=> // q Nq; rewrite (misfit_expansion q pP pD N) ltr_addl.
by case: (pd_information G pP pD) => _; apply; rewrite subr_eq0.
Qed.
Print Assumptions C67_minimiser.

(** For any forward model with predicted data [dm] and derivatives [G] at [pm]: the
    iteration stays at [pm] exactly where the gradient of the misfit vanishes. *)
Theorem C67_fixed_point : forall (F : realFieldType) j k (p0 pm : 'cV[F]_j) (Cp : 'M[F]_j) (d0 dm : 'cV[F]_k) (Cd : 'M[F]_k) (G : 'M[F]_(k, j)),
  positive_definite Cp -> positive_definite Cd ->
  leastsquare_iterativealgorithm p0 pm Cp d0 dm Cd G = Solved pm <-> invmx Cp *m (pm - p0) = G^T *m invmx Cd *m (d0 - dm).
Proof.
move=> F j k p0 pm Cp d0 dm Cd G pP pD; exact: fixed_point (pd_unit pP) (pd_unit pD) (pd_unit (pd_S G pP pD)).
Qed.
Print Assumptions C67_fixed_point.

(** LinAlgError exactly when the covariance of the residuals is singular. *)
Theorem C67_singular : forall (F : realFieldType) j k (p0 pm : 'cV[F]_j) (Cp : 'M[F]_j) (d0 dm : 'cV[F]_k) (Cd : 'M[F]_k) (G : 'M[F]_(k, j)),
  leastsquare_iterativealgorithm p0 pm Cp d0 dm Cd G = LinAlgError <-> \det (Cd + G *m Cp *m G^T) = 0.
Proof.
move=> F j k p0 pm Cp d0 dm Cd G; rewrite /leastsquare_iterativealgorithm /inv unitmxE unitfE.
by have [->|N] := eqVneq (\det _) 0; split=> // E; rewrite E eqxx in N.
Qed.
Print Assumptions C67_singular.

(** Identity covariances and derivatives, in every dimension: half of the way. *)
Example C67_example (F : realFieldType) n (p0 pm d0 : 'cV[F]_n) :
  positive_definite (1%:M : 'M[F]_n) /\
  leastsquare_iterativealgorithm p0 pm 1%:M d0 (1%:M *m pm + 0) 1%:M 1%:M = Solved (p0 + 2%:R^-1 *: (d0 - p0)).
Proof.
split; first exact: pd_identity.
rewrite iterative_solved; last by apply: pd_unit; apply: pd_S; exact: pd_identity.
rewrite linear_residual trmx1 !(mul1mx, mulmx1) addr0; congr (Solved (_ + _)).
have -> : 1%:M + 1%:M = 2%:R%:M :> 'M[F]_n by rewrite -raddfD.
by rewrite -mul_scalar_mx invmx_scalar.
Qed.
Example C67_singular_example : leastsquare_iterativealgorithm (0 : 'cV[rat]_1) 0 1%:M (0 : 'cV[rat]_1) 0 0 0 = LinAlgError.
Proof. by apply/C67_singular; rewrite mul0mx mul0mx addr0 det0. Qed.

(** * C68: the covariance after the inversion *)
Theorem C68_information : forall (F : realFieldType) j k (Cp : 'M[F]_j) (Cd : 'M[F]_k) (G : 'M[F]_(k, j)) P,
  Cp \in unitmx -> Cd \in unitmx -> leastsquare_posterioricovmatrix Cp Cd G = Solved P ->
  information Cp Cd G \in unitmx /\ P = invmx (information Cp Cd G).
Proof.
move=> F j k Cp Cd G P uP uD E.
have uS : Cd + G *m Cp *m G^T \in unitmx by move: E; rewrite /leastsquare_posterioricovmatrix /inv; case: ifP.
by split; [exact: information_unit|move: E; rewrite posterior_solved // posterior_inverse // => -[<-]].
Qed.
Print Assumptions C68_information.

Theorem C68_symmetric : forall (F : realFieldType) j k (Cp : 'M[F]_j) (Cd : 'M[F]_k) (G : 'M[F]_(k, j)) P,
  Cp^T = Cp -> Cd^T = Cd -> leastsquare_posterioricovmatrix Cp Cd G = Solved P -> P^T = P.
Proof.
move=> F j k Cp Cd G P sP sD E.
have uS : Cd + G *m Cp *m G^T \in unitmx by move: E; rewrite /leastsquare_posterioricovmatrix /inv; case: ifP.
by move: E; rewrite posterior_solved // => -[<-]; exact: posterior_sym.
Qed.
Print Assumptions C68_symmetric.

(** For symmetric positive definite covariances there is a result, it is symmetric
    positive definite, and it never exceeds the prior: the difference is positive
    semidefinite, so that no parameter's variance grows. *)
Theorem C68_below : forall (F : realFieldType) j k (Cp : 'M[F]_j) (Cd : 'M[F]_k) (G : 'M[F]_(k, j)),
  positive_definite Cp -> positive_definite Cd ->
  exists P, leastsquare_posterioricovmatrix Cp Cd G = Solved P /\ positive_definite P /\ positive_semidefinite (Cp - P) /\
    forall i, 0 < P i i <= Cp i i.
Proof.
move=> F j k Cp Cd G pP pD; have uS := pd_unit (pd_S G pP pD); exists (posterior Cp Cd G); split; first exact: posterior_solved.
have pQ : positive_definite (posterior Cp Cd G).
  by rewrite (posterior_inverse (pd_unit pP) (pd_unit pD) uS); apply: pd_inv; exact: pd_information.
have pB := posterior_below G pP pD; split=> //; split=> // i; apply/andP; split.
- rewrite -quad_delta; apply: (proj2 pQ); apply/eqP=> /matrixP /(_ i 0); rewrite !mxE !eqxx /= => /eqP; by rewrite oner_eq0.
- by have := proj2 pB (delta_mx i 0); rewrite quad_delta !mxE subr_ge0.
Qed.
Print Assumptions C68_below.

(** LinAlgError exactly when the covariance of the residuals is singular. *)
Theorem C68_singular : forall (F : realFieldType) j k (Cp : 'M[F]_j) (Cd : 'M[F]_k) (G : 'M[F]_(k, j)),
  leastsquare_posterioricovmatrix Cp Cd G = LinAlgError <-> \det (Cd + G *m Cp *m G^T) = 0.
Proof.
move=> F j k Cp Cd G; rewrite /leastsquare_posterioricovmatrix /inv unitmxE unitfE.
by have [->|N] := eqVneq (\det _) 0; split=> // E; rewrite E eqxx in N.
Qed.
Print Assumptions C68_singular.

(** Identity covariances and derivatives: the variance is halved. *)
Example C68_example (F : realFieldType) n : leastsquare_posterioricovmatrix (1%:M : 'M[F]_n) 1%:M 1%:M = Solved (2%:R^-1)%:M.
Proof.
rewrite posterior_solved; last by apply: pd_unit; apply: pd_S; exact: pd_identity.
congr Solved; have p1 := pd_unit (pd_identity F n); rewrite posterior_inverse //; last by apply: pd_unit; apply: pd_S; exact: pd_identity.
rewrite /information trmx1 invmx1 !mul1mx.
have -> : 1%:M + 1%:M = 2%:R%:M :> 'M[F]_n by rewrite -raddfD.
by rewrite invmx_scalar.
Qed.
