(** The inversion of velocity changes for a grid: the solution exists and minimises the weighted misfit, resolution and
    posterior covariance. *)
From mathcomp Require Import all_ssreflect all_algebra.
From Verif Require Import Model.Inversion Spec.InversionSpec Proofs.InversionFacts.
Set Implicit Arguments.
Unset Strict Implicit.
Import Order.TTheory GRing.Theory Num.Theory.
Local Open Scope ring_scope.

(** ** C92: the inversion returns the model that fits the weighted data best, under the given covariance of the model *)
Theorem C92_exists : forall (F : realFieldType) n m (G : 'M[F]_(n, m)) (cm : 'M[F]_m) (v : 'rV[F]_n) (d : 'cV[F]_n),
  nonnegative cm -> all_positive v -> (exists w, compute_dv_grid G cm v d = Some w) /\ exists r, compute_resolution G cm v = Some r.
Proof. by move=> F n m G cm v d CM V; split; [exists (cm *m G^T *m invmx (G *m cm *m G^T + diag_mx v) *m d); exact: grid_is|eexists; exact: resolution_is]. Qed.
Print Assumptions C92_exists.
Theorem C92_minimum : forall (F : realFieldType) n m (G : 'M[F]_(n, m)) (cm icm : 'M[F]_m) (v : 'rV[F]_n) (d : 'cV[F]_n),
  positive cm -> inverse_of cm icm -> all_positive v ->
  exists w, compute_dv_grid G cm v d = Some w /\ forall x, x != w -> objective G icm v d w < objective G icm v d x.
Proof. by move=> F n m G cm icm v d CM I V; apply: minimum. Qed.
Print Assumptions C92_minimum.
(** Velocity changes computed with [forward_model] from a uniform model: what is recovered is the reported resolution times
    that value. *)
Theorem C92_resolution : forall (F : realFieldType) n m (G : 'M[F]_(n, m)) (cm : 'M[F]_m) (v : 'rV[F]_n) c, nonnegative cm -> all_positive v ->
  exists r, compute_resolution G cm v = Some r /\ compute_dv_grid G cm v (forward G (const_mx c)) = Some (c *: r).
Proof.
  move=> F n m G cm v c CM V. have [w [r [E1 [E2 [_ E3]]]]] := noise_free G CM V (const_mx c). exists r. split=> //. by rewrite E1 (E3 c).
Qed.
Print Assumptions C92_resolution.
(** The posterior covariance is a covariance and nowhere larger than the covariance of the model. *)
Theorem C92_posterior : forall (F : realFieldType) n m (G : 'M[F]_(n, m)) (cm : 'M[F]_m) (v : 'rV[F]_n), positive cm -> all_positive v ->
  exists P, posterior_covariance G cm v = Some P /\ positive P /\ forall x, form P x <= form cm x.
Proof. by move=> F n m G cm v CM V; apply: posterior. Qed.
Print Assumptions C92_posterior.
(** A velocity change that is not sensitive to any cell has no influence. *)
Theorem C92_insensitive : forall (F : realFieldType) n m (G : 'M[F]_(n, m)) (cm : 'M[F]_m) (v : 'rV[F]_n) i (d d' : 'cV[F]_n),
  nonnegative cm -> all_positive v -> row i G = 0 -> (forall j, j != i -> d j 0 = d' j 0) -> compute_dv_grid G cm v d = compute_dv_grid G cm v d'.
Proof. by move=> F n m G cm v i d d' CM V; apply: silent_row. Qed.
Print Assumptions C92_insensitive.
(** Only the ratio between the covariances of the model and of the data matters. *)
Theorem C92_ratio : forall (F : realFieldType) n m (G : 'M[F]_(n, m)) (cm : 'M[F]_m) (v : 'rV[F]_n) c (d : 'cV[F]_n),
  nonnegative cm -> all_positive v -> 0 < c -> compute_dv_grid G (c *: cm) (c *: v) d = compute_dv_grid G cm v d.
Proof. by move=> F n m G cm v c d CM V; apply: common_scale. Qed.
Print Assumptions C92_ratio.
(** one cell, one velocity change 3 with variance 1, sensitivity 1 and model variance 2: the grid is 2, half way in between *)
Example C92_example : positive (2%:M : 'M[rat]_1) /\ inverse_of (2%:M : 'M[rat]_1) (2^-1)%:M /\ all_positive (const_mx 1 : 'rV[rat]_1) /\
  (forall w, compute_dv_grid (1%:M : 'M[rat]_1) 2%:M (const_mx 1) (const_mx 3) = Some w -> w 0 0 = 2) /\
  forall w, compute_resolution (1%:M : 'M[rat]_1) 2%:M (const_mx 1) = Some w -> w 0 0 = 2 / 3.
Proof.
  have P : positive (2%:M : 'M[rat]_1).
  { split; first by rewrite /symmetric tr_scalar_mx. move=> x N. rewrite /form mul_mx_scalar -scalemxAl !mxE big_ord1 mxE. apply: mulr_gt0 => //. rewrite -expr2 exprn_even_gt0 //=.
    apply: contra_neq N => E. by apply/matrixP => i j; rewrite !ord1 E mxE. }
  have V : all_positive (const_mx 1 : 'rV[rat]_1) by move=> i; rewrite mxE.
  split=> //. split; first by split; rewrite -scalar_mxM.
  split=> //. have I : invmx (1%:M *m 2%:M *m 1%:M^T + diag_mx (const_mx 1)) = (3^-1)%:M :> 'M[rat]_1.
  { have -> : 1%:M *m 2%:M *m 1%:M^T + diag_mx (const_mx 1) = 3%:M :> 'M[rat]_1.
    { rewrite mul1mx tr_scalar_mx mulmx1 diag_const_mx -raddfD. by congr (_%:M). }
    by rewrite invmx_scalar. }
  split=> w.
  - rewrite (grid_is _ (positive_nonnegative P) V) I => -[<-]. rewrite tr_scalar_mx mulmx1 -scalar_mxM mul_scalar_mx !mxE. by [].
  - rewrite (resolution_is _ (positive_nonnegative P) V) I => -[<-]. rewrite tr_scalar_mx !mulmx1 -scalar_mxM mul_scalar_mx !mxE. by [].
Qed.
