(** The inversion on a grid: the covariance of the model is positive, the variances are positive. *)
From Coq Require Import Reals Lra List.
From mathcomp Require Import all_ssreflect all_algebra.
From Verif Require Import Lib.Base Lib.RField Model.Spectral Model.Kernel Model.Inversion Model.GridInversion Spec.InversionSpec Proofs.SpectralFacts Proofs.CovarianceFacts Proofs.KernelFacts Proofs.InversionFacts.
Set Implicit Arguments.
Unset Strict Implicit.

Lemma big_rsum n (f : nat -> R) : (\sum_(i < n) (f i : Rf))%R = rsum n f :> R.
Proof. elim: n => [|n IH]; first by rewrite big_ord0. by rewrite big_ord_recr /= IH. Qed.
Definition coef n (x : 'cV[Rf]_n) (k : nat) : R := if insub k is Some i then x i 0%R else 0%R.
Lemma coefE n (x : 'cV[Rf]_n) (i : 'I_n) : coef x i = x i 0%R.
Proof. rewrite /coef. case: insubP => [j _ E|]; last by rewrite ltn_ord. congr (x _ _). exact: val_inj. Qed.
Lemma form_qf n (K : nat -> nat -> R) (x : 'cV[Rf]_n) : form (\matrix_(i, j) (K i j : Rf))%R x = qf n (coef x) K :> R.
Proof.
  rewrite /form mxE. under eq_bigr => j _ do rewrite mxE.
  transitivity (rsum n (fun j => rsum n (fun i => Rmult (Rmult (coef x i) (K i j)) (coef x j)))).
  { rewrite -big_rsum. apply: eq_bigr => j _. rewrite -coefE. rewrite -[RHS]big_rsum. rewrite GRing.mulr_suml. apply: eq_bigr => i _. by rewrite !mxE -coefE. }
  rewrite rsum_swap. rewrite /qf. apply: rsum_ext => i _. apply: rsum_ext => j _. change (@eq R (Rmult (Rmult (coef x i) (K i j)) (coef x j)) (Rmult (Rmult (coef x i) (coef x j)) (K i j))). ring.
Qed.

Lemma cm_positive g scaling corr_len std_model : Rlt 0 (g_res g) -> Rlt 0 corr_len -> std_model <> 0%R -> scaling <> 0%R ->
  positive (cm_of g scaling corr_len std_model).
Proof.
  move=> RES CL SD SC. split.
  - apply/matrixP => i j. by rewrite !mxE edist_sym.
  - move=> x N. have -> : form (cm_of g scaling corr_len std_model) x = qf (size_of g) (coef x) (fun i j => compute_cm scaling corr_len std_model (edist (cell_at g i) (cell_at g j))) :> R by exact: form_qf.
    apply/RField.ltrP. set p := pow (Rdiv (Rmult std_model scaling) corr_len) 2.
    have P : Rlt 0 p.
    { rewrite /p /= Rmult_1_r. apply: Rlt_0_sqr. apply: Rmult_integral_contrapositive_currified; [exact: Rmult_integral_contrapositive_currified|]. apply: Rinv_neq_0_compat. lra. }
    have -> : qf (size_of g) (coef x) (fun i j => compute_cm scaling corr_len std_model (edist (cell_at g i) (cell_at g j))) =
      Rmult p (qf (size_of g) (coef x) (fun i j => exp (Ropp (Rmult (Rinv corr_len) (edist (cell_at g i) (cell_at g j)))))).
    { rewrite /qf -rsum_scal. apply: rsum_ext => i _. rewrite -rsum_scal. apply: rsum_ext => j _. rewrite /compute_cm -/p.
      have -> : Rdiv (Ropp (edist (cell_at g i) (cell_at g j))) corr_len = Ropp (Rmult (Rinv corr_len) (edist (cell_at g i) (cell_at g j))) by field; lra.
      change (@eq R (Rmult (Rmult (coef x i) (coef x j)) (Rmult p (exp (Ropp (Rmult (Rinv corr_len) (edist (cell_at g i) (cell_at g j))))))) (Rmult p (Rmult (Rmult (coef x i) (coef x j)) (exp (Ropp (Rmult (Rinv corr_len) (edist (cell_at g i) (cell_at g j)))))))). ring. }
    apply: Rmult_lt_0_compat => //. apply: plane_positive; first exact: Rinv_0_lt_compat.
    + move=> i j I J D. exact: cells_distinct.
    + have [i NI] : exists i, x i 0%R != 0%R.
      { apply/existsP. rewrite -negb_forall. apply: contra N => /forallP A. apply/eqP/matrixP => i j. rewrite ord1 mxE. exact/eqP/A. }
      exists i. split; first exact/ltP. rewrite coefE. exact/eqP.
Qed.
Lemma variances_ok corrs tw0 tw1 f0 f1 : Rle 0 tw0 -> Rlt tw0 tw1 -> Rlt f0 f1 -> Rlt 0 (Rplus f0 f1) -> (forall c, In c corrs -> Rlt 0 c /\ Rlt c 1) ->
  exists vs, variances corrs tw0 tw1 f0 f1 = Ok vs /\ length vs = length corrs /\ forall v, In v vs -> Rlt 0 v.
Proof.
  move=> A B C D. elim: corrs => [|c l IH] H; first by exists nil.
  have [vs [E [L P]]] := IH (fun c' I => H c' (or_intror I)). have Hc := H c (or_introl erefl).
  have [s S] : exists s, data_variance c (Rminus f1 f0) tw0 tw1 (Rdiv (Rplus f1 f0) 2) = Ok s by apply/variance_fails; lra.
  exists (pow s 2 :: vs). rewrite /variances /= in E *. rewrite S /= E /=. split=> //. split; first by rewrite L.
  move=> v [<-|I]; last exact: P. have := variance_pos _ _ _ _ _ _ Hc S. move=> Q. rewrite /= Rmult_1_r. exact: Rmult_lt_0_compat.
Qed.
Lemma row_positive n vs : length vs = n -> (forall v, In v vs -> Rlt 0 v) -> all_positive (row_of n vs).
Proof. move=> L P i. rewrite mxE. apply/RField.ltrP. apply: P. apply: nth_In. rewrite L. exact/ltP. Qed.
Section Grid.
  Variables (g : grid) (pairs : list ((R * R) * (R * R))) (ks : list (list R)) (corrs vals : list R) (tw0 tw1 f0 f1 scaling corr_len std_model : R).
  Hypothesis RES : Rlt 0 (g_res g).
  Hypothesis CL : Rlt 0 corr_len.
  Hypothesis SD : std_model <> 0%R.
  Hypothesis SC : scaling <> 0%R.
  Hypothesis W0 : Rle 0 tw0.
  Hypothesis W1 : Rlt tw0 tw1.
  Hypothesis F1 : Rlt f0 f1.
  Hypothesis F2 : Rlt 0 (Rplus f0 f1).
  Hypothesis C : forall c, In c corrs -> Rlt 0 c /\ Rlt c 1.
  Hypothesis LC : length corrs = length pairs.
  Hypothesis K : mapM (kernel_row g (middle tw0 tw1)) pairs = Ok ks.
  Theorem grid_minimum : exists vs icm w, variances corrs tw0 tw1 f0 f1 = Ok vs /\ inverse_of (cm_of g scaling corr_len std_model) icm /\
    dv_grid g pairs corrs vals tw0 tw1 f0 f1 scaling corr_len std_model = Ok (Some w) /\
    forall x, x != w -> (objective (matrix_of (length pairs) _ ks) icm (row_of _ vs) (column_of _ vals) w < objective (matrix_of (length pairs) _ ks) icm (row_of _ vs) (column_of _ vals) x)%R.
  Proof.
    have [vs [E [L P]]] := variances_ok W0 W1 F1 F2 C. have CM := cm_positive RES CL SD SC. have U := positive_unit CM.
    have I : inverse_of (cm_of g scaling corr_len std_model) (invmx (cm_of g scaling corr_len std_model)) by split; [exact: mulmxV|exact: mulVmx].
    have V : all_positive (row_of (length pairs) vs) by apply: row_positive => //; rewrite L.
    have [w [E1 E2]] := minimum (matrix_of (length pairs) _ ks) CM V (column_of (length pairs) vals) I.
    exists vs, (invmx (cm_of g scaling corr_len std_model)), w. split=> //. split=> //. split=> //. by rewrite /dv_grid K E /= E1.
  Qed.
  Theorem grid_posterior_ok : exists P, grid_posterior g pairs corrs tw0 tw1 f0 f1 scaling corr_len std_model = Ok (Some P) /\ positive P /\
    forall x, (form P x <= form (cm_of g scaling corr_len std_model) x)%R.
  Proof.
    have [vs [E [L P]]] := variances_ok W0 W1 F1 F2 C. have CM := cm_positive RES CL SD SC.
    have V : all_positive (row_of (length pairs) vs) by apply: row_positive => //; rewrite L.
    have [p [E1 E2]] := posterior (matrix_of (length pairs) _ ks) CM V. exists p. split=> //. by rewrite /grid_posterior K E /= E1.
  Qed.
End Grid.
