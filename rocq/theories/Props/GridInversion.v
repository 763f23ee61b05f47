(** The inversion on the grids of DVGrid: no further assumption about the covariance is needed. *)
From Coq Require Import Reals Lra List.
From mathcomp Require Import all_ssreflect all_algebra.
From Verif Require Import Lib.Base Lib.RField Model.Kernel Model.Inversion Model.GridInversion Spec.InversionSpec Spec.KernelSpec Proofs.KernelFacts Proofs.InversionFacts Proofs.GridFacts.
Set Implicit Arguments.
Unset Strict Implicit.

(** ** C93: every grid can be inverted and the covariances are positive *)
(** The covariance of the model is symmetric and positive definite, for every grid with a positive cell size. *)
Theorem C93_covariance : forall g scaling corr_len std_model, Rlt 0 (g_res g) -> Rlt 0 corr_len -> std_model <> 0%R -> scaling <> 0%R ->
  positive (cm_of g scaling corr_len std_model).
Proof. move=> g scaling corr_len std_model; exact: cm_positive. Qed.
Print Assumptions C93_covariance.
(** compute_dv_grid returns the one model that minimises the misfit weighted with the variances plus the size of the model. *)
Theorem C93_inversion : forall g pairs corrs vals tw0 tw1 freq0 freq1 scaling corr_len std_model,
  good_grid g -> Rlt 0 corr_len -> std_model <> 0%R -> scaling <> 0%R -> Rle 0 tw0 -> Rlt tw0 tw1 -> step_fits (middle tw0 tw1) (g_dt g) -> Rle 0 freq0 -> Rlt freq0 freq1 ->
  (forall c, In c corrs -> Rlt 0 c /\ Rlt c 1) -> length corrs = length pairs ->
  exists ks vs icm w, mapM (kernel_row g (middle tw0 tw1)) pairs = Ok ks /\ variances corrs tw0 tw1 freq0 freq1 = Ok vs /\
    inverse_of (cm_of g scaling corr_len std_model) icm /\
    dv_grid g pairs corrs vals tw0 tw1 freq0 freq1 scaling corr_len std_model = Ok (Some w) /\
    forall x, x != w -> (objective (matrix_of (length pairs) _ ks) icm (row_of _ vs) (column_of _ vals) w < objective (matrix_of (length pairs) _ ks) icm (row_of _ vs) (column_of _ vals) x)%R.
Proof.
  move=> g pairs corrs vals tw0 tw1 f0 f1 sc cl sd G CL SD SC W0 W1 ST F0 F1 C L.
  have T : Rlt 0 (middle tw0 tw1) by rewrite /middle; lra.
  have [RES [_ [_ [DT _]]]] := G. have [ks [K _]] := rows_ok g (middle tw0 tw1) pairs G T (proj2 (fits_iff _ _ DT (Rlt_le _ _ T)) ST).
  have F2 : Rlt 0 (Rplus f0 f1) by lra.
  have [vs [icm [w [E1 [E2 [E3 E4]]]]]] := grid_minimum vals RES CL SD SC W0 W1 F1 F2 C L K. by exists ks, vs, icm, w.
Qed.
Print Assumptions C93_inversion.
Theorem C93_posterior : forall g pairs corrs tw0 tw1 freq0 freq1 scaling corr_len std_model,
  good_grid g -> Rlt 0 corr_len -> std_model <> 0%R -> scaling <> 0%R -> Rle 0 tw0 -> Rlt tw0 tw1 -> step_fits (middle tw0 tw1) (g_dt g) -> Rle 0 freq0 -> Rlt freq0 freq1 ->
  (forall c, In c corrs -> Rlt 0 c /\ Rlt c 1) -> length corrs = length pairs ->
  exists P, grid_posterior g pairs corrs tw0 tw1 freq0 freq1 scaling corr_len std_model = Ok (Some P) /\ positive P /\
    forall x, (form P x <= form (cm_of g scaling corr_len std_model) x)%R.
Proof.
  move=> g pairs corrs tw0 tw1 f0 f1 sc cl sd G CL SD SC W0 W1 ST F0 F1 C L.
  have T : Rlt 0 (middle tw0 tw1) by rewrite /middle; lra.
  have [RES [_ [_ [DT _]]]] := G. have [ks [K _]] := rows_ok g (middle tw0 tw1) pairs G T (proj2 (fits_iff _ _ DT (Rlt_le _ _ T)) ST).
  have F2 : Rlt 0 (Rplus f0 f1) by lra.
  exact: (grid_posterior_ok RES CL SD SC W0 W1 F1 F2 C L K).
Qed.
Print Assumptions C93_posterior.
(** four cells, two velocity changes in a window from 1 to 3 with steps of 1 *)
Example C93_example : good_grid (mkG 1 1 1 1 1 1) /\
  exists w, dv_grid (mkG 1 1 1 1 1 1) (((R0, R0), (R1, R0)) :: ((R0, R1), (R0, R0)) :: nil) (Rdiv 1 2 :: Rdiv 3 4 :: nil) (R1 :: R0 :: nil) 1 3 1 2 1 1 1 = Ok (Some w).
Proof.
  have G : good_grid (mkG 1 1 1 1 1 1) by rewrite /good_grid /=; lra. split=> //.
  have C : forall c, In c (Rdiv 1 2 :: Rdiv 3 4 :: nil) -> Rlt 0 c /\ Rlt c 1 by move=> c [<-|[<-|[]]]; lra.
  have S : step_fits (middle 1 3) (g_dt (mkG 1 1 1 1 1 1)) by exists 2%nat; rewrite /middle /=; lra.
  have H0 : Rlt 0 1 by lra. have H1 : R1 <> R0 by exact: R1_neq_R0. have H2 : Rle 0 1 by lra. have H3 : Rlt 1 3 by lra. have H4 : Rlt 1 2 by lra.
  have [ks [vs [icm [w [_ [_ [_ [E _]]]]]]]] := C93_inversion (pairs := ((R0, R0), (R1, R0)) :: ((R0, R1), (R0, R0)) :: nil) (R1 :: R0 :: nil) G H0 H1 H1 H2 H3 S H2 H4 C erefl. by exists w.
Qed.
