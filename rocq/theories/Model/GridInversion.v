(** The inversion of DVGrid as a whole (monitor/spatial.py 388-482): kernels, covariances, solution. *)
From Coq Require Import Reals List.
From mathcomp Require Import all_ssreflect all_algebra.
From Verif Require Import Lib.Base Lib.RField Model.Kernel Model.Inversion.
Set Implicit Arguments.
Unset Strict Implicit.

(** arrays as matrices *)
Definition matrix_of n m (l : list (list R)) : 'M[Rf]_(n, m) := (\matrix_(i, j) (List.nth j (List.nth i l nil) R0 : Rf))%R.
Definition column_of n (l : list R) : 'cV[Rf]_n := (\col_i (List.nth i l R0 : Rf))%R.
Definition row_of n (l : list R) : 'rV[Rf]_n := (\row_i (List.nth i l R0 : Rf))%R.
Definition size_of (g : grid) : nat := length (cells g).
Definition cell_at (g : grid) (k : nat) : R * R := List.nth k (cells g) (R0, R0).
(** compute_cm of the distance matrix, 463-465 *)
Definition cm_of (g : grid) (scaling corr_len std_model : R) : 'M[Rf]_(size_of g) :=
  (\matrix_(i, j) (compute_cm scaling corr_len std_model (edist (cell_at g i) (cell_at g j)) : Rf))%R.
(** compute_dv_grid, 449-478, after _extract_info_dvs: positions of the stations of each velocity change, values and
    coherences; Ok None: numpy.linalg.LinAlgError *)
Definition dv_grid (g : grid) (pairs : list ((R * R) * (R * R))) (corrs vals : list R) (tw0 tw1 freq0 freq1 scaling corr_len std_model : R)
  : result (option 'cV[Rf]_(size_of g)) :=
  bind (mapM (kernel_row g (middle tw0 tw1)) pairs) (fun ks =>
  bind (variances corrs tw0 tw1 freq0 freq1) (fun vs =>
  Ok (@compute_dv_grid Rf (length pairs) (size_of g) (matrix_of _ _ ks) (cm_of g scaling corr_len std_model) (row_of _ vs) (column_of _ vals)))).
(** compute_posterior_covariance, 645-713 *)
Definition grid_posterior (g : grid) (pairs : list ((R * R) * (R * R))) (corrs : list R) (tw0 tw1 freq0 freq1 scaling corr_len std_model : R)
  : result (option 'M[Rf]_(size_of g)) :=
  bind (mapM (kernel_row g (middle tw0 tw1)) pairs) (fun ks =>
  bind (variances corrs tw0 tw1 freq0 freq1) (fun vs =>
  Ok (@posterior_covariance Rf (length pairs) (size_of g) (matrix_of _ _ ks) (cm_of g scaling corr_len std_model) (row_of _ vs)))).
