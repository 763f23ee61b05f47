(** Inversion of velocity changes for a grid (monitor/spatial.py 388-482, 571-724, 822-843), over any real field: exact
    arithmetic instead of binary64.  Matrices are those of mathcomp; None: numpy.linalg.LinAlgError (singular matrix).
    The sensitivity kernels (one row per velocity change, one column per cell), the model covariance and the variances of
    the data are inputs; see Model/Kernel.v. *)
From mathcomp Require Import all_ssreflect all_algebra.
Set Implicit Arguments.
Unset Strict Implicit.
Import GRing.Theory.
Local Open Scope ring_scope.

Section Inversion.
  Variables (F : realFieldType) (n m : nat).
  (** np.linalg.inv *)
  Definition linv k (A : 'M[F]_k) : option 'M[F]_k := if A \in unitmx then Some (invmx A) else None.
  (** _compute_cd, 822-843: np.eye(n)*variances *)
  Definition data_covariance (v : 'rV[F]_n) : 'M[F]_n := diag_mx v.
  (** a = cm G^T and b = inv(G cm G^T + cd), 470-472, 640-641 *)
  Definition factor_b (G : 'M[F]_(n, m)) (cm : 'M[F]_m) (cd : 'M[F]_n) : option 'M[F]_n := linv (G *m cm *m G^T + cd).
  Definition factor_a (G : 'M[F]_(n, m)) (cm : 'M[F]_m) : 'M[F]_(m, n) := cm *m G^T.
  (** compute_dv_grid, 469-478: the flattened grid *)
  Definition compute_dv_grid (G : 'M[F]_(n, m)) (cm : 'M[F]_m) (v : 'rV[F]_n) (vals : 'cV[F]_n) : option 'cV[F]_m :=
    if factor_b G cm (data_covariance v) is Some b then Some (factor_a G cm *m b *m vals) else None.
  (** compute_resolution, 571-643, and _compute_resolution, 715-724: the sums of the rows *)
  Definition compute_resolution (G : 'M[F]_(n, m)) (cm : 'M[F]_m) (v : 'rV[F]_n) : option 'cV[F]_m :=
    if factor_b G cm (data_covariance v) is Some b then Some (\col_i \sum_j (factor_a G cm *m b *m G) i j) else None.
  (** _compute_posterior_covariance, 706-713 *)
  Definition posterior_covariance (G : 'M[F]_(n, m)) (cm : 'M[F]_m) (v : 'rV[F]_n) : option 'M[F]_m :=
    if linv (data_covariance v) is Some icd then
      if linv cm is Some icm then linv (G^T *m icd *m G + icm) else None
    else None.
  (** forward_model, 386 *)
  Definition forward (G : 'M[F]_(n, m)) (x : 'cV[F]_m) : 'cV[F]_n := G *m x.
End Inversion.
