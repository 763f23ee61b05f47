(** Inversion by truncated singular value decomposition (DVGrid.compute_dv_tsvd, monitor/spatial.py:484-569), in exact arithmetic. *)
From Coq Require Import Reals List ZArith.
From mathcomp Require Import all_ssreflect all_algebra.
From Verif Require Import Lib.Base Lib.RField Model.Kernel Model.Inversion Model.GridInversion Model.DVGrid Model.GridCalls.
Set Implicit Arguments.
Unset Strict Implicit.
Import GRing.Theory Num.Theory.
Local Open Scope ring_scope.

Section Pinv.
  Variable F : realFieldType.
  (** np.amax(s): singular values are not negative *)
  Definition largest r (s : 'rV[F]_r) : F := \big[Num.max/0]_i s 0 i.
  (** large = s > rcond * amax(s) *)
  Definition kept (rcond : F) r (s : 'rV[F]_r) (i : 'I_r) : bool := rcond * largest s < s 0 i.
  (** np.linalg.pinv(G, rcond) from u, s, vt = svd(G, full_matrices=False) *)
  Definition pinv (rcond : F) n m r (u : 'M[F]_(n, r)) (s : 'rV[F]_r) (vt : 'M[F]_(r, m)) : 'M[F]_(m, n) :=
    vt^T *m (diag_mx (\row_i (if kept rcond s i then (s 0 i)^-1 else 0)) *m u^T).
  (** 563-566 *)
  Definition tsvd (rcond : F) n m r (u : 'M[F]_(n, r)) (s : 'rV[F]_r) (vt : 'M[F]_(r, m)) (vals : 'cV[F]_n) : 'cV[F]_m := pinv rcond u s vt *m vals.
End Pinv.

(** The method: the arguments scaling_factor, corr_len and std_model of [args] are not used.  [svd] is np.linalg.svd. *)
Section Call.
  Variable svd : forall n m, 'M[Rf]_(n, m) -> 'M[Rf]_(n, minn n m) * 'rV[Rf]_(minn n m) * 'M[Rf]_(minn n m, m).
  (** 551-569 *)
  Definition tsvd_call g (st : gstate g) (a : args) (cutoff : Rf) : gstate g * result 'cV[Rf]_(size_of g) :=
    let '(st, r) := prepare st a in
    match r with
    | Raise e => (st, Raise e)
    | Ok (i, w, ks) =>
        let '(u, s, vt) := svd (matrix_of (length (i_pairs i)) (size_of g) ks) in
        let x := tsvd cutoff u s vt (column_of _ (i_vals i)) in
        (mkS (s_stats st) (s_cache st) (s_dist st) (Some x), Ok x)
    end.
End Call.
