(** The inversion by truncated singular value decomposition. *)
From Coq Require Import Reals List ZArith.
From mathcomp Require Import all_ssreflect all_algebra.
From Verif Require Import Lib.Base Lib.RField Model.Kernel Model.Inversion Model.GridInversion Model.DVGrid Model.GridCalls Model.Tsvd Spec.TsvdSpec Proofs.TsvdFacts.
Set Implicit Arguments.
Unset Strict Implicit.
Import Order.TTheory GRing.Theory Num.Theory.
Local Open Scope ring_scope.

(** ** C140: compute_dv_tsvd returns the smallest of the models that fit best, without the singular values up to the given fraction *)
Theorem C140_best : forall (F : realFieldType) n m r (G : 'M[F]_(n, m)) (u : 'M[F]_(n, r)) s (vt : 'M[F]_(r, m)) rcond, is_svd G u s vt -> 0 <= rcond ->
  (exists T, truncated rcond u s vt T) /\ forall T d, truncated rcond u s vt T -> best T d (tsvd rcond u s vt d).
Proof.
  move=> F n m r G u s vt rcond [E [U [V P]]] C. split; first by eexists; apply/(truncated_is u vt P C).
  move=> T d /(truncated_is u vt P C) ->. exact: tsvd_best.
Qed.
Print Assumptions C140_best.
(** All positive singular values are above the fraction: the best model for the kernels themselves. *)
Theorem C140_full : forall (F : realFieldType) n m r (G : 'M[F]_(n, m)) (u : 'M[F]_(n, r)) s (vt : 'M[F]_(r, m)) rcond d, is_svd G u s vt -> 0 <= rcond ->
  (forall i, s 0 i = 0 \/ forall j, rcond * s 0 j < s 0 i) -> best G d (tsvd rcond u s vt d).
Proof.
  move=> F n m r G u s vt rcond d S C A. have [_ B] := C140_best S C. apply: B. case: S => E [U [V P]]. exists s. split=> // i. split=> // [[j J]].
  case: (A i) => // /(_ j). by rewrite ltNge J.
Qed.
Print Assumptions C140_full.
(** The decomposition is not unique, the model is. *)
Theorem C140_unique : forall (F : realFieldType) n m r r' (G : 'M[F]_(n, m)) (u : 'M[F]_(n, r)) s (vt : 'M[F]_(r, m)) (u' : 'M[F]_(n, r')) t (vt' : 'M[F]_(r', m)) rcond d,
  is_svd G u s vt -> is_svd G u' t vt' -> 0 <= rcond -> tsvd rcond u s vt d = tsvd rcond u' t vt' d.
Proof. move=> F n m r r' G u s vt u' t vt' rcond d. exact: tsvd_unique. Qed.
Print Assumptions C140_unique.
(** Data that follow from a model without the small singular values are fitted exactly, by a model that is not larger. *)
Theorem C140_exact_data : forall (F : realFieldType) n m r (G : 'M[F]_(n, m)) (u : 'M[F]_(n, r)) s (vt : 'M[F]_(r, m)) rcond T x0, is_svd G u s vt -> 0 <= rcond -> truncated rcond u s vt T ->
  T *m tsvd rcond u s vt (T *m x0) = T *m x0 /\ square (tsvd rcond u s vt (T *m x0)) <= square x0.
Proof. move=> F n m r G u s vt rcond T x0 [E [U [V P]]] C /(truncated_is u vt P C) ->. have [A B] := tsvd_shrinks U V P C x0. by split. Qed.
Print Assumptions C140_exact_data.
(** Sums and multiples of data give sums and multiples of models. *)
Theorem C140_linear : forall (F : realFieldType) n m r (u : 'M[F]_(n, r)) s (vt : 'M[F]_(r, m)) rcond a d d',
  tsvd rcond u s vt (a *: d + d') = a *: tsvd rcond u s vt d + tsvd rcond u s vt d'.
Proof. move=> F n m r u s vt rcond a d d'. by rewrite /tsvd mulmxDr scalemxAr. Qed.
Print Assumptions C140_linear.
(** From a fraction of one on, the model is zero whatever the data are. *)
Theorem C140_nothing_left : forall (F : realFieldType) n m r (G : 'M[F]_(n, m)) (u : 'M[F]_(n, r)) s (vt : 'M[F]_(r, m)) rcond d, is_svd G u s vt -> 1 <= rcond -> tsvd rcond u s vt d = 0.
Proof.
  move=> F n m r G u s vt rcond d [E [U [V P]]] C. apply: none_kept => i. rewrite /kept -leNgt. apply: le_trans (largest_ge s i) _. apply: ler_pemull => //. exact: le_trans (P i) (largest_ge s i).
Qed.
Print Assumptions C140_nothing_left.
(** singular values 4 and 1 with different directions; only the first is kept for the fraction 1/2 *)
Definition four_one : 'rV[rat]_2 := \row_i (if i == 0 then 4%:R else 1).
Example C140_example : is_svd (diag_mx four_one) 1%:M four_one 1%:M /\ (forall d : 'cV[rat]_2, tsvd (1 / 2%:R) 1%:M four_one 1%:M d = \col_i (if i == 0 then d 0 0 / 4%:R else 0)) /\
  truncated (1 / 2%:R) 1%:M four_one 1%:M (diag_mx (\row_i (if i == 0 then 4%:R else 0)) : 'M[rat]_2).
Proof.
  have L : largest four_one = 4%:R by rewrite /largest !big_ord_recl big_ord0 !mxE.
  split; [|split].
  - split; first by rewrite mul1mx mulmx1. by rewrite trmx1 !mulmx1; split=> //; split=> // i; rewrite mxE; case: ifP.
  - move=> d. rewrite /tsvd /pinv !trmx1 mul1mx mulmx1. apply/colP => i. rewrite mul_diag_mx !mxE /kept L mxE.
    case: (eqVneq i 0) => [->|N] /=; first by rewrite mulrC. by rewrite mul0r.
  - exists (\row_i (if i == 0 then 4%:R else 0)). split; first by rewrite mul1mx mulmx1. move=> i. rewrite !mxE. case: (eqVneq i 0) => [_|N].
    + split=> // [[j]]. rewrite !mxE. by case: ifP.
    + split=> // /(_ 0). by rewrite !mxE.
Qed.
(** The method of DVGrid: the result is kept in vel_change, whatever was there, and errors leave it as it was. *)
Theorem C140_method : forall (svd : forall n m, 'M[Rf]_(n, m) -> 'M[Rf]_(n, minn n m) * 'rV[Rf]_(minn n m) * 'M[Rf]_(minn n m, m)) g (st : gstate g) a cutoff, 0 <= cutoff ->
  match prepare st a with
  | (st', Raise e) => tsvd_call svd st a cutoff = (st', Raise e) /\ s_vel st' = s_vel st
  | (st', Ok (i, w, ks)) => let G := matrix_of (length (i_pairs i)) (size_of g) ks in is_svd G (svd _ _ G).1.1 (svd _ _ G).1.2 (svd _ _ G).2 -> exists x, snd (tsvd_call svd st a cutoff) = Ok x /\ s_vel (fst (tsvd_call svd st a cutoff)) = Some x /\
      forall r u s vt T, @is_svd _ _ _ r G u s vt -> truncated cutoff u s vt T -> best T (column_of _ (i_vals i)) x
  end.
Proof.
  move=> svd g st a cutoff C. rewrite /tsvd_call. case E: (prepare st a) => [st' [[[i w] ks]|e]].
  - set G := matrix_of _ _ _. move: (svd _ _ G) => [[u s] vt] S. eexists. split; [reflexivity|]. split=> // r u' s' vt' T S' T'.
    rewrite (tsvd_unique _ S S' C). have [_ B] := C140_best S' C. exact: B.
  - split=> //. move: E. rewrite /prepare /get_info. case: (extract _ _ _) => [s1 [i|e1]]; last by move=> [<- _].
    case: (settings a i) => [[[tw f0] f1]|e2]; last by move=> [<- _]. rewrite /get_kernels. case: (kernels _ _ _ _) => [c [k|e3]]; [by move=> []|by move=> [<- _]].
Qed.
Print Assumptions C140_method.
