(** Singular value decompositions, and the best models. *)
From mathcomp Require Import all_ssreflect all_algebra.
Set Implicit Arguments.
Unset Strict Implicit.
Import GRing.Theory Num.Theory.
Local Open Scope ring_scope.

Section Spec.
  Variable F : realFieldType.
  Definition square n (x : 'cV[F]_n) : F := \sum_i x i 0 ^+ 2.
  (** what np.linalg.svd documents *)
  Definition is_svd n m r (G : 'M[F]_(n, m)) (u : 'M[F]_(n, r)) (s : 'rV[F]_r) (vt : 'M[F]_(r, m)) : Prop :=
    G = u *m diag_mx s *m vt /\ u^T *m u = 1%:M /\ vt *m vt^T = 1%:M /\ forall i, 0 <= s 0 i.
  (** the same matrix without the singular values up to the fraction [rcond] of the largest one *)
  Definition truncated (rcond : F) n m r (u : 'M[F]_(n, r)) (s : 'rV[F]_r) (vt : 'M[F]_(r, m)) (T : 'M[F]_(n, m)) : Prop :=
    exists s' : 'rV[F]_r, T = u *m diag_mx s' *m vt /\
      forall i, ((exists j, s 0 i <= rcond * s 0 j) -> s' 0 i = 0) /\ ((forall j, rcond * s 0 j < s 0 i) -> s' 0 i = s 0 i).
  (** [w] fits best and is the smallest of all models that do *)
  Definition best n m (G : 'M[F]_(n, m)) (d : 'cV[F]_n) (w : 'cV[F]_m) : Prop :=
    forall x, x != w -> square (G *m w - d) < square (G *m x - d) \/ (square (G *m w - d) = square (G *m x - d) /\ square w < square x).
End Spec.
