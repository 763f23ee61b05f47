(** What the inversion of velocity changes is meant to compute. *)
From mathcomp Require Import all_ssreflect all_algebra.
Set Implicit Arguments.
Unset Strict Implicit.
Import GRing.Theory.
Local Open Scope ring_scope.

Section Spec.
  Variable F : realFieldType.
  (** the value of a quadratic form *)
  Definition form k (A : 'M[F]_k) (x : 'cV[F]_k) : F := (x^T *m A *m x) 0 0.
  Definition symmetric k (A : 'M[F]_k) : Prop := A^T = A.
  Definition positive k (A : 'M[F]_k) : Prop := symmetric A /\ forall x, x != 0 -> 0 < form A x.
  Definition nonnegative k (A : 'M[F]_k) : Prop := symmetric A /\ forall x, 0 <= form A x.
  Definition inverse_of k (A B : 'M[F]_k) : Prop := A *m B = 1%:M /\ B *m A = 1%:M.
  (** misfit of the data, each weighted with its variance, and size of the model measured with its covariance [icm]^-1 *)
  Definition misfit n m (G : 'M[F]_(n, m)) (v : 'rV[F]_n) (d : 'cV[F]_n) (x : 'cV[F]_m) : F :=
    \sum_i (d i 0 - (G *m x) i 0) ^+ 2 / v 0 i.
  Definition objective n m (G : 'M[F]_(n, m)) (icm : 'M[F]_m) (v : 'rV[F]_n) (d : 'cV[F]_n) (x : 'cV[F]_m) : F :=
    misfit G v d x + form icm x.
  Definition all_positive n (v : 'rV[F]_n) : Prop := forall i, 0 < v 0 i.
End Spec.
