(** The correlation of two traces as a plain sum. *)
From Coq Require Import Reals.
From Verif Require Import Lib.Base Model.Spectral.
Local Open Scope R_scope.

(** sample i of a trace, nothing outside *)
Definition sample (x : list R) (i : Z) : R := if (0 <=? i)%Z then nth (Z.to_nat i) x 0 else 0.
(** sum over all samples of x times the sample of y that is [lag] samples later *)
Definition plain (x y : list R) (lag : Z) : R :=
  rsum (length x) (fun j => sample x (Z.of_nat j) * sample y (Z.of_nat j + lag)).
(** sum of the squares *)
Definition sumsq (x : list R) : R := rsum (length x) (fun j => nth j x 0 * nth j x 0).
