(** What a user expects of the correlation of two windows. *)
From Coq Require Import QArith Reals.
From Verif Require Import Lib.Base Model.Gaps Model.Spectral Model.DataLoop.
Local Open Scope R_scope.

(** The sample at [q] of the channel with the preprocessed data [x], for the window that starts at [s] in the read that
    starts at [t]; 0 outside of the window and of the read, and where there are no data. *)
Definition used (o : times) (t s : Z) (x : trace R) (q : Z) : R :=
  if ((s <=? q) && (q <? s + corr_len o) && (t <=? q) && (q <=? t + read_len o))%Z
  then match at_pos x q with Some v => v | None => 0 end else 0.
(** sum over the samples of the window of [x], each multiplied with the sample of [y] that is [lag] samples later *)
Definition lagged_sum (o : times) (t s : Z) (x y : trace R) (lag : Z) : R :=
  rsum (Z.to_nat (corr_len o)) (fun j => let q := (s + Z.of_nat j)%Z in used o t s x q * used o t s y (q + lag)%Z).
