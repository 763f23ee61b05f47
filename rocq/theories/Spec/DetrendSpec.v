(** Traces without trend, without mean, and with missing samples ([None]). *)
From Coq Require Import Reals.
From Verif Require Import Lib.Base Model.Spectral.
Local Open Scope R_scope.

Definition sums_to_zero (x : list R) : Prop := rsum (length x) (fun k => nth k x 0) = 0.
Definition has_no_slope (x : list R) : Prop := rsum (length x) (fun k => INR k * nth k x 0) = 0.
(** y is x without its linear trend: the residuals of the least squares line *)
Definition without_trend (x y : list R) : Prop :=
  length y = length x /\ sums_to_zero y /\ has_no_slope y /\ exists a b, forall k, (k < length x)%nat -> nth k y 0 = nth k x 0 - (a + b * INR k).
(** y is x without its mean *)
Definition without_mean (x y : list R) : Prop :=
  length y = length x /\ sums_to_zero y /\ exists a, forall k, (k < length x)%nat -> nth k y 0 = nth k x 0 - a.
Definition samples (d : list (option R)) : list R := flat_map (fun o => match o with Some v => [v] | None => [] end) d.
(** e is d with its samples changed by [P]; the missing ones stay missing *)
Definition on_samples (P : list R -> list R -> Prop) (d e : list (option R)) : Prop :=
  P (samples d) (samples e) /\ length e = length d /\ forall i, nth_error e i = Some None <-> nth_error d i = Some None.
Definition on_rows (P : list R -> list R -> Prop) (A B : list (list (option R))) : Prop := Forall2 (on_samples P) A B.
Definition has_a_sample (A : list (list (option R))) : Prop := exists d v, In d A /\ In (Some v) d.
