(** What muting should do. *)
From Coq Require Import Reals.
From Verif Require Import Lib.Base Model.TimeDomain.
Local Open Scope R_scope.

(** sample i of the (filtered) trace exceeds the threshold *)
Definition exceeds (a : mute_args) (x : list R) (i : nat) : Prop := thres a x < Rabs (nth i (filtered a x) 0).
(** the filter, if any, keeps the number of samples *)
Definition filter_ok (a : mute_args) (x : list R) : Prop := length (filtered a x) = length x.
(** neither an exceeding sample nor an end of the trace within d samples of sample i *)
Definition quiet (a : mute_args) (x : list R) (i d : nat) : Prop :=
  (d <= i)%nat /\ (i + d < length x)%nat /\ forall j, (i - d <= j <= i + d)%nat -> ~ exceeds a x j.

(** f is a QR decomposition of the matrix with the columns (0, 1, 2, ...)/n and (1, 1, ...): the product Q R is the
    matrix, the columns of Q are orthonormal and R is invertible *)
Definition qr_ok (n : nat) (f : qr) : Prop := length (q1 f) = n /\ length (q2 f) = n /\ r11 f <> 0 /\ r22 f <> 0 /\
  (forall k, (k < n)%nat -> nth k (q1 f) 0 * r11 f = nth k (trend_col n) 0) /\ (forall k, (k < n)%nat -> nth k (q1 f) 0 * r12 f + nth k (q2 f) 0 * r22 f = 1) /\
  dot (q1 f) (q1 f) = 1 /\ dot (q1 f) (q2 f) = 0 /\ dot (q2 f) (q2 f) = 1.
