(** Specification of masking and gap interpolation. *)
From Coq Require Import QArith.
From Verif Require Import Lib.Base.
Local Open Scope nat_scope.

(** time of sample k *)
Definition sample_time (start delta : Z) (k : nat) : Z := (start + Z.of_nat k * delta)%Z.

(** [s, s+n) is a maximal run of missing samples *)
Definition is_gap (l : list (option Q)) (s n : nat) : Prop :=
  0 < n /\ s + n <= length l /\
  (forall i, s <= i < s + n -> nth_error l i = Some None) /\
  (s = 0 \/ exists v, nth_error l (s - 1) = Some (Some v)) /\
  (s + n = length l \/ exists v, nth_error l (s + n) = Some (Some v)).
(** limit of -1: any length *)
Definition short (max : Z) (n : nat) : Prop := max = (-1)%Z \/ (Z.of_nat n <= max)%Z.
(** value at x of the straight line through (i, a) and (j, b) *)
Definition on_line (i : nat) (a : Q) (j : nat) (b : Q) (x : nat) (v : Q) : Prop :=
  ((v - a) * inject_Z (Z.of_nat j - Z.of_nat i) == (b - a) * inject_Z (Z.of_nat x - Z.of_nat i))%Q.
