(** What normalising and reference traces are. *)
From Coq Require Import Reals QArith.
From Verif Require Import Lib.Base Model.LagMatrix.
Local Open Scope nat_scope.

(** lag of sample [k] *)
Definition lag_at (h : hdr) (k : nat) : Q := (h_lag h + inject_Z (Z.of_nat k) / h_sr h)%Q.
(** Sample [k] stands for the lags from its own to that of the next sample.  It is used if this interval does not end before the
    start of the window or after its end. *)
Definition used_sample (h : hdr) (st et : option Q) (k : nat) : bool :=
  match st with Some t => negb (Qle_bool (lag_at h (S k)) t) | None => true end &&
  match et with Some t => Qle_bool (lag_at h (S k)) t | None => true end.
Definition window_of {A} (h : hdr) (st et : option Q) (l : list A) : list A :=
  map snd (filter (fun p => used_sample h st et (fst p)) (combine (seq 0 (length l)) l)).
(** the window lies on the lag axis (whose last sample also stands for an interval) *)
Definition on_axis (h : hdr) (st et : option Q) : Prop :=
  match st with Some t => (h_lag h <= t)%Q | None => True end /\
  match et with Some t => (h_lag h <= t)%Q /\ (t < lag_at h (h_npts h))%Q | None => True end.
(** the values that are not missing *)
Definition values (l : list (option R)) : list R := flat_map (fun o => match o with Some v => [v] | None => [] end) l.
(** a trace without missing samples *)
Definition complete (row : list (option R)) : bool := forallb (fun o => match o with Some _ => true | None => false end) row.
Local Open Scope R_scope.
Fixpoint total (l : list R) : R := match l with [] => 0 | v :: r => v + total r end.
Definition average (l : list R) : R := total l / INR (length l).
Definition is_max (l : list R) (v : R) : Prop := In v l /\ forall w, In w l -> w <= v.
(** how well two traces agree *)
Definition inner (x y : list R) : R := total (map (fun p => fst p * snd p) (combine x y)).
Definition cosine (x y : list R) : R := inner x y / sqrt (inner x x * inner y y).
Definition scaled (c : R) (x : list R) : list R := map (fun v => v / c) x.
