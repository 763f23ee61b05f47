(** Vocabulary for the claims on combining measurements made with several references. *)
From Verif Require Import Lib.Base Model.Similarity Model.MultiRef.
From Coq Require Import Reals.
Local Open Scope R_scope.

Definition mean (l : list R) : R := sum l / INR (length l).

(** [P] is a generalised inverse of the c x c matrix [A]: A P A = A.  (The pseudo inverse is one.) *)
Definition square (c : nat) (A : list (list R)) : Prop := length A = c /\ Forall (fun r => length r = c) A.
Definition generalised_inverse (c : nat) (A P : list (list R)) : Prop :=
  square c P /\ forall x, length x = c -> mat_vec A (mat_vec P (mat_vec A x)) = mat_vec A x.
Definition pseudo_inverse (c : nat) (pinv : list (list R) -> list (list R)) : Prop :=
  forall A, square c A -> generalised_inverse c A (pinv A).

(** A date at which the two correlations are defined, not zero and not both perfect. *)
Definition usable (p : point) : Prop :=
  exists a b, cor1 p = Some a /\ cor2 p = Some b /\ -1 <= a <= 1 /\ -1 <= b <= 1 /\ a <> 0 /\ b <> 0 /\ (a * a <> 1 \/ b * b <> 1).
(** All correlations lie between -1 and 1. *)
Definition coefficients (pts : list point) : Prop :=
  Forall (fun p => (forall a, cor1 p = Some a -> -1 <= a <= 1) /\ (forall b, cor2 p = Some b -> -1 <= b <= 1)) pts.
Definition difference (p : point) : option R := olift Rminus (dt1 p) (dt2 p).
Definition swapped (p : point) : point := mkpoint (dt2 p) (dt1 p) (cor2 p) (cor1 p).

(** The measurements with the references 0, 1, ... are one curve [base], seen with the constant
    offsets [s]: same dates missing, every correlation positive, and at one date none is perfect. *)
Definition offset_panel (base : list (option R)) (s : R) (p : panel) : Prop :=
  value p = map (option_map (fun v => v + s)) base /\
  Forall2 (fun b c => match b with Some _ => exists r, c = Some r /\ 0 < r <= 1 | None => c = None end) base (corr p).
Definition offset_panels (base : list (option R)) (s : list R) (ps : list panel) : Prop :=
  Forall2 (offset_panel base) s ps /\
  exists t, Forall (fun p => exists r, nth t (corr p) None = Some r /\ 0 < r < 1) ps.

(** The similarity matrix of reference i is one matrix [f] moved by [k_i] steps along the stretch axis. *)
Definition moved (f : list (list (option R))) (k : Z) (p : panel) : Prop := sim_mat p = map (roll None k) f.

(** The inverse of the summed variances of two measurements with correlations a and b. *)
Definition inverse_variance (a b : R) : R := 4 * (a * a) * (b * b) / (a * a + b * b - 2 * (a * a) * (b * b)).
