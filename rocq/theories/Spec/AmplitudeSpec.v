(** What clipping, tapering, envelopes and the decay correction of a correlation matrix are expected to do. *)
From Coq Require Import Reals.
From Verif Require Import Lib.Base.
Local Open Scope R_scope.

(** sample j of row i, if the matrix has one; NaN is [Some None] *)
Definition sample_at (A : list (list (option R))) (i j : nat) : option (option R) :=
  match nth_error A i with Some row => nth_error row j | None => None end.
Definition same_shape (A B : list (list (option R))) : Prop := map (@length _) A = map (@length _) B.
(** all rows have w samples *)
Definition rectangular (w : nat) (A : list (list (option R))) : Prop := forall row, In row A -> length row = w.

(** y is the value nearest to x among those of magnitude at most c *)
Definition nearest (c x y : R) : Prop := Rabs y <= c /\ (forall z, Rabs z <= c -> Rabs (x - y) <= Rabs (x - z)).

(** number of samples that differ *)
Definition changed (x y : list R) : nat :=
  length (filter (fun p => if Req_EM_T (fst p) (snd p) then false else true) (combine x y)).

(** n samples of a harmonic of amplitude A with k0 full periods *)
Definition harmonic (n k0 : nat) (A phi : R) : list R := map (fun j => A * cos (2 * PI * INR k0 * INR j / INR n + phi)) (seq 0 n).
