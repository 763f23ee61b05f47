(** The decay of the amplitudes of a correlation matrix with the lag. *)
From Coq Require Import Reals.
From Verif Require Import Lib.Base Model.Spectral Model.TimeDomain Model.Amplitude.
Local Open Scope R_scope.

(** the rows without NaN *)
Fixpoint complete_rows (data : list (list (option R))) : list (list R) :=
  match data with
  | [] => []
  | row :: r => match complete row with Some x => x :: complete_rows r | None => complete_rows r end
  end.
(** average of the values at the lags +t and -t (sample c is lag zero), or the one that exists *)
Definition folded (c : nat) (e : list R) (t : nat) : R :=
  match nth_error e (c + t), (if t <=? c then nth_error e (c - t) else None)%nat with
  | Some a, Some b => (a + b) / 2
  | Some a, None => a
  | None, Some b => b
  | None, None => 0
  end.
(** the average over all complete rows of the envelopes at the lag of t samples *)
Definition mean_envelope (c : nat) (data : list (list (option R))) (t : nat) : R :=
  mean (map (fun x => folded c (envelope_samples x) t) (complete_rows data)).
(** number of different distances to lag zero in a row of n samples *)
Definition distances (c n : nat) : nat := Nat.max (c + 1) (n - c).
(** sum of the squared differences between the logarithms of that average and those of a * exp(K t) *)
Definition misfit (c n : nat) (data : list (list (option R))) (a K : R) : R :=
  rsum (distances c n) (fun t => (ln (mean_envelope c data t) - (ln a + K * INR t)) * (ln (mean_envelope c data t) - (ln a + K * INR t))).
(** the envelope of a row is a at lag zero (the position z) and changes by exp(K) per sample of distance from it *)
Definition decays_like (n : nat) (z a K : R) (x : list R) : Prop := forall i, (i < n)%nat -> nth i (envelope_samples x) 0 = a * exp (K * Rabs (INR i - z)).
