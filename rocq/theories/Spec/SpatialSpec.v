(** What it means to find a cell and to align a curve. *)
From Coq Require Import QArith Qabs.
From Verif Require Import Lib.Base Model.Spatial.
Local Open Scope nat_scope.

(** the point is farther than [d] from all cells in one direction *)
Definition far (d : Q) (coords : list Q) (x : Q) : Prop := forall a, In a coords -> (d < Qabs (a - x))%Q.
(** cell [i] is a nearest one *)
Definition nearest (cells : list (Q * Q)) (x y : Q) (i : nat) : Prop :=
  exists c, nth_error cells i = Some c /\ forall c', In c' cells -> (sqdist x y c <= sqdist x y c')%Q.

(** the elements of a list at positions at most [steps] from [ii] *)
Definition around {A} (ii steps : nat) (l : list A) : list A :=
  map snd (filter (fun p => (fst p <=? ii + steps) && (ii <=? fst p + steps)) (combine (seq 0 (length l)) l)).
(** the mean of the values of a curve around a time, weighted with its coherence *)
Definition mean_at (c : curve) (utc : Z) (steps : nat) : option Q :=
  let ii := closest (c_starts c) utc in wmean (around ii steps (c_value c)) (around ii steps (c_corr c)).

(** all values differ by the same number; everything else is the same *)
Definition shifted (off : Q) (c c' : curve) : Prop :=
  c_proc c' = c_proc c /\ c_starts c' = c_starts c /\ c_ends c' = c_ends c /\ c_corr c' = c_corr c /\
  c_pair c' = c_pair c /\ c_tw c' = c_tw c /\
  Forall2 (fun v v' => match v, v' with Some a, Some b => (b == a - off)%Q | None, None => True | _, _ => False end)
    (c_value c) (c_value c').
(** moved as a whole such that the mean at the time is [target] *)
Definition aligned_to (target : Q) (utc : Z) (steps : nat) (c c' : curve) : Prop :=
  (exists off, shifted off c c') /\ match mean_at c' utc steps with Some m => (m == target)%Q | None => False end.

(** values and coherence are there or missing at the same times, the coherence is not negative *)
Definition well_formed (c : curve) : Prop :=
  length (c_starts c) = length (c_value c) /\
  Forall2 (fun v k => is_some v = is_some k) (c_value c) (c_corr c) /\
  Forall (fun k => match k with Some q => (0 <= q)%Q | None => True end) (c_corr c).

(** the curves a call works on: not aligned before, and available at that time with a sufficient coherence *)
Definition selected (flags : nat -> flag) (dvs : list curve) (utc : Z) (thres : Q) : list curve :=
  filter (fun c => not_aligned (flags (c_proc c)) && dv_starts c utc thres) dvs.
(** the value a curve is to be aligned to: the prediction for its own pair of stations and lapse time window, or 0
    without a model *)
Definition target (vel : option (nat -> Q -> Q)) (tw : Q) (c : curve) : Q :=
  match vel with Some fwd => fwd (c_pair c) tw | None => 0%Q end.
