(** Calls of the grid of the spatial inversion: which velocity changes go together. *)
From Coq Require Import Reals List ZArith.
From mathcomp Require Import all_ssreflect all_algebra.
From Verif Require Import Lib.Base Lib.RField Model.Kernel Model.Inversion Model.GridInversion Model.DVGrid Model.GridCalls.

(** window, frequencies: those of the call, otherwise those of the velocity change *)
Definition setting_of (a : args) (d : dvr) : option (R * R) * option R * option R :=
  match d_proc d with
  | Some (s, l, f0, f1) => (or_tw (a_tw a) (Some (s, Rplus s l)), or_freq (a_freq0 a) (Some f0), or_freq (a_freq1 a) (Some f1))
  | None => (a_tw a, or_freq (a_freq0 a) None, or_freq (a_freq1 a) None)
  end.
(** a velocity change has a value and a coherence between 0.001 and 1 at the time *)
Definition usable (a : args) (d : dvr) : Prop := picked (a_utc a) d <> None.
(** all usable velocity changes were measured in the same window and frequencies, or these are given *)
Definition uniform (a : args) : Prop :=
  forall d d', In d (a_dvs a) -> In d' (a_dvs a) -> usable a d -> usable a d' -> setting_of a d = setting_of a d'.
Definition with_dvs (a : args) (dvs : list dvr) : args :=
  mkArgs dvs (a_utc a) (a_tw a) (a_freq0 a) (a_freq1 a) (a_scaling a) (a_corr_len a) (a_std a).
Definition args_of (c : call) : args := match c with Invert a | Resolution a | Posterior a | Forward _ a => a end.
Definition with_args (c : call) (a : args) : call :=
  match c with Invert _ => Invert a | Resolution _ => Resolution a | Posterior _ => Posterior a | Forward x _ => Forward x a end.
(** the same velocity change as if it had been measured with other settings *)
Definition with_proc (p : option (R * R * R * R)) (d : dvr) : dvr :=
  mkDV (d_starts d) (d_ends d) (d_value d) (d_corr d) (d_s0 d) (d_s1 d) p.
Definition is_forward (c : call) : bool := match c with Forward _ _ => true | _ => false end.
