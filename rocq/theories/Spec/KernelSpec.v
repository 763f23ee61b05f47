(** Grids and windows of the spatial inversion. *)
From Coq Require Import Reals.
From Verif Require Import Lib.Base Model.Kernel.
Local Open Scope R_scope.

(** a grid that extends in both directions; positive steps, velocity and mean free path *)
Definition good_grid (g : grid) : Prop := 0 < g_res g /\ 0 < g_x g /\ 0 < g_y g /\ 0 < g_dt g /\ 0 < g_vel g /\ 0 < g_mf g.
(** a time of the integration lies at the middle of the window or up to half a step later *)
Definition step_fits (t dt : R) : Prop := exists n : nat, t <= INR n * dt <= t + dt / 2.
