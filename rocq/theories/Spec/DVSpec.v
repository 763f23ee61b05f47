(** Vocabulary for the statements about velocity change results. *)
From Verif Require Import Lib.Base Model.CorrStream Model.DVs Spec.LagSpec.
Local Open Scope nat_scope.

(** [rows] time steps and [cols] tested stretches *)
Record dv_shape (rows cols : nat) (d : dv) : Prop := {
  ds_sim : length (d_sim d) = rows;
  ds_row : forall r, In r (d_sim d) -> length r = cols;
  ds_corr : length (d_corr d) = rows;
  ds_value : length (d_value d) = rows;
  ds_axis : length (d_axis d) = cols }.

Definition dims {A} (rows cols : nat) (m : list (list A)) : Prop :=
  length m = rows /\ forall r, In r m -> length r = cols.

(** similarity of a time step with a stretch *)
Definition cell (m : list (list sample)) (i j : nat) : sample := nth j (nth i m []) None.

(** every time step was measured completely or not at all *)
Definition complete (rows cols : nat) (d : dv) : Prop := forall i, i < rows ->
  (nth i (d_corr d) None <> None /\ nth i (d_value d) None <> None /\ forall j, j < cols -> cell (d_sim d) i j <> None) \/
  (nth i (d_corr d) None = None /\ nth i (d_value d) None = None /\ forall j, j < cols -> cell (d_sim d) i j = None).

(** two averages that are the same numbers *)
Record same_average (a b : average) : Prop := {
  sa_sim : Forall2 (Forall2 same_number) (a_sim a) (a_sim b);
  sa_corr : Forall2 same_number (a_corr a) (a_corr b);
  sa_value : a_value a = a_value b;
  sa_n : a_n a = a_n b;
  sa_net : a_net a = a_net b; sa_sta : a_sta a = a_sta b; sa_cha : a_cha a = a_cha b }.
Definition same_outcome (x y : result average) : Prop :=
  match x, y with Ok a, Ok b => same_average a b | Raise e, Raise e' => e = e' | _, _ => False end.

(** each row shifted by k stretches, what enters is not specified *)
Definition shifted_rows (k : Z) (rows cols : nat) (old new : list (list sample)) : Prop :=
  forall i j, i < rows -> j < cols -> (0 <= Z.of_nat j - k < Z.of_nat cols)%Z ->
    cell new i j = cell old i (Z.to_nat (Z.of_nat j - k)).
