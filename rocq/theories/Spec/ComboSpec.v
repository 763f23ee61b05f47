(** What the documentation of the combination methods says (docstring of calc_cross_combis,
    correlate/correlate.py:845-877), in terms of two traces and their positions in the stream. *)
From Verif Require Import Lib.Base Lib.Str Model.Combos.
Local Open Scope string_scope.

Definition same_station (a b : trace) : Prop := t_net a = t_net b /\ t_sta a = t_sta b.
Definition component (a : trace) : option ascii := last_char (t_cha a).

Definition documented (method : string) (i j : nat) (a b : trace) : Prop :=
  (method = "betweenStations" /\ i < j /\ ~ same_station a b) \/
  (method = "betweenComponents" /\ i < j /\ same_station a b /\ component a <> component b) \/
  (method = "autoComponents" /\ i = j) \/
  (method = "allSimpleCombinations" /\ i <= j) \/
  method = "allCombinations".

Definition known_method (method : string) : Prop :=
  In method ["betweenStations"; "betweenComponents"; "autoComponents"; "allSimpleCombinations"; "allCombinations"].

(** a requested combination list restricts the method betweenStations only *)
Definition allowed (method : string) (rc : option (list string)) (a b : trace) : Prop :=
  method = "betweenStations" -> forall l, rc = Some l -> is_in_xcombis a b l = true.
