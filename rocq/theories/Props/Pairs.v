(** C06, C08: which pairs of traces are correlated. *)
From Verif Require Import Lib.Base Lib.Str Lib.Sorting Model.Combos Spec.ComboSpec Proofs.ComboFacts.
From Coq Require Import Permutation Sorted.
Local Open Scope string_scope.

(** ** C06 *)
Theorem C06_exactly_documented : forall st ex m rc st' c,
  calc_cross_combis st ex m rc = Ok (st', c) ->
  Permutation st' st /\ StronglySorted (le_rel key_le) st' /\ NoDup c /\
  (forall i j, In (i, j) c <->
     exists a b, nth_error st' i = Some a /\ nth_error st' j = Some b /\
       documented m i j a b /\ compare_existing_data ex a b = false /\ allowed m rc a b).
Proof. exact calc_exact. Qed.
Print Assumptions C06_exactly_documented.

Theorem C06_unknown_method_rejected : forall st ex m rc, ~ known_method m ->
  calc_cross_combis st ex m rc = Raise ValueError.
Proof. exact calc_unknown. Qed.
Print Assumptions C06_unknown_method_rejected.

Theorem C06_known_method_succeeds : forall st ex m rc, known_method m ->
  (forall tr, In tr st -> t_cha tr <> "") ->
  exists c, calc_cross_combis st ex m rc = Ok (sort_stream st, c).
Proof. exact calc_total. Qed.
Print Assumptions C06_known_method_succeeds.

Definition ex_stream : list trace :=
  [mkTr "XX" "B" "" "HHZ" 0 1; mkTr "XX" "A" "" "HHZ" 0 2; mkTr "XX" "A" "" "HHN" 0 3].
Example C06_example_bs : exists st c, calc_cross_combis ex_stream [] "betweenStations" None = Ok (st, c) /\
  map t_data st = [3; 2; 1]%Z /\ c = [(0, 2); (1, 2)]%nat.
Proof. repeat eexists. Qed.
Example C06_example_bc : exists st c, calc_cross_combis ex_stream [] "betweenComponents" None = Ok (st, c) /\ c = [(0, 1)]%nat.
Proof. repeat eexists. Qed.
Example C06_example_existing : exists st c,
  calc_cross_combis ex_stream [("XX.A", [("XX.B", [("HHN-HHZ", ["1970001T000000.0000Z"])])])] "betweenStations" None = Ok (st, c) /\
  c = [(1, 2)]%nat.
Proof. repeat eexists. Qed.

(** ** C08 *)
Theorem C08_pruning_keeps_pairs : forall win ex m rc win1 c1 win2 c2,
  calc_cross_combis win ex m rc = Ok (win1, c1) ->
  select_pairs win ex m rc = Ok (win2, c2) ->
  pair_traces win2 c2 = pair_traces win1 c1.
Proof. exact prune_same_pairs. Qed.
Print Assumptions C08_pruning_keeps_pairs.

Theorem C08_total : forall win ex m rc, known_method m ->
  (forall tr, In tr win -> t_cha tr <> "") -> exists w c, select_pairs win ex m rc = Ok (w, c).
Proof. exact select_pairs_total. Qed.
Print Assumptions C08_total.

(** a window in which a trace is really dropped *)
Example C08_example : exists w c,
  select_pairs [mkTr "XX" "B" "" "HHZ" 0 1; mkTr "XX" "C" "" "HHZ" 0 2; mkTr "XX" "A" "" "HHN" 0 3] [] "betweenStations"
    (Some ["XX-XX.A-C"]) = Ok (w, c) /\ map t_data w = [3; 2]%Z /\ c = [(0, 1)]%nat.
Proof. repeat eexists. Qed.
