(** C151: processes that make a Correlator. *)
From Verif Require Import Lib.Base Lib.Str Model.Collectives Model.Stations Model.Startup Spec.CollectiveSpec Spec.StartupSpec Proofs.StartupFacts.
Local Open Scope nat_scope.
Local Open Scope string_scope.

(** if nothing fails on the first process alone, all processes end their start with the same stations or with the same exception; without
    other trouble these are the stations, or the exception, of a single process *)
Theorem C151_together_partial : forall archive network station component tr n, 1 <= n ->
  (forall e, ~ first_process_fails archive network station component tr e) ->
  exists r, completes (start_all archive network station component tr n) (repeat r n) /\
    (no_trouble tr -> r = find_stations archive network station component) /\
    (forall e, t_level tr = Some e -> r = Raise e).
Proof.
  intros archive network station component tr n N H. destruct (t_dirs tr) as [e|] eqn:D; [destruct (H e); now left|].
  destruct (t_level tr) as [e|] eqn:L.
  - exists (Raise e). split; [|split; [intros (_ & X & _); congruence|intros e' Q; congruence]]. eapply completes_step; [now apply start_step|]. rewrite L. apply completes_all.
  - assert (U : t_dump tr = None). { destruct (t_dump tr) as [e|] eqn:U; [|reflexivity]. destruct (H e). right. auto. }
    exists (find_stations archive network station component). split; [|split; [reflexivity|discriminate]]. eapply completes_step; [now apply start_step|]. rewrite L, U.
    rewrite at_root_none.
    destruct (find_stations archive network station component) as [x|e] eqn:F; [now apply stations_ok|].
    assert (e = ValueError) as ->; [|now apply stations_value_error]. assert (X : e = ValueError \/ e <> ValueError) by (destruct e; (now left) || (right; discriminate)).
    destruct X as [X|X]; [exact X|]. destruct (H e). right. split; [exact D|]. split; [exact L|]. right. auto.
Qed.
Print Assumptions C151_together_partial.
(** what is missing: if something fails that only the first process does, the others wait for it for ever (unless the settings have the
    wrong form, which they see themselves) *)
Theorem C151_first_process_refuted : forall archive network station component tr e n, 2 <= n ->
  first_process_fails archive network station component tr e -> find_stations archive network station component <> Raise ValueError ->
  deadlocks (start_all archive network station component tr n).
Proof.
  intros archive network station component tr e n N F V. apply dies_deadlocks. now apply start_dies with e.
Qed.
Print Assumptions C151_first_process_refuted.

(** two networks with all their stations; one of the networks has no data *)
Definition two_nets := [mkF "2015" "D0" "KIR" "HHZ.D"; mkF "2015" "D0" "BZG" "HHZ.D"; mkF "2015" "X9" "BZG" "HHN.D"].
Example C151_example :
  (forall e, ~ first_process_fails two_nets (Lst [Str "D0"; Str "X9"]) (Str "*") (Str "Z") (mkTrouble None None None) e) /\
  mrun 3 (start_all two_nets (Lst [Str "D0"; Str "X9"]) (Str "*") (Str "Z") (mkTrouble None None None) 3) = repeat (@Done sent found (Ok ([("D0", "BZG", "HHZ"); ("D0", "KIR", "HHZ")], [("D0", "BZG"); ("D0", "KIR")]))) 3 /\
  first_process_fails two_nets (Lst [Str "D0"; Str "X8"]) (Str "*") (Str "Z") (mkTrouble None None None) FileNotFoundError /\
  deadlocks (start_all two_nets (Lst [Str "D0"; Str "X8"]) (Str "*") (Str "Z") (mkTrouble None None None) 4) /\
  deadlocks (start_all two_nets (Lst [Str "D0"; Str "X9"]) (Str "*") (Str "Z") (mkTrouble None None (Some TypeError)) 4).
Proof.
  assert (F : first_process_fails two_nets (Lst [Str "D0"; Str "X8"]) (Str "*") (Str "Z") (mkTrouble None None None) FileNotFoundError).
  { right. split; [reflexivity|]. split; [reflexivity|]. right. split; [reflexivity|]. split; [discriminate|]. vm_compute. reflexivity. }
  split; [|split; [vm_compute; reflexivity|split; [exact F|split]]].
  - intros e [X|(_ & _ & [X|(_ & _ & X)])]; [discriminate|discriminate|vm_compute in X; discriminate].
  - apply (C151_first_process_refuted _ _ _ _ _ _ 4 ltac:(lia) F). vm_compute. discriminate.
  - apply (C151_first_process_refuted _ _ _ _ _ TypeError 4 ltac:(lia)); [right; split; [reflexivity|]; split; [reflexivity|]; now left|]. vm_compute. discriminate.
Qed.
