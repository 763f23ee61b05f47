(** C155: a whole correlation script on several processes. *)
From Verif Require Import Lib.Base Lib.Str Model.PxcorrLoop Model.Collectives Model.Stations Model.Combos Model.Rerun Model.CorrScript
  Spec.CollectiveSpec Spec.StartupSpec Proofs.CollectiveFacts Proofs.StartupFacts Proofs.CorrScriptFacts Proofs.CorrScriptRunFacts.
From Verif Require Model.Startup Model.RunStart Model.MonitorStart Props.Collectives Props.Startup Props.RunStart.
Local Open Scope nat_scope.
Local Open Scope string_scope.

(** If the first process can do what it does alone, and in every read increment all processes have the same number of windows, all
    processes return with the same correlations: those of a single process that holds the data of all. *)
Theorem C155_script_partial : forall (T C K I : Type) archive network station component (inventory : result I) remove_response search (pc : @proc T C K) subdiv read_len corr_inc world tr x ex n,
  let known := match inventory with Ok i => Some i | Raise _ => None end in
  no_trouble tr -> find_stations archive network station component = Ok x ->
  search x = Ok ex -> ((exists i, inventory = Ok i) \/ remove_response = false) ->
  balanced read_len corr_inc (S n) (world x (known, ex)) ->
  exists evs, completes (corr_script_all archive network station component tr inventory remove_response (fun _ => None) search pc subdiv read_len corr_inc world (S n)) (repeat (Ok evs) (S n)) /\
    completes [process pc subdiv read_len corr_inc 0 (map (merged_inc read_len corr_inc) (world x (known, ex)))] [evs].
Proof. intros. now apply script_ok. Qed.
Print Assumptions C155_script_partial.
(** Otherwise processes wait for ever: if the first process fails while the processes start or begin the run, *)
Theorem C155_first_process_refuted : forall (T C K I : Type) archive network station component (inventory : result I) remove_response search (pc : @proc T C K) subdiv read_len corr_inc world tr refused n,
  2 <= n -> find_stations archive network station component <> Raise ValueError ->
  (exists e, first_process_fails archive network station component tr e) \/
  no_trouble tr /\ (exists x, find_stations archive network station component = Ok x /\
    ((exists e, inventory = Raise e) /\ remove_response = true \/ (exists e, refused x = Some e) \/ exists e, search x = Raise e)) ->
  deadlocks (corr_script_all archive network station component tr inventory remove_response refused search pc subdiv read_len corr_inc world n).
Proof. intros. now apply script_first. Qed.
Print Assumptions C155_first_process_refuted.
(** and if the processes have different numbers of windows, e.g. because one of them cannot read its data (C03) *)
Theorem C155_windows_refuted : forall (T C K I : Type) archive network station component (inventory : result I) remove_response search (pc : @proc T C K) subdiv read_len corr_inc world tr x ex n r r',
  let known := match inventory with Ok i => Some i | Raise _ => None end in
  subdiv = false -> no_trouble tr -> find_stations archive network station component = Ok x ->
  search x = Ok ex -> ((exists i, inventory = Ok i) \/ remove_response = false) -> r < S n -> r' < S n ->
  total read_len corr_inc (world x (known, ex)) r < total read_len corr_inc (world x (known, ex)) r' ->
  deadlocks (corr_script_all archive network station component tr inventory remove_response (fun _ => None) search pc subdiv read_len corr_inc world (S n)).
Proof. intros. now apply script_windows with x ex r r'. Qed.
Print Assumptions C155_windows_refuted.

(** the archive of C151 and the data of C03 on three processes; an empty directory *)
Definition none_yet (x : list (string * string * string) * list (string * string)) : result ex_dict := find_existing_times [] (snd x) "betweenStations" None "subdivision" "*".
Definition C155_run tr refused n := corr_script_all Props.Startup.two_nets (Lst [Str "D0"; Str "X9"]) (Str "*") (Str "Z") tr (Raise ValueError : result unit) false refused none_yet Collectives.toy true 4 2 (fun _ _ => Collectives.C03_world) n.
Example C155_example :
  completes (C155_run (Startup.mkTrouble None None None) (fun _ => None) 3) (repeat (Ok [([[(1, 0%Z); (2, 0%Z)]], true); ([[(1, 2%Z)]], false); ([[(3, 4%Z)]], true); ([[(3, 6%Z)]], false)]) 3) /\
  (exists x, find_stations Props.Startup.two_nets (Lst [Str "D0"; Str "X9"]) (Str "*") (Str "Z") = Ok x /\ none_yet x = Ok []) /\
  deadlocks (C155_run (Startup.mkTrouble None None (Some TypeError)) (fun _ => None) 3) /\
  deadlocks (C155_run (Startup.mkTrouble None None None) (fun _ => Some PermissionError) 3).
Proof.
  split; [exists 50; vm_compute; reflexivity|]. split; [eexists; split; vm_compute; reflexivity|]. split; apply C155_first_process_refuted; try lia; try (vm_compute; discriminate).
  - left. exists TypeError. right. repeat split. now left.
  - right. split; [repeat split|]. eexists. split; [vm_compute; reflexivity|]. right. left. eauto.
Qed.
(** one of two processes cannot read its data *)
Example C155_windows_example :
  deadlocks (corr_script_all Props.Startup.two_nets (Lst [Str "D0"; Str "X9"]) (Str "*") (Str "Z") (Startup.mkTrouble None None None) (Ok tt) true (fun _ => None) none_yet Collectives.toy false 2 1
    (fun _ _ => [(0%Z, [Data [[(1, 0%Z)]; [(1, 1%Z)]]; Failed])]) 2).
Proof.
  eapply (C155_windows_refuted _ _ _ _ _ _ _ _ (Ok tt) true none_yet Collectives.toy false 2 1 (fun _ _ => [(0%Z, [Data [[(1, 0%Z)]; [(1, 1%Z)]]; Failed])]) _ _ _ 1 1 0 eq_refl);
    [repeat split|vm_compute; reflexivity|vm_compute; reflexivity|left; eauto|lia|lia|vm_compute; lia].
Qed.
