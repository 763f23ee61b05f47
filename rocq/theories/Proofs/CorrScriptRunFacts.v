(** A whole correlation script: the parts put together. *)
From Verif Require Import Lib.Base Lib.Str Model.PxcorrLoop Model.Collectives Model.Stations Model.Combos Model.Rerun Model.CorrScript
  Spec.CollectiveSpec Spec.StartupSpec Proofs.CollectiveFacts Proofs.StartupFacts Proofs.CorrScriptFacts.
From Verif Require Model.Startup Model.RunStart Model.MonitorStart Props.Collectives Props.Startup Props.RunStart.
Local Open Scope nat_scope.
Local Open Scope string_scope.

Section Script.
  Context {T C K I : Type}.
  Variable archive : list folder.
  Variables network station component : value.
  Variable inventory : result I.
  Variable remove_response : bool.
  Variable search : list (string * string * string) * list (string * string) -> result ex_dict.
  Variable pc : @proc T C K.
  Variable subdiv : bool.
  Variables read_len corr_inc : Z.
  Variable world : list (string * string * string) * list (string * string) -> option I * ex_dict -> list (Z * list (@outcome T)).
  Notation known := (match inventory with Ok i => Some i | Raise _ => None end).
  Notation script tr refused := (corr_script_all archive network station component tr inventory remove_response refused search pc subdiv read_len corr_inc world).

  (** up to the loop over the data *)
  Lemma script_loop tr x ex n rs : 1 <= n -> no_trouble tr -> find_stations archive network station component = Ok x ->
    search x = Ok ex -> ((exists i, inventory = Ok i) \/ remove_response = false) ->
    (completes (processes pc subdiv read_len corr_inc (world x (known, ex)) n) rs -> completes (script tr (fun _ => None) n) (map Ok rs)) /\
    (deadlocks (processes pc subdiv read_len corr_inc (world x (known, ex)) n) -> deadlocks (script tr (fun _ => None) n)).
  Proof.
    intros N TR S FS R.
    assert (S1 : completes (map (fun r => embed MStart (@un_start T C K I) (fun y => y) (Startup.start archive network station component tr r)) (seq 0 n)) (map (fun r => Ok x) (seq 0 n))).
    { destruct (Props.Startup.C151_together_partial archive network station component tr n N) as (r & H & Q & _).
      - intros e F. destruct TR as (D & L & U). destruct F as [F|(_ & _ & [F|(_ & _ & F)])]; congruence.
      - rewrite (Q TR), S, repeat_seq in H. apply (embed_completes MStart (@un_start T C K I) (fun y => y)) in H; [|reflexivity]. now rewrite map_map in H. }
    assert (S2 : completes (map (fun r => embed MBegin (@un_begin T C K I) (fun y => y) (RunStart.begin_run inventory remove_response None (search x) r)) (seq 0 n)) (map (fun r => Ok (known, ex)) (seq 0 n))).
    { pose proof (Props.RunStart.C152_together_partial I inventory remove_response (search x) ex n N FS R) as H. rewrite repeat_seq in H.
      apply (embed_completes MBegin (@un_begin T C K I) (fun y => y)) in H; [|reflexivity]. now rewrite map_map in H. }
    split; intros H.
    - apply (embed_completes MLoop (@un_loop T C K I) Ok) in H; [|reflexivity].
      eapply (then_completes _ _ (fun _ => x)); [exact S1|]. eapply (then_completes _ _ (fun _ => (known, ex))); [exact S2|]. exact H.
    - apply (embed_deadlocks MLoop (@un_loop T C K I) Ok) in H; [|reflexivity].
      eapply (then_deadlocks _ _ (fun _ => x)); [exact S1|]. eapply (then_deadlocks _ _ (fun _ => (known, ex))); [exact S2|]. exact H.
  Qed.

  Lemma script_ok : forall tr x ex n, no_trouble tr -> find_stations archive network station component = Ok x ->
    search x = Ok ex -> ((exists i, inventory = Ok i) \/ remove_response = false) ->
    balanced read_len corr_inc (S n) (world x (known, ex)) ->
    exists evs, completes (script tr (fun _ => None) (S n)) (repeat (Ok evs) (S n)) /\
      completes [process pc subdiv read_len corr_inc 0 (map (merged_inc read_len corr_inc) (world x (known, ex)))] [evs].
  Proof.
    intros tr x ex n TR S FS R B. destruct (Props.Collectives.C03_balanced_runs_complete_partial T C K pc subdiv read_len corr_inc n _ B) as (evs & H1 & H2).
    exists evs. split; [|exact H2]. destruct (script_loop tr x ex (Datatypes.S n) (repeat evs (Datatypes.S n)) ltac:(lia) TR S FS R) as [G _]. specialize (G H1). now rewrite map_repeated in G.
  Qed.
  Lemma script_first : forall tr refused n, 2 <= n -> find_stations archive network station component <> Raise ValueError ->
    (exists e, first_process_fails archive network station component tr e) \/
    no_trouble tr /\ (exists x, find_stations archive network station component = Ok x /\
      ((exists e, inventory = Raise e) /\ remove_response = true \/ (exists e, refused x = Some e) \/ exists e, search x = Raise e)) ->
    deadlocks (script tr refused n).
  Proof.
    intros tr refused n N V [(e & F)|(TR & x & S & X)].
    - apply dies_deadlocks. eapply then_dies. eapply embed_dies; [reflexivity|]. now apply start_dies with e.
    - assert (S1 : completes (map (fun r => embed MStart (@un_start T C K I) (fun y => y) (Startup.start archive network station component tr r)) (seq 0 n)) (map (fun r => Ok x) (seq 0 n))).
      { destruct (Props.Startup.C151_together_partial archive network station component tr n ltac:(lia)) as (r & H & Q & _).
        - intros e F. destruct TR as (D & L & U). destruct F as [F|(_ & _ & [F|(_ & _ & F)])]; congruence.
        - rewrite (Q TR), S, repeat_seq in H. apply (embed_completes MStart (@un_start T C K I) (fun y => y)) in H; [|reflexivity]. now rewrite map_map in H. }
      eapply (then_deadlocks _ _ (fun _ => x)); [exact S1|]. cbn beta. apply dies_deadlocks. eapply then_dies. eapply embed_dies; [reflexivity|]. now apply begin_dies.
  Qed.
  Lemma script_windows : forall tr x ex n r r', subdiv = false -> no_trouble tr -> find_stations archive network station component = Ok x ->
    search x = Ok ex -> ((exists i, inventory = Ok i) \/ remove_response = false) -> r < S n -> r' < S n ->
    total read_len corr_inc (world x (known, ex)) r < total read_len corr_inc (world x (known, ex)) r' ->
    deadlocks (script tr (fun _ => None) (S n)).
  Proof.
    intros tr x ex n r r' SD TR S FS R L L' U. apply (script_loop tr x ex (Datatypes.S n) [] ltac:(lia) TR S FS R). rewrite SD.
    now apply (Props.Collectives.C03_unequal_totals_deadlock T C K pc read_len corr_inc n _ r r').
  Qed.
End Script.
