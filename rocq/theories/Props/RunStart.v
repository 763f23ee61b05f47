(** C152: the beginning of a run on several processes. *)
From Verif Require Import Lib.Base Lib.Str Model.Collectives Model.H5 Model.CorrTrace Model.CorrDB Model.Combos Model.Rerun Model.RunStart
  Spec.CollectiveSpec Proofs.StartupFacts.
From Verif Require Props.Requests Spec.DirSpec.
Local Open Scope nat_scope.
Local Open Scope string_scope.

(** if the first process finds what it looks for, all processes begin the loop with the same metadata and the same existing correlations *)
Theorem C152_together_partial : forall (I : Type) (inventory : result I) remove_response search ex n, 1 <= n ->
  search = Ok ex -> ((exists i, inventory = Ok i) \/ remove_response = false) ->
  completes (begin_all inventory remove_response None search n) (repeat (Ok (match inventory with Ok i => Some i | Raise _ => None end, ex)) n).
Proof.
  intros I inventory remove_response search ex n N FS R. set (i := match inventory with Ok i => Some i | Raise _ => None end).
  assert (E : begin_all inventory remove_response None search n = map (fun r => Coll Bcast (TInv (if Nat.eqb r 0 then i else None)) (metadata None search r)) (seq 0 n)).
  { apply map_ext. intros r. unfold begin_run, i. destruct (Nat.eqb r 0); [|reflexivity]. destruct inventory as [x|e]; [reflexivity|]. destruct R as [(x & X)| ->]; [discriminate|reflexivity]. }
  rewrite E. eapply completes_step; [apply (step_all Bcast (fun r => TInv (if Nat.eqb r 0 then i else None)) (metadata None search) n N)|]. cbn beta.
  set (pay r := TEx (I := I) (if Nat.eqb r 0 then Some ex else None)).
  erewrite (map_ext _ (fun r => Coll Bcast (pay r) (know i))).
  2:{ intros r. destruct n as [|n]; [lia|]. cbn [seq map Nat.eqb metadata]. unfold existing, pay. rewrite FS. now destruct (Nat.eqb r 0). }
  eapply completes_step; [apply (step_all Bcast pay (fun _ => know i) n N)|]. cbn beta. destruct n as [|n]; [lia|].
  change (map pay (seq 0 (S n))) with (TEx (I := I) (Some ex) :: map pay (seq 1 n)). cbn [know]. apply completes_all.
Qed.
Print Assumptions C152_together_partial.
(** what is missing: whatever stops the first process lets the others wait for ever *)
Theorem C152_metadata_refuted : forall (I : Type) (inventory : result I) refused search e n, 2 <= n -> inventory = Raise e ->
  deadlocks (begin_all inventory true refused search n).
Proof. intros I inventory refused search e n N E. apply (deadlock_first _ n (Raise FileNotFoundError) Bcast (TInv None) (metadata refused search 1) N); unfold begin_run; cbn [Nat.eqb]; [now rewrite E|reflexivity]. Qed.
Print Assumptions C152_metadata_refuted.
Theorem C152_existing_refuted : forall (I : Type) (inventory : result I) remove_response refused search n, 2 <= n ->
  ((exists i, inventory = Ok i) \/ remove_response = false) -> ((exists e, refused = Some e) \/ exists e, search = Raise e) ->
  deadlocks (begin_all inventory remove_response refused search n).
Proof.
  intros I inventory remove_response refused search n N R X. set (i := match inventory with Ok i => Some i | Raise _ => None end).
  assert (E : begin_all inventory remove_response refused search n = map (fun r => Coll Bcast (TInv (if Nat.eqb r 0 then i else None)) (metadata refused search r)) (seq 0 n)).
  { apply map_ext. intros r. unfold begin_run, i. destruct (Nat.eqb r 0); [|reflexivity]. destruct inventory as [x|e]; [reflexivity|]. destruct R as [(x & Y)| ->]; [discriminate|reflexivity]. }
  rewrite E. eapply deadlocks_step; [apply (step_all Bcast (fun r => TInv (if Nat.eqb r 0 then i else None)) (metadata refused search) n ltac:(lia))|]. cbn beta.
  assert (F : exists e, match refused with Some e => Raise e | None => search end = Raise e). { destruct refused as [e|]; [eauto|]. destruct X as [(e & Q)|X]; [discriminate|exact X]. }
  destruct F as [e F]. destruct n as [|n]; [lia|]. apply (deadlock_first _ (S n) (Raise e) Bcast (TEx None) (know i) N); cbn [seq map Nat.eqb metadata]; unfold existing; cbn [Nat.eqb]; [now rewrite F|reflexivity].
Qed.
Print Assumptions C152_existing_refuted.

(** the directory holds stacks only (delete_subdivision), or nothing *)
Example C152_example : 
  let only_stacks := find_existing_times (DirSpec.dir_of [("XX-XX.A-B.h5", [DBSpec.Add (Requests.ex_corr "XX-XX" "A-B" "HHZ-HHZ" 0 3600) "stack_86400"])]) [("XX", "A"); ("XX", "B")] "betweenStations" None "subdivision" "*" in
  let nothing := find_existing_times [] [("XX", "A"); ("XX", "B")] "betweenStations" None "subdivision" "*" in
  deadlocks (begin_all (Ok tt) false None only_stacks 2) /\ deadlocks (begin_all (Ok tt) false (Some PermissionError) nothing 3) /\
  completes (begin_all (Raise ValueError : result unit) false None nothing 3) (repeat (Ok (None, [])) 3) /\ deadlocks (begin_all (Raise ValueError : result unit) true None nothing 3).
Proof.
  cbv zeta. split; [|split; [|split]].
  - apply C152_existing_refuted; [lia|left; eauto|right; eexists; vm_compute; reflexivity].
  - apply C152_existing_refuted; [lia|left; eauto|left; eauto].
  - apply (C152_together_partial unit (Raise ValueError)); [lia|vm_compute; reflexivity|now right].
  - now apply (C152_metadata_refuted unit _ _ _ ValueError 3 ltac:(lia)).
Qed.
