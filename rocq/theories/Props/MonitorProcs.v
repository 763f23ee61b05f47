(** C153: the runs of a Monitor on several processes. *)
From Verif Require Import Lib.Base Lib.Str Model.Collectives Model.Partition Model.H5 Model.CorrDB Model.MonitorFiles Model.MonitorRun Model.MonitorProcs
  Spec.CollectiveSpec Proofs.StartupFacts Proofs.MonitorProcsFacts Proofs.PartitionFacts.
From Verif Require Props.MonitorRun.
Local Open Scope nat_scope.
Local Open Scope string_scope.

(** Velocity changes: if all files can be opened every process returns; together they work on the listed combinations, each once. *)
Theorem C153_velocity_partial : forall (W : Type) opened listed l n, 1 <= n -> plist opened listed = Ok l ->
  exists shares, completes (@velocity_all W opened listed n) (map Ok shares) /\ length shares = n /\ concat shares = l.
Proof.
  intros W opened listed l n N E. exists (map (fun r => my_items n r l) (seq 0 n)). split; [|split].
  - eapply completes_step; [apply (share_step opened listed (fun r l => Done (Ok (my_items n r l))) l n N E)|]. rewrite map_map. apply (completes_done (fun r => Ok (my_items n r l))).
  - now rewrite map_length, seq_length.
  - now apply partition_concat.
Qed.
Print Assumptions C153_velocity_partial.
(** Coherences: if also every combination can be computed, all processes return, with the averages of the coherences that a single process
    computes, in its order. *)
Theorem C153_coherence_partial : forall (W A : Type) opened listed compute (average : list W -> result A) f l n, 1 <= n -> plist opened listed = Ok l ->
  (forall i, In i l -> compute i = Ok (f i)) ->
  completes (coherence_all opened listed compute average n) (repeat (average (flat_map f l)) n).
Proof.
  intros W A opened listed compute average f l n N E H.
  eapply completes_step; [apply (share_step opened listed _ l n N E)|]. cbn beta.
  set (pay r := SWfc (concat (map f (my_items n r l)))).
  erewrite (map_ext_in _ (fun r => Coll Allgather (pay r) (fun vs => Done (average (concat (map get_wfc vs)))))).
  2:{ intros r I. apply in_seq in I. rewrite (mapM_total compute f); [reflexivity|]. intros i J. apply H. apply (share_in n r l i); [lia|lia|exact J]. }
  eapply completes_step; [apply (step_all Allgather pay (fun _ vs => Done (average (concat (map get_wfc vs)))) n N)|]. cbn beta.
  replace (concat (map get_wfc (map pay (seq 0 n)))) with (flat_map f l); [apply completes_all|].
  rewrite map_map. cbn [pay get_wfc]. rewrite <- (partition_concat n l ltac:(lia)) at 1.
  generalize (seq 0 n) as rs. induction rs as [|r rs IH]; [reflexivity|]. cbn [map concat]. rewrite flat_map_app, IH, flat_map_concat_map. reflexivity.
Qed.
Print Assumptions C153_coherence_partial.
(** all processes raise if each of them has a combination that fails *)
Theorem C153_coherence_all_raise : forall (W A : Type) opened listed compute (average : list W -> result A) l n, 1 <= n -> plist opened listed = Ok l ->
  (forall r, r < n -> exists i e, In i (my_items n r l) /\ compute i = Raise e) ->
  exists es, completes (coherence_all opened listed compute average n) (map Raise es) /\ length es = n.
Proof.
  intros W A opened listed compute average l n N E H. set (err r := match mapM compute (my_items n r l) with Raise e => e | Ok _ => ValueError end).
  exists (map err (seq 0 n)). split; [|now rewrite map_length, seq_length]. eapply completes_step; [apply (share_step opened listed _ l n N E)|]. cbn beta. rewrite map_map.
  erewrite (map_ext_in _ (fun r => Done (Raise (err r)))); [apply (completes_done (fun r => Raise (err r)))|].
  intros r I. apply in_seq in I. destruct (H r ltac:(lia)) as (i & e & J & F). destruct (mapM_fails compute _ i e J F) as [e' M]. unfold err. now rewrite M.
Qed.
Print Assumptions C153_coherence_all_raise.

(** What is missing: with a file that cannot be opened the first process raises and the others wait for it for ever, *)
Theorem C153_file_refuted : forall (W A : Type) opened listed compute (average : list W -> result A) n s f e p, 2 <= p ->
  In (n, s, f) listed -> opened f = Raise e ->
  deadlocks (@velocity_all W opened listed p) /\ deadlocks (coherence_all opened listed compute average p).
Proof.
  intros W A opened listed compute average n s f e p N I O. destruct (Props.MonitorRun.C103_damaged_refuted opened listed n s f e I O) as [e' E].
  split; apply (share_fails opened listed _ e' p N E).
Qed.
Print Assumptions C153_file_refuted.
(** and a combination whose coherence cannot be computed lets the processes without such a combination wait for ever; *)
Theorem C153_coherence_refuted : forall (W A : Type) opened listed compute (average : list W -> result A) l n r q i e, plist opened listed = Ok l ->
  r < n -> q < n -> In i (my_items n r l) -> compute i = Raise e -> (forall j, In j (my_items n q l) -> exists ws, compute j = Ok ws) ->
  deadlocks (coherence_all opened listed compute average n).
Proof.
  intros W A opened listed compute average l n r q i e E R Q I F H. eapply deadlocks_step; [apply (share_step opened listed _ l n ltac:(lia) E)|]. cbn beta.
  destruct (mapM_fails compute _ i e I F) as [e' M]. destruct (mapM_succeeds compute _ H) as [ws S'].
  eapply (stuck _ (Raise e')).
  - apply in_map_iff. exists r. split; [now rewrite M|]. apply in_seq. lia.
  - apply in_map_iff. exists q. split; [now rewrite S'|]. apply in_seq. lia.
  - intros X. exact X.
Qed.
Print Assumptions C153_coherence_refuted.
(** so it is, e.g., whenever a combination fails and there are more processes than combinations *)
Theorem C153_idle_refuted : forall (W A : Type) opened listed compute (average : list W -> result A) l n i e, plist opened listed = Ok l ->
  length l < n -> In i l -> compute i = Raise e -> deadlocks (coherence_all opened listed compute average n).
Proof.
  intros W A opened listed compute average l n i e E L I F. destruct (owner n l i ltac:(lia) I) as (r & R & J). destruct (idle n l L) as (q & Q & K).
  apply (C153_coherence_refuted W A opened listed compute average l n r q i e E R Q J F). rewrite K. contradiction.
Qed.
Print Assumptions C153_idle_refuted.

(** two files with three combinations; the coherence of the last combination cannot be computed *)
Definition lengths (i : item) : result (list nat) := if String.eqb (i_sta i) "X-X" then Raise IndexError else Ok [String.length (i_cha i)].
Example C153_example :
  mrun 2 (coherence_all MonitorRun.stored MonitorRun.both_files (fun i => Ok [i_cha i]) (fun l => Ok l) 2) = repeat (Done (Ok ["HHE-HHE"; "HHZ-HHZ"; "HHZ-HHZ"])) 2 /\
  deadlocks (coherence_all MonitorRun.stored MonitorRun.both_files lengths (fun l => Ok l) 2) /\
  deadlocks (coherence_all MonitorRun.stored MonitorRun.both_files lengths (fun l => Ok l) 4) /\
  completes (coherence_all MonitorRun.stored MonitorRun.both_files lengths (fun l => Ok l) 1) [Raise IndexError] /\
  (exists es, completes (coherence_all MonitorRun.stored MonitorRun.both_files (fun i => if String.eqb (i_cha i) "HHZ-HHZ" then Raise KeyError else Ok [0]) (fun l => Ok l) 2) (map Raise es) /\ length es = 2) /\
  deadlocks (@velocity_all nat MonitorRun.stored [("A-A", "X-X", "A-A.X-X.h5"); ("A-A", "X-Z", "A-A.X-Z.h5")] 3).
Proof.
  split; [vm_compute; reflexivity|]. split; [|split; [|split; [|split]]].
  - apply (C153_coherence_refuted _ _ _ _ _ _ MonitorRun.three 2 1 0 (mkItem "A-A.X-X.h5" "A-A" "X-X" "HHZ-HHZ") IndexError); [vm_compute; reflexivity|lia|lia|vm_compute; now left|reflexivity|].
    vm_compute. intros j [<-|[<-|[]]]; eauto.
  - apply (C153_idle_refuted _ _ _ _ _ _ MonitorRun.three 4 (mkItem "A-A.X-X.h5" "A-A" "X-X" "HHZ-HHZ") IndexError); [vm_compute; reflexivity|cbn; lia|vm_compute; auto|reflexivity].
  - exists 2. vm_compute. reflexivity.
  - apply (C153_coherence_all_raise _ _ _ _ _ _ MonitorRun.three 2 ltac:(lia)); [vm_compute; reflexivity|]. intros [|[|r]] L; [| |lia].
    + exists (mkItem "A-A.X-Y.h5" "A-A" "X-Y" "HHZ-HHZ"), KeyError. split; [vm_compute; auto|reflexivity].
    + exists (mkItem "A-A.X-X.h5" "A-A" "X-X" "HHZ-HHZ"), KeyError. split; [vm_compute; auto|reflexivity].
  - apply (C153_file_refuted nat nat MonitorRun.stored _ lengths (fun _ => Ok 0) "A-A" "X-Z" "A-A.X-Z.h5" OSError 3); [lia|right; now left|vm_compute; reflexivity].
Qed.
