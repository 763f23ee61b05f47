(** C154: processes that make and use a Monitor. *)
From Verif Require Import Lib.Base Lib.Str Model.Collectives Model.Startup Model.Partition Model.H5 Model.CorrDB Model.MonitorFiles Model.MonitorRun Model.MonitorProcs Model.MonitorStart
  Spec.CollectiveSpec Spec.StartupSpec Proofs.StartupFacts Proofs.MonitorProcsFacts Proofs.PartitionFacts Proofs.CorrScriptFacts.
From Verif Require Props.MonitorRun Props.MonitorProcs.
Local Open Scope nat_scope.
Local Open Scope string_scope.

(** if the first process can make the directories and write the options, all processes get a Monitor, or all raise the same exception *)
Theorem C154_start_partial : forall (P : Type) (stamp : P) times tr net sta listing n, 1 <= n -> t_dirs tr = None -> t_dump tr = None ->
  completes (monitor_start_all stamp times tr net sta listing n) (map (fun r => Ok (corr_find_filter net sta (listing r))) (seq 0 n)) /\ times = None /\ t_level tr = None \/
  exists e, completes (monitor_start_all stamp times tr net sta listing n) (repeat (Raise e) n) /\ (times = Some e \/ t_level tr = Some e).
Proof.
  intros P stamp times tr net sta listing n N D U. destruct times as [e|].
  - right. exists e. split; [apply completes_all|now left].
  - destruct (t_level tr) as [e|] eqn:L.
    + right. exists e. split; [|now right]. unfold monitor_start_all. erewrite (map_ext _ (fun _ => Done (Raise e))); [apply completes_all|].
      intros r. unfold monitor_start. rewrite D, L. now destruct (Nat.eqb r 0).
    + left. split; [|auto]. set (f r := @Ok (list (string * string * string)) (corr_find_filter net sta (listing r))).
      unfold monitor_start_all. erewrite (map_ext _ (fun r => Coll Bcast stamp (fun _ => Done (f r)))).
      2:{ intros r. unfold monitor_start. rewrite D, L, U. now destruct (Nat.eqb r 0). }
      eapply completes_step; [apply (step_all Bcast (fun _ => stamp) (fun r _ => Done (f r)) n N)|]. exists 0. cbn [mrun]. now rewrite map_map.
Qed.
Print Assumptions C154_start_partial.
(** what is missing: if the directories cannot be made the other processes wait for the first one for ever; *)
Theorem C154_directories_refuted : forall (P : Type) (stamp : P) tr net sta listing e n, 2 <= n -> t_dirs tr = Some e -> t_level tr = None ->
  deadlocks (monitor_start_all stamp None tr net sta listing n).
Proof.
  intros P stamp tr net sta listing e n N D L. eapply (deadlock_first _ n (Raise e) Bcast stamp _ N); unfold monitor_start; cbn [Nat.eqb]; [now rewrite D|now rewrite L].
Qed.
Print Assumptions C154_directories_refuted.
(** if the options cannot be written the first process raises and the others get a Monitor all the same *)
Theorem C154_options_refuted : forall (P : Type) (stamp : P) tr net sta listing e n, 1 <= n -> t_dirs tr = None -> t_level tr = None -> t_dump tr = Some e ->
  completes (monitor_start_all stamp None tr net sta listing n) (Raise e :: map (fun r => Ok (corr_find_filter net sta (listing r))) (seq 1 (n - 1))).
Proof.
  intros P stamp tr net sta listing e n N D L U. set (f r := if Nat.eqb r 0 then Raise e else Ok (corr_find_filter net sta (listing r))).
  replace (Raise e :: _) with (map f (seq 0 n)).
  2:{ destruct n as [|n]; [lia|]. cbn [seq map]. f_equal. replace (S n - 1) with n by lia. apply map_ext_in. intros r I. apply in_seq in I. unfold f. now destruct r; [lia|]. }
  unfold monitor_start_all. erewrite (map_ext _ (fun r => Coll Bcast stamp (fun _ => Done (f r)))).
  2:{ intros r. unfold monitor_start, f. rewrite D, L, U. now destruct (Nat.eqb r 0). }
  eapply completes_step; [apply (step_all Bcast (fun _ => stamp) (fun r _ => Done (f r)) n N)|]. exists 0. cbn [mrun]. now rewrite map_map.
Qed.
Print Assumptions C154_options_refuted.
(** A script that makes a Monitor and computes velocity changes: it ends on all processes, and the combinations it works on are those of the
    first process, also if the other processes see another directory. *)
Theorem C154_script_partial : forall (W : Type) tr net sta listing opened l n, 1 <= n -> no_trouble tr ->
  plist opened (corr_find_filter net sta (listing 0)) = Ok l ->
  exists shares, completes (@monitor_script_all W None tr net sta listing opened n) (map Ok shares) /\ length shares = n /\ concat shares = l.
Proof.
  intros W tr net sta listing opened l n N (D & L & U) E. exists (map (fun r => my_items n r l) (seq 0 n)). split; [|split; [now rewrite map_length, seq_length|now apply partition_concat]].
  unfold monitor_script_all. erewrite (map_ext _ (fun r => Coll Bcast (SList None) (fun _ => velocity opened (corr_find_filter net sta (listing r)) n r))).
  2:{ intros r. unfold monitor_script, monitor_start. rewrite D, L, U. now destruct (Nat.eqb r 0). }
  eapply completes_step; [apply (step_all Bcast (fun _ => SList None) (fun r _ => velocity opened (corr_find_filter net sta (listing r)) n r) n N)|]. cbn beta.
  erewrite (map_ext _ (fun r => velocity opened (corr_find_filter net sta (listing 0)) n r)).
  2:{ intros r. unfold velocity, share_list. destruct r; reflexivity. }
  eapply completes_step; [apply (share_step opened _ (fun r l => Done (Ok (my_items n r l))) l n N E)|]. rewrite map_map. apply (completes_done (fun r => Ok (my_items n r l))).
Qed.
Print Assumptions C154_script_partial.
(** if the options cannot be written, the other processes wait in the run for the first one *)
Theorem C154_script_refuted : forall (W : Type) tr net sta listing opened e n, 2 <= n -> t_dirs tr = None -> t_level tr = None -> t_dump tr = Some e ->
  deadlocks (@monitor_script_all W None tr net sta listing opened n).
Proof.
  intros W tr net sta listing opened e n N D L U. set (nx r := if Nat.eqb r 0 then Done (Raise e) else @velocity W opened (corr_find_filter net sta (listing r)) n r).
  unfold monitor_script_all. erewrite (map_ext _ (fun r => Coll Bcast (SList None) (fun _ => nx r))).
  2:{ intros r. unfold monitor_script, monitor_start, nx. rewrite D, L, U. now destruct (Nat.eqb r 0). }
  eapply deadlocks_step; [apply (step_all Bcast (fun _ => SList None) (fun r _ => nx r) n ltac:(lia))|]. cbn beta.
  eapply (deadlock_first nx n (Raise e) Bcast (SList None) _ N); reflexivity.
Qed.
Print Assumptions C154_script_refuted.

(** The same for a script that computes coherences: all processes return the averages of what a single process computes ... *)
Theorem C154_coherence_partial : forall (W A : Type) tr net sta listing opened compute (average : list W -> result A) f l n, 1 <= n -> no_trouble tr ->
  plist opened (corr_find_filter net sta (listing 0)) = Ok l -> (forall i, In i l -> compute i = Ok (f i)) ->
  completes (coherence_script_all None tr net sta listing opened compute average n) (repeat (average (flat_map f l)) n).
Proof.
  intros W A tr net sta listing opened compute average f l n N (D & L & U) E H.
  destruct (C154_start_partial (@shared W) (SList None) None tr net sta listing n N D U) as [(C & _)|(e & _ & [X|X])]; [|discriminate|congruence].
  eapply (then_completes _ _ (fun r => corr_find_filter net sta (listing r))); [exact C|].
  erewrite (map_ext _ (fun r => coherence opened (corr_find_filter net sta (listing 0)) compute average n r)).
  2:{ intros r. unfold coherence, share_list. destruct r; reflexivity. }
  now apply (MonitorProcs.C153_coherence_partial W A opened _ compute average f l n N E H).
Qed.
Print Assumptions C154_coherence_partial.
(** ... and processes wait for ever if the options cannot be written, or a combination fails on one process and none on another *)
Theorem C154_coherence_refuted : forall (W A : Type) tr net sta listing opened compute (average : list W -> result A) n, 2 <= n -> t_dirs tr = None -> t_level tr = None ->
  (exists e, t_dump tr = Some e) \/
  t_dump tr = None /\ (exists l r q i e, plist opened (corr_find_filter net sta (listing 0)) = Ok l /\ r < n /\ q < n /\
    In i (my_items n r l) /\ compute i = Raise e /\ forall j, In j (my_items n q l) -> exists ws, compute j = Ok ws) ->
  deadlocks (coherence_script_all None tr net sta listing opened compute average n).
Proof.
  intros W A tr net sta listing opened compute average n N D L [(e & U)|(U & l & r & q & i & e & E & R & Q & I & F & H)].
  - set (nx r := if Nat.eqb r 0 then Done (Raise e) else coherence opened (corr_find_filter net sta (listing r)) compute average n r).
    unfold coherence_script_all. erewrite (map_ext _ (fun r => Coll Bcast (SList None) (fun _ => nx r))).
    2:{ intros r. unfold coherence_script, monitor_start, nx. rewrite D, L, U. now destruct (Nat.eqb r 0). }
    eapply deadlocks_step; [apply (step_all Bcast (fun _ => SList None) (fun r _ => nx r) n ltac:(lia))|]. cbn beta.
    eapply (deadlock_first nx n (Raise e) Bcast (SList None) _ N); reflexivity.
  - destruct (C154_start_partial (@shared W) (SList None) None tr net sta listing n ltac:(lia) D U) as [(C & _)|(e' & _ & [X|X])]; [|discriminate|congruence].
    eapply (then_deadlocks _ _ (fun r => corr_find_filter net sta (listing r))); [exact C|].
    erewrite (map_ext _ (fun r => coherence opened (corr_find_filter net sta (listing 0)) compute average n r)).
    2:{ intros s. unfold coherence, share_list. destruct s; reflexivity. }
    now apply (MonitorProcs.C153_coherence_refuted W A opened _ compute average l n r q i e E R Q I F H).
Qed.
Print Assumptions C154_coherence_refuted.

(** the directory of C102; the second process does not see one of the files yet *)
Definition seen (r : nat) : list string := if Nat.eqb r 1 then ["A-A.X-X.h5"] else ["A-A.X-Y.h5"; "A-A.X-X.h5"].
Example C154_example :
  mrun 3 (@monitor_script_all nat None (mkTrouble None None None) (FStr "*") (FStr "*") seen MonitorRun.stored 2) = map (fun l => Done (Ok l)) [firstn 2 MonitorRun.three; skipn 2 MonitorRun.three] /\
  plist MonitorRun.stored (corr_find_filter (FStr "*") (FStr "*") (seen 0)) = Ok MonitorRun.three /\
  completes (monitor_start_all tt None (mkTrouble None (Some KeyError) None) (FStr "*") (FStr "*") seen 3) (repeat (Raise KeyError) 3) /\
  deadlocks (monitor_start_all tt None (mkTrouble (Some PermissionError) None None) (FStr "*") (FStr "*") seen 3) /\
  deadlocks (@monitor_script_all nat None (mkTrouble None None (Some TypeError)) (FStr "*") (FStr "*") seen MonitorRun.stored 3).
Proof.
  split; [vm_compute; reflexivity|]. split; [vm_compute; reflexivity|]. split; [exists 1; vm_compute; reflexivity|]. split.
  - now apply (C154_directories_refuted _ _ _ _ _ _ PermissionError 3 ltac:(lia)).
  - now apply (C154_script_refuted _ _ _ _ _ _ TypeError 3 ltac:(lia)).
Qed.
Example C154_coherence_example :
  completes (coherence_script_all None (mkTrouble None None None) (FStr "*") (FStr "*") seen MonitorRun.stored (fun i => Ok [i_cha i]) (fun l => Ok l) 2) (repeat (Ok ["HHE-HHE"; "HHZ-HHZ"; "HHZ-HHZ"]) 2) /\
  deadlocks (coherence_script_all None (mkTrouble None None None) (FStr "*") (FStr "*") seen MonitorRun.stored MonitorProcs.lengths (fun l => Ok l) 2) /\
  deadlocks (coherence_script_all None (mkTrouble None None (Some TypeError)) (FStr "*") (FStr "*") seen MonitorRun.stored MonitorProcs.lengths (fun l => Ok l) 2).
Proof.
  split; [exists 3; vm_compute; reflexivity|]. split; apply C154_coherence_refuted; try lia; try reflexivity; [right|left; now exists TypeError].
  split; [reflexivity|]. exists MonitorRun.three, 1, 0, (mkItem "A-A.X-X.h5" "A-A" "X-X" "HHZ-HHZ"), IndexError. split; [vm_compute; reflexivity|]. split; [lia|]. split; [lia|].
  split; [vm_compute; now left|]. split; [reflexivity|]. vm_compute. intros j [<-|[<-|[]]]; eauto.
Qed.
