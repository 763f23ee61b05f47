(** C102: the run over all correlations of a project.  C103: directories with copies or damaged files. *)
From Coq Require Import Permutation.
From Verif Require Import Lib.Base Lib.Str Lib.StrFacts Model.Partition Model.H5 Model.CorrDB Model.MonitorFiles Model.MonitorRun.
From Verif Require Import Spec.MonitorRunSpec Proofs.MonitorRunFacts.
Local Open Scope string_scope.
Local Open Scope nat_scope.

(** ** C102 *)
(** The combinations worked on are those found in the selected files. *)
Theorem C102_listed : forall opened listed l, plist opened listed = Ok l ->
  forall i, In i l <-> exists db, In (i_net i, i_sta i, i_file i) listed /\ opened (i_file i) = Ok db /\
                        In (i_cha i) (get_available_channels db "subdivision" (i_net i) (i_sta i)).
Proof. exact plist_complete. Qed.
Print Assumptions C102_listed.

(** Whatever the number of processes and the order in which they get on, each is worked on once. *)
Theorem C102_once : forall p (l t : list item), 0 < p -> schedule (shares p l) t -> Permutation t l.
Proof. exact every_item. Qed.
Print Assumptions C102_once.

(** Files named as Correlator names them lead to different result files. *)
Theorem C102_names : forall net sta opened listing l, NoDup listing -> (forall f, In f listing -> globbed f = true -> plain_name f) ->
  (forall f db n s, opened f = Ok db -> NoDup (get_available_channels db "subdivision" n s)) ->
  plist opened (corr_find_filter net sta listing) = Ok l -> NoDup (map out_name l).
Proof. exact names_distinct. Qed.
Print Assumptions C102_names.

(** Afterwards every combination that could be measured has its own result, also if others failed; where it failed the file is as it
    was before; no other file is touched; every failure is logged, once. *)
Theorem C102_results : forall (V : Type) (compute : item -> outcome V) p l t s,
  0 < p -> schedule (shares p l) t -> NoDup (map out_name l) ->
  (forall i, In i l -> dir (attempts compute s t) (out_name i) = expected (compute i) (dir s (out_name i))) /\
  (forall x, (forall i, In i l -> x <> out_name i) -> dir (attempts compute s t) x = dir s x) /\
  (exists c, log (attempts compute s t) = (log s ++ c)%list /\
     Permutation c (flat_map (fun i => match complaint (compute i) with Some e => [(i, e)] | None => [] end) l)).
Proof. exact @run_results. Qed.
Print Assumptions C102_results.

(** The results do not depend on the number of processes. *)
Theorem C102_processes : forall (V : Type) (compute : item -> outcome V) p q l t u s,
  0 < p -> 0 < q -> schedule (shares p l) t -> schedule (shares q l) u -> NoDup (map out_name l) ->
  forall x, dir (attempts compute s t) x = dir (attempts compute s u) x.
Proof. exact @run_processes. Qed.
Print Assumptions C102_processes.

(** A run that is stopped leaves every file as before or as it has to be, and running again, on any number of processes, completes it. *)
Theorem C102_stopped : forall (V : Type) (compute : item -> outcome V) p l t s k,
  0 < p -> schedule (shares p l) t -> NoDup (map out_name l) ->
  forall x, dir (attempts compute s (firstn k t)) x = dir s x \/ dir (attempts compute s (firstn k t)) x = dir (attempts compute s t) x.
Proof. exact @stopped. Qed.
Print Assumptions C102_stopped.
Theorem C102_again : forall (V : Type) (compute : item -> outcome V) p q l t u s k,
  0 < p -> 0 < q -> schedule (shares p l) t -> schedule (shares q l) u -> NoDup (map out_name l) ->
  forall x, dir (attempts compute (attempts compute s (firstn k t)) u) x = dir (attempts compute s u) x.
Proof. exact @again. Qed.
Print Assumptions C102_again.

(** Two files, three combinations, two processes; the second combination fails, the plot of the third fails. *)
Definition db2 : file := Group [("subdivision", Group [("A-A", Group [("X-Y", Group [("HHE-HHE", Group []); ("HHZ-HHZ", Group [])])])])].
Definition db1 : file := Group [("subdivision", Group [("A-A", Group [("X-X", Group [("HHZ-HHZ", Group [])])])])].
Definition stored (f : string) : result file :=
  if String.eqb f "A-A.X-Y.h5" then Ok db2 else if String.eqb f "A-A.X-X.h5" then Ok db1 else Raise OSError.
Definition both_files := corr_find_filter (FStr "*") (FStr "*") ["A-A.X-Y.h5"; "A-A.X-X.h5"].
Definition three : list item :=
  [mkItem "A-A.X-Y.h5" "A-A" "X-Y" "HHE-HHE"; mkItem "A-A.X-Y.h5" "A-A" "X-Y" "HHZ-HHZ"; mkItem "A-A.X-X.h5" "A-A" "X-X" "HHZ-HHZ"].
Definition some_results (i : item) : outcome nat :=
  if String.eqb (i_sta i) "X-X" then Saved 3 (Some TypeError) else if String.eqb (i_cha i) "HHE-HHE" then Saved 1 None else Failed ValueError.
Definition nothing : rstate nat := mkS (fun _ => None) [].

Example C102_list_example : plist stored both_files = Ok three.
Proof. vm_compute. reflexivity. Qed.
Example C102_names_example : NoDup (map out_name three).
Proof. vm_compute. repeat constructor; cbn; intuition discriminate. Qed.
Example C102_schedule_example : schedule (shares 2 three) [nth 2 three (mkItem "" "" "" ""); nth 0 three (mkItem "" "" "" ""); nth 1 three (mkItem "" "" "" "")].
Proof.
  change (shares 2 three) with ([[nth 0 three (mkItem "" "" "" ""); nth 1 three (mkItem "" "" "" "")]] ++ [[nth 2 three (mkItem "" "" "" "")]])%list.
  apply (sched_step [_] []). apply (sched_step [] [_]). apply (sched_step [] [_]). apply sched_end. repeat constructor.
Qed.
Example C102_example :
  let s := attempts some_results nothing [nth 2 three (mkItem "" "" "" ""); nth 0 three (mkItem "" "" "" ""); nth 1 three (mkItem "" "" "" "")] in
  map (dir s) ["DV-A-A.X-Y.HHE-HHE.npz"; "DV-A-A.X-Y.HHZ-HHZ.npz"; "DV-A-A.X-X.HHZ-HHZ.npz"] = [Some 1; None; Some 3] /\
  map snd (log s) = [TypeError; ValueError].
Proof. vm_compute. auto. Qed.

(** ** C103 *)
(** A second copy of a correlation file is worked on, too, and writes to the same result files: what they contain in the end depends
    on which process is the last. *)
Definition copy_listing := ["A-A.X-X.h5"; "A-A.X-X.backup.h5"].
Theorem C103_copies_refuted : exists (opened : string -> result file) l (compute : item -> outcome nat) t u x,
  plist opened (corr_find_filter (FStr "*") (FStr "*") copy_listing) = Ok l /\
  schedule (shares 2 l) t /\ schedule (shares 2 l) u /\
  dir (attempts compute nothing t) x <> dir (attempts compute nothing u) x.
Proof.
  set (a := mkItem "A-A.X-X.h5" "A-A" "X-X" "HHZ-HHZ"). set (b := mkItem "A-A.X-X.backup.h5" "A-A" "X-X" "HHZ-HHZ").
  exists (fun _ => Ok db1), [a; b], (fun i => Saved (if String.eqb (i_file i) "A-A.X-X.h5" then 1 else 2) None), [a; b], [b; a], "DV-A-A.X-X.HHZ-HHZ.npz".
  split; [vm_compute; reflexivity|]. change (shares 2 [a; b]) with [[a]; [b]]. split; [|split].
  - apply (sched_step [] [_]). apply (sched_step [_] []). apply sched_end. repeat constructor.
  - apply (sched_step [_] []). apply (sched_step [] [_]). apply sched_end. repeat constructor.
  - vm_compute. discriminate.
Qed.
Print Assumptions C103_copies_refuted.

(** A file that cannot be opened ends the run before anything is computed, for all other files as well. *)
Theorem C103_damaged_refuted : forall opened listed n s f e, In (n, s, f) listed -> opened f = Raise e ->
  exists e', plist opened listed = Raise e'.
Proof.
  intros opened listed n s f e I O. unfold plist. destruct (mapM _ listed) as [ls|e'] eqn:M; [|now exists e'].
  exfalso. clear -I O M. revert ls M. induction listed as [|[[n' s'] f'] r IH]; intros ls M; [contradiction|]. cbn in M.
  destruct I as [[= -> -> ->]|I].
  - rewrite O in M. discriminate.
  - destruct (opened f'); [|discriminate]. cbn in M. destruct (mapM _ r) eqn:E; [|discriminate]. eapply IH; eauto.
Qed.
Print Assumptions C103_damaged_refuted.
Example C103_damaged_example : plist stored [("A-A", "X-X", "A-A.X-X.h5"); ("A-A", "X-Z", "A-A.X-Z.h5")] = Raise OSError.
Proof. vm_compute. reflexivity. Qed.

(** What does hold for all directories whose files can be opened: nothing but the listed combinations is written, and each result file
    is that of one of the combinations it is named after.
    Missing: which one, and files that cannot be opened. *)
Theorem C103_some_result_partial : forall (V : Type) (compute : item -> outcome V) p l t s x,
  0 < p -> schedule (shares p l) t ->
  dir (attempts compute s t) x = dir s x \/
  exists i v e, In i l /\ x = out_name i /\ compute i = Saved v e /\ dir (attempts compute s t) x = Some v.
Proof.
  intros V compute p l t s x P S. pose proof (every_item p l t P S) as PM.
  assert (X : forall t s, dir (attempts compute s t) x = dir s x \/
      exists i v e, In i t /\ x = out_name i /\ compute i = Saved v e /\ dir (attempts compute s t) x = Some v).
  { clear. intros t. induction t as [|i t IH] using rev_ind; intros s; [now left|].
    rewrite run_app. cbn [attempts fold_left]. change (fold_left (attempt compute) t s) with (attempts compute s t).
    destruct (string_dec x (out_name i)) as [E|E].
    - subst x. rewrite attempt_own. destruct (compute i) as [e|v e] eqn:C; cbn.
      + destruct (IH s) as [H|(j & v & e' & J & H)]; [now left|]. right. exists j, v, e'. split; [apply in_or_app; now left|exact H].
      + right. exists i, v, e. split; [apply in_or_app; right; now left|]. auto.
    - rewrite attempt_other by exact E. destruct (IH s) as [H|(j & v & e' & J & H)]; [now left|]. right. exists j, v, e'.
      split; [apply in_or_app; now left|exact H]. }
  destruct (X t s) as [H|(i & v & e & I & H)]; [now left|]. right. exists i, v, e. split; [now apply (Permutation_in _ PM)|exact H].
Qed.
Print Assumptions C103_some_result_partial.
