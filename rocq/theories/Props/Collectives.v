(** C03: all processes take part in the same sequence of collective operations. *)
From Verif Require Import Lib.Base Model.PxcorrLoop Model.Collectives Spec.CollectiveSpec Proofs.CollectiveFacts.
Local Open Scope nat_scope.

(** a small instance of the data processing: a trace is (station, time); every trace is correlated
    with all others; the "correlation" records which traces went into it *)
Definition toy : @proc (nat * Z) nat (list (nat * Z)) := {|
  tsort := fun w => w;
  calc := fun w => seq 0 (length w);
  prune := fun _ w => w;
  prep := fun _ w => Some w;
  cut := fun _ w => w;
  corr := fun w _ => [w] |}.

(** The property does not hold: a process on which reading or preprocessing raises ValueError skips
    the collective calls of that increment and the others wait for ever. *)
Theorem C03_failure_deadlock_refuted :
  exists (world : list (Z * list (@outcome (nat * Z)))),
    deadlocks (processes toy false 2 1 world 2).
Proof.
  exists [(0%Z, [Data [[(1, 0%Z)]; [(1, 1%Z)]]; Failed])].
  apply (deadlock_when_unequal toy false 2 1 1 _ 1 0 eq_refl); vm_compute; lia.
Qed.
Print Assumptions C03_failure_deadlock_refuted.

(** If the failures happen to balance out there is no deadlock, but traces of different times are
    combined into one window: here station 1 at time 0 with station 2 at time 10. *)
Theorem C03_failures_mix_times_refuted :
  exists (world : list (Z * list (@outcome (nat * Z)))) evs,
    completes (processes toy false 1 1 world 2) [evs; evs] /\
    exists cst fl, In (cst, fl) evs /\ In [(1, 0%Z); (2, 10%Z)] cst.
Proof.
  exists [(0%Z, [Data [[(1, 0%Z)]]; Failed]); (10%Z, [Failed; Data [[(2, 10%Z)]]])].
  exists [([[(1, 0%Z); (2, 10%Z)]], true)]. split.
  - exists 10. vm_compute. reflexivity.
  - exists [[(1, 0%Z); (2, 10%Z)]], true. split; left; reflexivity.
Qed.
Print Assumptions C03_failures_mix_times_refuted.

(** Exactly which distributions deadlock (without preprocess_subdiv): the run completes if and only
    if all processes have the same number of windows in total. *)
Theorem C03_completes_iff_equal_totals : forall (T C K : Type) (pc : @proc T C K) read_len corr_inc n world,
  (exists rs, completes (processes pc false read_len corr_inc world (S n)) rs) <->
  (forall r r', r < S n -> r' < S n -> total read_len corr_inc world r = total read_len corr_inc world r').
Proof. exact (fun T C K pc rl ci n world => completes_iff pc false rl ci n world eq_refl). Qed.
Print Assumptions C03_completes_iff_equal_totals.

Theorem C03_unequal_totals_deadlock : forall (T C K : Type) (pc : @proc T C K) read_len corr_inc n world r r',
  r < S n -> r' < S n ->
  total read_len corr_inc world r < total read_len corr_inc world r' ->
  deadlocks (processes pc false read_len corr_inc world (S n)).
Proof. exact (fun T C K pc rl ci n world r r' => deadlock_when_unequal pc false rl ci n world r r' eq_refl). Qed.
Print Assumptions C03_unequal_totals_deadlock.

(** If no process fails and every process with data cuts ceil(read_len/corr_inc) windows, the run
    completes in both modes, all processes see the same correlations and write flags, and these are
    the ones of a single process that holds all the data. *)
Theorem C03_regular_runs_complete_partial : forall (T C K : Type) (pc : @proc T C K) subdiv read_len corr_inc n world,
  regular read_len corr_inc (S n) world ->
  exists evs,
    completes (processes pc subdiv read_len corr_inc world (S n)) (repeat evs (S n)) /\
    completes [process pc subdiv read_len corr_inc 0 (map (merged_inc read_len corr_inc) world)] [evs].
Proof.
  exact (fun T C K pc sd rl ci n world H =>
           merged_run pc sd rl ci n world (regular_balanced rl ci n world H)).
Qed.
Print Assumptions C03_regular_runs_complete_partial.

(** The same under the weaker condition that the processes agree on the number of windows of each
    increment. *)
Theorem C03_balanced_runs_complete_partial : forall (T C K : Type) (pc : @proc T C K) subdiv read_len corr_inc n world,
  balanced read_len corr_inc (S n) world ->
  exists evs,
    completes (processes pc subdiv read_len corr_inc world (S n)) (repeat evs (S n)) /\
    completes [process pc subdiv read_len corr_inc 0 (map (merged_inc read_len corr_inc) world)] [evs].
Proof. exact @merged_run. Qed.
Print Assumptions C03_balanced_runs_complete_partial.

(** non-vacuity: two increments, three processes, one of them without data *)
Definition C03_world : list (Z * list (@outcome (nat * Z))) :=
  [(0%Z, [Data [[(1, 0%Z)]; [(1, 2%Z)]]; NoData; Data [[(2, 0%Z)]; []]]);
   (4%Z, [NoData; Data [[(3, 4%Z)]; [(3, 6%Z)]]; NoData])].
Example C03_world_regular : regular 4 2 3 C03_world.
Proof.
  unfold regular, C03_world. repeat constructor; cbn [snd];
    intros o Ho; repeat (destruct Ho as [<-|Ho]; [try exact I; reflexivity|]); contradiction.
Qed.
Example C03_world_run :
  mrun 40 (processes toy true 4 2 C03_world 3) =
  map Done (repeat [([[(1, 0%Z); (2, 0%Z)]], true); ([[(1, 2%Z)]], false); ([[(3, 4%Z)]], true); ([[(3, 6%Z)]], false)] 3).
Proof. vm_compute. reflexivity. Qed.
