(** The windows that are correlated: their times, their samples, and what they depend on. *)
From Coq Require Import Lia.
From Verif Require Import Lib.Base Model.Gaps Spec.GapsSpec Model.DataLoop Spec.DataLoopSpec Proofs.DataLoopFacts.
Local Open Scope Z_scope.

(** ** C128: each window holds the preprocessed samples of its time, whatever the number of processes *)
(** Preprocessing of whole reads (preprocess_subdiv False), no channel fails. *)
Theorem C128_windows : forall (A : Type) (o : times) K n proc (archive : list (trace A)) p r,
  sensible o K n -> all_succeed o proc archive K -> (r < p)%nat ->
  exists ws, correlation_windows o proc archive false p r = Some ws /\ Forall2 (right_window o proc archive) (schedule o K n) ws.
Proof. intros. now apply windows_right. Qed.
Print Assumptions C128_windows.
Theorem C128_processes : forall (A : Type) (o : times) K n proc (archive : list (trace A)) p r p' r',
  sensible o K n -> all_succeed o proc archive K -> (r < p)%nat -> (r' < p')%nat ->
  correlation_windows o proc archive false p r = correlation_windows o proc archive false p' r'.
Proof. intros. now apply (processes_irrelevant o K n). Qed.
Print Assumptions C128_processes.

(** three channels, the first without gaps, the second late, the third without data; two reads of ten samples with windows of five *)
Definition ramp (a : Z) (n : nat) : list (option Z) := map (fun k => Some (a + Z.of_nat k)) (seq 0 n).
Definition ex_times := mkTimes 0 20 10 9 5 5.
Definition ex_archive : list (trace Z) := [mkT 0 (ramp 0 20); mkT 7 (ramp 107 8); mkT 50 [Some 1]].
Definition keep (w : trace Z) : result (option (trace Z)) := Ok (Some w).
Example C128_example : sensible ex_times 2 2 /\ all_succeed ex_times keep ex_archive 2 /\
  schedule ex_times 2 2 = [(0, 0); (0, 5); (10, 10); (10, 15)] /\
  correlation_windows ex_times keep ex_archive false 2 1 = Some
   [(0, [(0%nat, mkT 0 [Some 0; Some 1; Some 2; Some 3; Some 4; None])]);
    (5, [(0%nat, mkT 5 [Some 5; Some 6; Some 7; Some 8; Some 9; None]); (1%nat, mkT 5 [None; None; Some 107; Some 108; Some 109; None])]);
    (10, [(0%nat, mkT 10 [Some 10; Some 11; Some 12; Some 13; Some 14; None]); (1%nat, mkT 10 [Some 110; Some 111; Some 112; Some 113; Some 114; None])]);
    (15, [(0%nat, mkT 15 [Some 15; Some 16; Some 17; Some 18; Some 19; None])])].
Proof.
  split; [unfold sensible, ceil_of; cbn; lia|]. split; [intros k c w _ _; now exists (Some w)|]. split; reflexivity.
Qed.

(** ** C129: windows start every corr_inc from read_start on, once each, and before read_end *)
Theorem C129_grid_partial : forall (A : Type) (o : times) K n proc (archive : list (trace A)) p r,
  sensible o K n -> read_inc o = Z.of_nat n * corr_inc o -> all_succeed o proc archive K -> (r < p)%nat ->
  exists ws, correlation_windows o proc archive false p r = Some ws /\
    map fst ws = map (fun j => read_start o + Z.of_nat j * corr_inc o) (seq 0 (K * n)) /\ NoDup (map fst ws) /\
    forall s, In s (map fst ws) -> read_end o = read_start o + Z.of_nat K * read_inc o -> read_start o <= s < read_end o.
Proof.
  intros A o K n proc archive p r S E H R. destruct (windows_right o K n proc archive S H p r R) as (ws & W & F). exists ws. split; [exact W|].
  assert (M : map fst ws = map snd (schedule o K n)). { clear W. induction F as [|[t s] [s' w] l l' X F IH]; [reflexivity|]. destruct X as (-> & _). cbn. now f_equal. }
  rewrite M, (grid_starts _ _ _ E). destruct S as (S1 & S2 & S3 & S4 & _). split; [reflexivity|]. split.
  - apply FinFun.Injective_map_NoDup; [|apply seq_NoDup]. intros i j X. nia.
  - intros s I RE. apply in_map_iff in I. destruct I as (j & <- & I). apply in_seq in I. rewrite RE, E. nia.
Qed.
Print Assumptions C129_grid_partial.
Example C129_example : read_inc ex_times = Z.of_nat 2 * corr_inc ex_times /\ read_end ex_times = read_start ex_times + Z.of_nat 2 * read_inc ex_times.
Proof. split; reflexivity. Qed.
(** read_len longer than read_inc: the same window comes twice. *)
Theorem C129_twice_refuted : exists (o : times) K n (archive : list (trace Z)), sensible o K n /\ all_succeed o keep archive K /\
  exists ws, correlation_windows o keep archive false 1 0 = Some ws /\ ~ NoDup ws /\ forall s win, In (s, win) ws -> win <> [].
Proof.
  exists (mkTimes 0 10 5 10 5 5), 2%nat, 2%nat, [mkT 0 (ramp 0 20)]. split; [unfold sensible, ceil_of; cbn; lia|]. split; [intros k c w _ _; now exists (Some w)|].
  exists [(0, [(0%nat, mkT 0 [Some 0; Some 1; Some 2; Some 3; Some 4; None])]); (5, [(0%nat, mkT 5 [Some 5; Some 6; Some 7; Some 8; Some 9; None])]);
     (5, [(0%nat, mkT 5 [Some 5; Some 6; Some 7; Some 8; Some 9; None])]); (10, [(0%nat, mkT 10 [Some 10; Some 11; Some 12; Some 13; Some 14; None])])].
  split; [reflexivity|]. split.
  - intros N. inversion N as [|? ? _ N1]. inversion N1 as [|? ? N2 _]. apply N2. now left.
  - intros s win I. cbn in I. repeat (destruct I as [I|I]; [injection I as _ <-; discriminate|]). contradiction.
Qed.
Print Assumptions C129_twice_refuted.
(** The last read is not cut at read_end: windows start after it. *)
Theorem C129_end_refuted : exists (o : times) K n (archive : list (trace Z)), sensible o K n /\ all_succeed o keep archive K /\
  exists ws s win, correlation_windows o keep archive false 1 0 = Some ws /\ In (s, win) ws /\ win <> [] /\ read_end o < s.
Proof.
  exists (mkTimes 0 3 10 9 5 5), 1%nat, 2%nat, [mkT 0 (ramp 0 20)]. split; [unfold sensible, ceil_of; cbn; lia|]. split; [intros k c w _ _; now exists (Some w)|].
  exists [(0, [(0%nat, mkT 0 [Some 0; Some 1; Some 2; Some 3; Some 4; None])]); (5, [(0%nat, mkT 5 [Some 5; Some 6; Some 7; Some 8; Some 9; None])])], 5, [(0%nat, mkT 5 [Some 5; Some 6; Some 7; Some 8; Some 9; None])].
  split; [reflexivity|]. split; [right; now left|]. split; [discriminate|]. cbn. lia.
Qed.
Print Assumptions C129_end_refuted.

(** ** C130: a window holds all samples of the archive from its start on, corr_len samples long *)
(** Windows that end inside of their read, without preprocessing functions. *)
Theorem C130_complete_partial : forall (A : Type) (o : times) K n (archive : list (trace A)) p r k t s sw c a q, sensible o K n -> (r < p)%nat ->
  nth_error (schedule o K n) k = Some (t, s) -> s + corr_len o <= t + read_len o + 1 ->
  (exists ws, correlation_windows o (fun w => Ok (Some w)) archive false p r = Some ws /\ nth_error ws k = Some sw) ->
  nth_error archive c = Some a -> s <= q < s + corr_len o -> at_pos a q <> None ->
  fst sw = s /\ exists w, In (c, w) (snd sw) /\ at_pos w q = at_pos a q.
Proof. exact @windows_complete. Qed.
Print Assumptions C130_complete_partial.
Example C130_example : exists t s sw a, nth_error (schedule ex_times 2 2) 1 = Some (t, s) /\ s + corr_len ex_times <= t + read_len ex_times + 1 /\
  (exists ws, correlation_windows ex_times (fun w => Ok (Some w)) ex_archive false 3 2 = Some ws /\ nth_error ws 1 = Some sw) /\
  nth_error ex_archive 1 = Some a /\ s <= 8 < s + corr_len ex_times /\ at_pos a 8 = Some 108.
Proof.
  exists 0, 5, (5, [(0%nat, mkT 5 [Some 5; Some 6; Some 7; Some 8; Some 9; None]); (1%nat, mkT 5 [None; None; Some 107; Some 108; Some 109; None])]), (mkT 7 (ramp 107 8)).
  split; [reflexivity|]. split; [cbn; lia|]. split; [eexists; split; reflexivity|]. split; [reflexivity|]. split; [cbn; lia|reflexivity].
Qed.
(** Overlapping windows: the last one of each read lacks samples that the archive has and the next read loads. *)
Theorem C130_read_end_refuted : exists (o : times) K n (archive : list (trace Z)) a q s win, sensible o K n /\ read_inc o = Z.of_nat n * corr_inc o /\ nth_error archive 0 = Some a /\
  (exists ws, correlation_windows o keep archive false 1 0 = Some ws /\ In (s, win) ws /\ In q (map fst ws)) /\
  s <= q < s + corr_len o /\ at_pos a q <> None /\ win <> [] /\ forall c w, In (c, w) win -> at_pos w q = None.
Proof.
  exists (mkTimes 0 20 10 9 8 5), 2%nat, 2%nat, [mkT 0 (ramp 0 20)], (mkT 0 (ramp 0 20)), 10, 5, [(0%nat, mkT 5 [Some 5; Some 6; Some 7; Some 8; Some 9; None; None; None; None])].
  split; [unfold sensible, ceil_of; cbn; lia|]. split; [reflexivity|]. split; [reflexivity|]. split.
  - eexists. split; [vm_compute; reflexivity|]. split; [right; now left|]. cbn. tauto.
  - split; [cbn; lia|]. split; [discriminate|]. split; [discriminate|]. intros c w [I|[]]. injection I as <- <-. reflexivity.
Qed.
Print Assumptions C130_read_end_refuted.

(** ** C131: a channel that cannot be preprocessed is left out; the others are correlated as if it were not there *)
Theorem C131_none_fails_partial : forall (A : Type) (o : times) K n proc (archive : list (trace A)) p, sensible o K n -> all_succeed o proc archive K ->
  exists times, forall r, (r < p)%nat -> exists ws, correlation_windows o proc archive false p r = Some ws /\ map fst ws = times.
Proof.
  intros A o K n proc archive p S H. exists (map snd (schedule o K n)). intros r R. destruct (windows_right o K n proc archive S H p r R) as (ws & W & F). exists ws. split; [exact W|].
  clear W. induction F as [|[t s] [s' w] l l' X F IH]; [reflexivity|]. destruct X as (-> & _). cbn. now f_equal.
Qed.
Print Assumptions C131_none_fails_partial.
(** a function that refuses data that contain the value 99, as resampling refuses low sampling rates *)
Definition refuse (w : trace Z) : result (option (trace Z)) :=
  if existsb (fun v => match v with Some 99 => true | _ => false end) (t_data w) then Raise ValueError else Ok (Some w).
Definition bad_archive : list (trace Z) := [mkT 0 (ramp 0 10); mkT 0 (Some 99 :: ramp 1 9)].
(** One process: the whole read is skipped, also for the channel that is fine. *)
Theorem C131_others_lost_refuted : exists (o : times) (archive : list (trace Z)), sensible o 1 2 /\ (exists w, refuse w = Raise ValueError /\ nth_error archive 1 = Some w) /\
  correlation_windows o refuse archive false 1 0 = Some [] /\
  exists ws s win, correlation_windows o refuse (firstn 1 archive) false 1 0 = Some ws /\ In (s, win) ws /\ win <> [].
Proof.
  exists (mkTimes 0 10 10 9 5 5), bad_archive. split; [unfold sensible, ceil_of; cbn; lia|]. split; [exists (mkT 0 (Some 99 :: ramp 1 9)); split; reflexivity|]. split; [reflexivity|].
  exists [(0, [(0%nat, mkT 0 [Some 0; Some 1; Some 2; Some 3; Some 4; None])]); (5, [(0%nat, mkT 5 [Some 5; Some 6; Some 7; Some 8; Some 9; None])])], 0, [(0%nat, mkT 0 [Some 0; Some 1; Some 2; Some 3; Some 4; None])].
  split; [reflexivity|]. split; [now left|discriminate].
Qed.
Print Assumptions C131_others_lost_refuted.
(** Two processes: one skips the read, the other waits for it. *)
Theorem C131_waits_refuted : exists (o : times) (archive : list (trace Z)), sensible o 1 2 /\
  (exists ws, correlation_windows o refuse archive false 1 0 = Some ws) /\ forall r, correlation_windows o refuse archive false 2 r = None.
Proof.
  exists (mkTimes 0 10 10 9 5 5), bad_archive. split; [unfold sensible, ceil_of; cbn; lia|]. split; [exists []; reflexivity|]. intros r. vm_compute. reflexivity.
Qed.
Print Assumptions C131_waits_refuted.
(** If each of two processes skips another read, windows of different times are put together. *)
Theorem C131_times_mixed_refuted : exists (o : times) (archive : list (trace Z)) ws0 ws1, sensible o 2 1 /\
  correlation_windows o refuse archive false 2 0 = Some ws0 /\ correlation_windows o refuse archive false 2 1 = Some ws1 /\
  map fst ws0 = [5] /\ map fst ws1 = [0] /\ forall s win c w, In (s, win) ws0 -> In (c, w) win -> c = 1%nat -> masked_all (t_data w) = true.
Proof.
  exists (mkTimes 0 10 5 4 5 5), [mkT 0 (Some 99 :: ramp 1 9); mkT 0 (ramp 0 9 ++ [Some 99])].
  exists [(5, [(0%nat, mkT 5 [Some 5; Some 6; Some 7; Some 8; Some 9; None]); (1%nat, mkT 5 [None; None; None; None; None; None])])],
    [(0, [(0%nat, mkT 0 [None; None; None; None; None; Some 5]); (1%nat, mkT 0 [Some 0; Some 1; Some 2; Some 3; Some 4; None])])].
  split; [unfold sensible, ceil_of; cbn; lia|]. split; [reflexivity|]. split; [reflexivity|]. split; [reflexivity|]. split; [reflexivity|].
  intros s win c w [I|[]] J C. injection I as <- <-. destruct J as [J|[J|[]]]; injection J as <- <-; [discriminate|reflexivity].
Qed.
Print Assumptions C131_times_mixed_refuted.

(** ** C132: preprocessing window by window (preprocess_subdiv True) uses the data of the same times *)
(** If all channels with data in a read have samples from its first to its last position: each window is preprocessed on its own. *)
Theorem C132_windows_partial : forall (A : Type) (o : times) K n proc (archive : list (trace A)) p r,
  sensible o K n -> full_reads o archive K -> windows_succeed o proc archive K n -> (r < p)%nat ->
  exists ws, correlation_windows o proc archive true p r = Some ws /\ Forall2 (right_subdivision o proc archive) (schedule o K n) ws.
Proof. intros. now apply subdivision_right. Qed.
Print Assumptions C132_windows_partial.
Definition full_archive : list (trace Z) := [mkT 0 (ramp 0 20); mkT 10 (ramp 110 3 ++ [None; None] ++ ramp 115 5)].
Example C132_example : sensible ex_times 2 2 /\ full_reads ex_times full_archive 2 /\ windows_succeed ex_times keep full_archive 2 2 /\
  correlation_windows ex_times keep full_archive true 2 0 = Some
   [(0, [(0%nat, mkT 0 [Some 0; Some 1; Some 2; Some 3; Some 4; None])]);
    (5, [(0%nat, mkT 5 [Some 5; Some 6; Some 7; Some 8; Some 9; None])]);
    (10, [(0%nat, mkT 10 [Some 10; Some 11; Some 12; Some 13; Some 14; None]); (1%nat, mkT 10 [Some 110; Some 111; Some 112; None; None; None])]);
    (15, [(0%nat, mkT 15 [Some 15; Some 16; Some 17; Some 18; Some 19; None]); (1%nat, mkT 15 [Some 115; Some 116; Some 117; Some 118; Some 119; None])])].
Proof.
  split; [unfold sensible, ceil_of; cbn; lia|]. split; [|split; [intros t s c w v _ _ _ _; now exists (Some v)|reflexivity]].
  intros k c w K t (a & N & S & M). assert (k = 0 \/ k = 1)%nat as [-> | ->] by lia; (destruct c as [|[|c]]; cbn in N; [injection N as <-|injection N as <-|destruct c; discriminate]); vm_compute in S; try discriminate; injection S as <-; split; reflexivity.
Qed.
(** A station that starts late in the read: its windows are cut from its first sample on and then trimmed to the times of other windows.
    With preprocess_subdiv False all of its samples are used, with True most are lost. *)
Theorem C132_late_refuted : exists (o : times) (archive : list (trace Z)), sensible o 1 2 /\
  (exists ws, correlation_windows o keep archive false 1 0 = Some ws /\ forall a q, In a archive -> at_pos a q <> None -> exists s win c w, In (s, win) ws /\ In (c, w) win /\ at_pos w q = at_pos a q) /\
  (exists ws, correlation_windows o keep archive true 1 0 = Some ws /\ forall s win c w q, In (s, win) ws -> In (c, w) win -> 5 < q -> at_pos w q = None) /\
  exists a, In a archive /\ forall q, 5 < q < 10 -> at_pos a q <> None.
Proof.
  exists (mkTimes 0 10 10 9 5 5), [mkT 5 (ramp 5 5)]. split; [unfold sensible, ceil_of; cbn; lia|]. split; [|split].
  - exists [(0, []); (5, [(0%nat, mkT 5 [Some 5; Some 6; Some 7; Some 8; Some 9; None])])]. split; [reflexivity|].
    intros a q [<-|[]] D. assert (5 <= q < 10) as Q.
    { destruct (Z.lt_ge_cases q 5) as [L|L]; [|destruct (Z.lt_ge_cases q 10); [lia|]]; exfalso; apply D; unfold at_pos; cbn [t_start t_data]; [destruct (Z.ltb_spec q 5); [reflexivity|lia]|].
      destruct (Z.ltb_spec q 5); [lia|]. apply nth_overflow. unfold ramp. rewrite map_length, seq_length. lia. }
    exists 5, [(0%nat, mkT 5 [Some 5; Some 6; Some 7; Some 8; Some 9; None])], 0%nat, (mkT 5 [Some 5; Some 6; Some 7; Some 8; Some 9; None]). split; [right; now left|]. split; [now left|].
    assert (q = 5 \/ q = 6 \/ q = 7 \/ q = 8 \/ q = 9) as [-> | [-> | [-> | [-> | ->]]]] by lia; reflexivity.
  - exists [(0, [(0%nat, mkT 0 [None; None; None; None; None; Some 5])])]. split; [reflexivity|]. intros s win c w q [I|[]] J Q. injection I as <- <-. destruct J as [J|[]]. injection J as <- <-.
    unfold at_pos. cbn [t_start t_data]. destruct (Z.ltb_spec q 0); [reflexivity|]. apply nth_overflow. cbn [length]. lia.
  - exists (mkT 5 (ramp 5 5)). split; [now left|]. intros q Q. assert (q = 6 \/ q = 7 \/ q = 8 \/ q = 9) as [-> | [-> | [-> | ->]]] by lia; discriminate.
Qed.
Print Assumptions C132_late_refuted.
(** Together with a station without gaps: one process finishes, two wait for each other. *)
Theorem C132_processes_refuted : exists (o : times) (archive : list (trace Z)), sensible o 1 2 /\
  (forall p r, (r < p)%nat -> exists ws, correlation_windows o keep archive false p r = Some ws) /\
  (exists ws, correlation_windows o keep archive true 1 0 = Some ws) /\ forall r, correlation_windows o keep archive true 2 r = None.
Proof.
  exists (mkTimes 0 10 10 9 5 5), [mkT 0 (ramp 0 10); mkT 5 (ramp 5 5)]. assert (S : sensible (mkTimes 0 10 10 9 5 5) 1 2) by (unfold sensible, ceil_of; cbn; lia). split; [exact S|]. split; [|split].
  - intros p r R. destruct (C128_windows Z _ 1%nat 2%nat keep [mkT 0 (ramp 0 10); mkT 5 (ramp 5 5)] p r S) as (ws & W & _); [|assumption|eauto]. intros k c w _ _. now exists (Some w).
  - eexists. vm_compute. reflexivity.
  - intros r. vm_compute. reflexivity.
Qed.
Print Assumptions C132_processes_refuted.
