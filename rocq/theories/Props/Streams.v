(** C21 - C25: correlation streams, stacks and matrices. *)
From Coq Require Import Permutation Sorted.
From Verif Require Import Lib.Base Lib.Str Lib.Sorting Lib.Time Model.CorrStream Spec.StreamSpec
  Proofs.StreamFacts Proofs.StackFacts Proofs.BulkFacts.
Local Open Scope nat_scope.

(** a trace with the given channel, location, times and data *)
Definition tr (cha loc : string) (s e : Z) (d : list sample) : ctr :=
  mkT "N0-N1" "S0-S1" cha loc s e 1 (-1) [] d.
Definition q (z : Z) : sample := Some (inject_Z z).

(** ** C21 *)
(** One stack per network/station/channel(/location) combination of the stream, made of exactly the
    traces of that combination. *)
Theorem C21_one_stack_per_combination : forall loc w st out,
  (forall t, In t st -> dotless t) ->
  stack_by_group loc w st = Ok out ->
  (forall o, In o out -> stack_st w (filter (same_idb loc o) st) = Ok o) /\
  (forall t, In t st -> exists o, In o out /\ same_id loc t o) /\
  ForallOrdPairs (fun a b => ~ same_id loc a b) out.
Proof. exact stack_groups. Qed.
Print Assumptions C21_one_stack_per_combination.

(** [same_idb] is [same_id]. *)
Theorem C21_same_id_decided : forall loc a b, same_idb loc a b = true <-> same_id loc a b.
Proof. exact same_idb_iff. Qed.
Print Assumptions C21_same_id_decided.

(** The data of a stack: the (duration-weighted) mean of the longest traces, scaled to maximum 1.
    With 'by_length' the traces must not contain NaN. *)
Theorem C21_average_partial : forall w by_len st o,
  weight_ok w by_len -> stack_st w st = Ok o ->
  (by_len = true -> forall t, In t st -> has_nan t = false) ->
  (forall t, In t st -> length (t_data t) <= length (t_data o)) /\
  (exists t, In t st /\ length (t_data t) = length (t_data o)) /\
  ((exists i x, i < length (t_data o) /\ average_at by_len st i = Some x /\ ~ (x == 0)%Q) ->
   scaled_to_one (average_at by_len st) (t_data o)) /\
  ((forall i x, i < length (t_data o) -> average_at by_len st i = Some x -> (x == 0)%Q) ->
   forall i, nth i (t_data o) None = None).
Proof. exact stack_average. Qed.
Print Assumptions C21_average_partial.

(** With NaN samples 'by_length' divides by the weight of all traces: [1,2] and [1,NaN] give [1,1]
    although the average is [1,2]. *)
Theorem C21_by_length_with_nan_refuted : exists st o,
  stack_st "by_length" st = Ok o /\
  map (fun i => option_map Qred (average_at true st i)) [0; 1] = [Some 1%Q; Some 2%Q] /\
  map (option_map Qred) (t_data o) = [Some 1%Q; Some 1%Q] /\
  ~ scaled_to_one (average_at true st) (t_data o).
Proof.
  exists [tr "Z-Z" "" 0 1 [q 1; q 2]; tr "Z-Z" "" 1 2 [q 1; None]].
  eexists. split; [vm_compute; reflexivity|]. split; [vm_compute; reflexivity|]. split; [vm_compute; reflexivity|].
  intros [c [Hc [H _]]].
  pose proof (H 0 ltac:(cbn; lia)) as H0. pose proof (H 1 ltac:(cbn; lia)) as H1. clear H.
  cbn in H0, H1. destruct H0 as [H0 _]. destruct H1 as [H1 _]. rewrite H0 in H1. discriminate H1.
Qed.
Print Assumptions C21_by_length_with_nan_refuted.

(** The header: first start; end, lag and codes as the code takes them. *)
Theorem C21_header : forall w st o, stack_st w st = Ok o ->
  exists h e, In h st /\ In e st /\
    (forall t, In t st -> (t_start h <= t_start t)%Z) /\
    (forall t, In t st -> (t_start t <= t_start e)%Z) /\
    t_net o = t_net h /\ t_sta o = t_sta h /\ t_cha o = t_cha h /\ t_loc o = t_loc h /\
    t_start o = t_start h /\ t_end o = t_end e /\ t_sr o = t_sr h /\ t_lag o = t_lag h /\ t_geo o = t_geo h.
Proof. exact stack_header. Qed.
Print Assumptions C21_header.

(** The header spans from the first start to the last end if the correlation that starts last ends last. *)
Theorem C21_header_span_partial : forall w st o, stack_st w st = Ok o -> last_ends_last st ->
  (forall t, In t st -> (t_start o <= t_start t)%Z /\ (t_end t <= t_end o)%Z) /\
  (exists t, In t st /\ t_start t = t_start o) /\ (exists t, In t st /\ t_end t = t_end o).
Proof.
  intros w st o H Hl. destruct (stack_header w st o H) as (h & e & Hh & He & H1 & H2 & _ & _ & _ & _ & Es & Ee & _).
  rewrite Es, Ee. split; [|split; [exists h; auto|exists e; auto]].
  intros t Ht. split; [apply H1; exact Ht|]. apply Hl; auto.
Qed.
Print Assumptions C21_header_span_partial.

(** In general the end is that of the correlation that starts last, and the lag is that of the
    earliest trace even if only longer traces are stacked. *)
Theorem C21_header_end_refuted : exists st o t,
  stack_st "mean" st = Ok o /\ In t st /\ (t_end o < t_end t)%Z.
Proof.
  exists [tr "Z-Z" "" 0 100 [q 1]; tr "Z-Z" "" 50 60 [q 1]]. eexists. exists (tr "Z-Z" "" 0 100 [q 1]).
  split; [vm_compute; reflexivity|]. split; [left; reflexivity|vm_compute; reflexivity].
Qed.
Print Assumptions C21_header_end_refuted.

Theorem C21_lag_of_short_trace_refuted : exists st o,
  stack_st "mean" st = Ok o /\ forall t, In t (longest st) -> ~ (t_lag t == t_lag o)%Q.
Proof.
  exists [mkT "N" "S" "C" "" 0 1 1 (-1) [] [q 1; q 2; q 1]; mkT "N" "S" "C" "" 1 2 1 (-2) [] [q 1; q 2; q 3; q 2; q 1]].
  eexists. split; [vm_compute; reflexivity|]. intros t Ht. vm_compute in Ht.
  destruct Ht as [<-|[]]. vm_compute. discriminate.
Qed.
Print Assumptions C21_lag_of_short_trace_refuted.

(** non-vacuity *)
Example C21_example :
  exists a b, stack_by_group false "by_length"
    [tr "Z-Z" "a" 0 10 [q 1; q 3]; tr "E-E" "" 0 10 [q 4; q 2]; tr "Z-Z" "b" 10 40 [q 1; q 7]; tr "Z-Z" "" 5 15 [q 9]] = Ok [a; b] /\
    t_end a = 40%Z /\ map (option_map Qred) (t_data a) = [Some (1 # 6)%Q; Some 1%Q] /\
    map (option_map Qred) (t_data b) = [Some 1%Q; Some (1 # 2)%Q].
Proof. eexists. eexists. split; [vm_compute; reflexivity|]. vm_compute. auto. Qed.

(** ** C22 *)
(** The windows of a stack contain every correlation exactly once. *)
Theorem C22_every_correlation_once_partial : forall len at_midnight st ws,
  last_ends_last st -> positive_durations st ->
  stack_windows None None len at_midnight st = Ok ws -> Permutation (concat ws) st.
Proof. exact windows_all. Qed.
Print Assumptions C22_every_correlation_once_partial.

(** For every stream and every start and end: the windows are disjoint and contain exactly the
    correlations that end after the start and not after the last window. *)
Theorem C22_windows_disjoint : forall start stop len mid st ws,
  stack_windows start stop len mid st = Ok ws ->
  exists h l s e,
    sort_start st = h :: l /\
    s = (let s0 := match start with Some s => s | None => t_start h end in if mid then midnight s0 else s0) /\
    e = (match stop with Some e => e | None => t_end (last (h :: l) h) end) /\
    (0 < len)%Z /\
    (forall t, In t st -> (durat t <= len)%Z) /\
    Permutation (concat ws)
      (filter (fun t => (s <? t_end t)%Z && (t_end t <=? s + Z.of_nat (arange_len s e len) * len)%Z) st).
Proof. exact windows_content. Qed.
Print Assumptions C22_windows_disjoint.

(** Any stack length of at least the correlation length works. *)
Theorem C22_succeeds : forall start stop len mid st,
  st <> [] -> (forall t, In t st -> (durat t <= len)%Z) -> (0 < len)%Z ->
  exists ws, stack_windows start stop len mid st = Ok ws.
Proof. exact windows_succeed. Qed.
Print Assumptions C22_succeeds.

(** Without the condition on the last correlation, correlations get lost: the middle one here. *)
Definition C22_bad : list ctr := [tr "Z-Z" "" 0 100 [q 1]; tr "Z-Z" "" 10 110 [q 2]; tr "Z-Z" "" 50 60 [q 3]].
Theorem C22_mixed_durations_refuted : exists st ws t,
  positive_durations st /\ (forall t, In t st -> (durat t <= 100)%Z) /\
  stack_windows None None 100 false st = Ok ws /\ In t st /\ ~ In t (concat ws).
Proof.
  exists C22_bad. eexists. exists (tr "Z-Z" "" 10 110 [q 2]). split; [|split; [|split; [|split]]].
  - intros t Ht. repeat (destruct Ht as [<-|Ht]; [vm_compute; reflexivity|]). contradiction.
  - intros t Ht. repeat (destruct Ht as [<-|Ht]; [vm_compute; discriminate|]). contradiction.
  - vm_compute. reflexivity.
  - right. left. reflexivity.
  - cbn. intros H. repeat (destruct H as [H|H]; [discriminate H|]). contradiction.
Qed.
Print Assumptions C22_mixed_durations_refuted.

Definition C22_good : list ctr :=
  [tr "Z-Z" "" 30 40 [q 4]; tr "Z-Z" "" 0 10 [q 1]; tr "Z-Z" "" 10 20 [q 2]; tr "Z-Z" "" 20 30 [q 3]; tr "E-E" "" 0 10 [q 1]].
Example C22_hypotheses : last_ends_last C22_good /\ positive_durations C22_good.
Proof.
  assert (H : forall t, In t C22_good -> t_end t = (t_start t + 10)%Z).
  { intros t Ht. repeat (destruct Ht as [<-|Ht]; [reflexivity|]). contradiction. }
  split.
  - intros a b Ha Hb Hc. rewrite (H a Ha), (H b Hb). specialize (Hc b Hb). lia.
  - intros t Ht. rewrite (H t Ht). lia.
Qed.
Example C22_example : exists ws, stack_windows None None 20 false C22_good = Ok ws /\ map (@length ctr) ws = [3; 2].
Proof. eexists. split; vm_compute; reflexivity. Qed.

(** ** C23 *)
(** select_corr_time: exactly the correlations that end after the start and not after the end, by
    start time. *)
Theorem C23_select_partial_exact : forall s e st, (s < e)%Z ->
  Permutation (select_corr_time s e true st)
    (filter (fun t => (s <? t_end t)%Z && (t_end t <=? e)%Z) st) /\
  StronglySorted (fun a b => (t_start a <= t_start b)%Z) (select_corr_time s e true st).
Proof. exact select_partial_exact. Qed.
Print Assumptions C23_select_partial_exact.

Theorem C23_select_full_exact : forall s e st,
  Permutation (select_corr_time s e false st)
    (filter (fun t => (s <=? t_start t)%Z && (t_end t <=? e)%Z) st) /\
  StronglySorted (fun a b => (t_start a <= t_start b)%Z) (select_corr_time s e false st).
Proof. exact select_full_exact. Qed.
Print Assumptions C23_select_full_exact.

(** The example of the documentation (six correlations that start at 1..6, interval from 2.1 to 4.9,
    in tenths) is said to select 2-4 and 3-4; correlation 4 is not selected. *)
Definition C23_doc : list ctr := map (fun k => tr "Z-Z" "" (k * 10) (k * 10 + 10) []) [1; 2; 3; 4; 5; 6]%Z.
Theorem C23_documented_example_refuted :
  map t_start (select_corr_time 21 49 true C23_doc) = [20; 30]%Z /\
  map t_start (select_corr_time 21 49 false C23_doc) = [30]%Z.
Proof. vm_compute. auto. Qed.
Print Assumptions C23_documented_example_refuted.

(** pop_at_utcs removes exactly the correlations that contain one of the times in their interior. *)
Theorem C23_pop_exact : forall utcs st t,
  In t (pop_at_utcs utcs st) <->
  In t st /\ ~ exists u, In u utcs /\ (t_start t < u < t_end t)%Z.
Proof. exact pop_exact. Qed.
Print Assumptions C23_pop_exact.
Theorem C23_pop_keeps_order : forall utcs st1 st2,
  pop_at_utcs utcs (st1 ++ st2) = pop_at_utcs utcs st1 ++ pop_at_utcs utcs st2.
Proof. exact pop_order. Qed.
Print Assumptions C23_pop_keeps_order.

(** remove_duplicates keeps one of each, in order; traces with NaN are never recognised. *)
Theorem C23_duplicates_removed_partial : forall st,
  subseq (remove_duplicates st) st /\
  (forall t, In t st -> In t (remove_duplicates st) \/ exists u, In u (remove_duplicates st) /\ same_trace t u) /\
  ((forall t, In t st -> has_nan t = false) ->
   ForallOrdPairs (fun a b => ~ same_trace b a) (remove_duplicates st)).
Proof. exact (fun st => conj (rd_subseq st) (conj (rd_complete st) (rd_distinct st))). Qed.
Print Assumptions C23_duplicates_removed_partial.
Theorem C23_duplicates_with_nan_refuted : exists t, remove_duplicates [t; t] = [t; t].
Proof. exists (tr "Z-Z" "" 0 1 [q 1; None]). vm_compute. reflexivity. Qed.
Print Assumptions C23_duplicates_with_nan_refuted.
Example C23_duplicates_example :
  remove_duplicates [tr "Z-Z" "" 0 1 [q 1]; tr "Z-Z" "" 1 2 [q 1]; tr "Z-Z" "" 0 1 [Some (2 # 2)%Q]] =
  [tr "Z-Z" "" 0 1 [q 1]; tr "Z-Z" "" 1 2 [q 1]].
Proof. vm_compute. reflexivity. Qed.

(** select_time: the selection and its exclusion split the stream. *)
Theorem C23_select_time_partition : forall s e st,
  Permutation (select_time s e false st ++ select_time s e true st) st.
Proof. exact select_time_partition. Qed.
Print Assumptions C23_select_time_partition.
(** The selection is right for correlations within one day (times given to the microsecond). *)
Theorem C23_select_time_partial : forall s e st t,
  (0 <= s)%Z -> (e < 86400000000)%Z -> (t_start t <= t_end t)%Z ->
  (t_start t / day = t_end t / day)%Z -> (t_start t mod 1000 = 0)%Z -> (t_end t mod 1000 = 0)%Z ->
  (In t (select_time s e false st) <-> In t st /\ inside_daily (s * 1000) (e * 1000) t).
Proof.
  intros s e st t H1 H2 H3 H4 H5 H6. rewrite <- (inside_tod_iff s e t H1 H2 H3 H4 H5 H6).
  unfold select_time. rewrite filter_In. destruct (inside_tod s e t); cbn; intuition discriminate.
Qed.
Print Assumptions C23_select_time_partial.
(** A correlation that ends at midnight (or on the next day) counts as ending before everything: here
    12:30 - 24:00 is selected for the interval 12:00 - 13:00. *)
Theorem C23_select_time_midnight_refuted : exists s e t,
  In t (select_time s e false [t]) /\ ~ inside_daily (s * 1000) (e * 1000) t.
Proof.
  exists (12 * 3600000000)%Z, (13 * 3600000000)%Z, (tr "Z-Z" "" (45000 * sec) (86400 * sec) []). split.
  - vm_compute. auto.
  - intros [k [H1 H2]]. unfold tr, day, sec in *. cbn [t_start t_end] in *. lia.
Qed.
Print Assumptions C23_select_time_midnight_refuted.
Example C23_select_time_example :
  map t_start (select_time (3600000000)%Z (2 * 3600000000)%Z false
    [tr "Z-Z" "" (3600 * sec) (7200 * sec) []; tr "Z-Z" "" 0 (3600 * sec) []; tr "Z-Z" "" (day + 4000 * sec) (day + 5000 * sec) []])
  = [3600 * sec; day + 4000 * sec]%Z.
Proof. vm_compute. reflexivity. Qed.

(** ** C24 *)
(** A matrix is made exactly if the traces (of the first trace's sampling rate) agree in their header;
    otherwise ValueError is raised. *)
Theorem C24_refused : forall vc h r t,
  In t (h :: r) -> (t_sr t == t_sr h)%Q -> ~ compatible vc h t ->
  create_corr_bulk vc None (h :: r) = Raise ValueError.
Proof. exact bulk_refuses. Qed.
Print Assumptions C24_refused.
Theorem C24_accepted : forall vc h r,
  (forall t, In t (h :: r) -> (t_sr t == t_sr h)%Q -> compatible vc h t) ->
  exists b, create_corr_bulk vc None (h :: r) = Ok b.
Proof. exact bulk_accepts. Qed.
Print Assumptions C24_accepted.

(** Row by row the matrix holds the traces, in order, and back again. *)
Theorem C24_rows_partial : forall vc st b, create_corr_bulk vc None st = Ok b ->
  (forall t u, In t st -> In u st -> (t_sr t == t_sr u)%Q) ->
  rows_are b st /\ counted b.
Proof.
  intros vc st b H Hsr. destruct (bulk_ok vc st b H) as (h & r & E & Hr & Hc & _). split; [|exact Hc].
  assert (X : filter (same_rate h) st = st).
  { rewrite (filter_ext_in _ (fun _ => true)).
    - clear. induction st; cbn; congruence.
    - intros t Ht. apply Qeq_bool_iff. apply Hsr; [exact Ht|]. rewrite E. left. reflexivity. }
  rewrite X in Hr. exact Hr.
Qed.
Print Assumptions C24_rows_partial.
Theorem C24_roundtrip_partial : forall vc st b, create_corr_bulk vc None st = Ok b ->
  (forall t u, In t st -> In u st -> (t_sr t == t_sr u)%Q) ->
  exists out, create_corr_stream None b = Ok out /\ Forall2 same_row st out.
Proof.
  intros vc st b H Hsr. destruct (C24_rows_partial vc st b H Hsr) as [Hr _]. exact (create_stream_rows b st Hr).
Qed.
Print Assumptions C24_roundtrip_partial.
(** Traces with another sampling rate are not refused but dropped. *)
Theorem C24_other_rate_dropped_refuted : exists st b out,
  create_corr_bulk false None st = Ok b /\ create_corr_stream None b = Ok out /\ length st = 2 /\ length out = 1.
Proof.
  exists [mkT "N" "S" "C" "" 0 1 1 0 [] [q 1]; mkT "N" "S" "C" "" 1 2 2 0 [] [q 2]].
  eexists. eexists. split; [vm_compute; reflexivity|]. split; [vm_compute; reflexivity|]. auto.
Qed.
Print Assumptions C24_other_rate_dropped_refuted.
(** An empty stream raises TypeError while the error message is made. *)
Theorem C24_empty : forall vc, create_corr_bulk vc None [] = Raise TypeError.
Proof. reflexivity. Qed.
Print Assumptions C24_empty.

Definition C24_st : list ctr := [tr "Z-Z" "a" 0 10 [q 1; q 3]; tr "E-E" "b" 10 20 [q 4; None]; tr "Z-Z" "" 5 15 [q 9; q 0]].
Example C24_example : exists b out, create_corr_bulk true None C24_st = Ok b /\
  b_ntrcs b = 3 /\ create_corr_stream None b = Ok out /\ out = C24_st.
Proof. eexists. eexists. split; [vm_compute; reflexivity|]. split; [reflexivity|]. split; [vm_compute; reflexivity|reflexivity]. Qed.
Example C24_refused_example : create_corr_bulk false None C24_st = Raise ValueError.
Proof. vm_compute. reflexivity. Qed.

(** ** C25 *)
(** slice: exactly the rows that lie in (touch) the interval, with their header entries. *)
Theorem C25_slice_rows_partial : forall s e (include_partial : bool) b ts,
  rows_are b ts -> length ts <> 1 -> (s < e)%Z ->
  exists b', slice s e include_partial b = Ok b' /\
    rows_are b' (filter (if include_partial then touches s e else lies_in s e) ts) /\ b_ntrcs b' = b_ntrcs b.
Proof. exact slice_rows. Qed.
Print Assumptions C25_slice_rows_partial.
(** select_corr_time of a matrix: exactly the rows that the selection of the stream would keep, by start time, with
    their header entries and the right count; TypeError if there are none. *)
Theorem C25_select_rows : forall s e (include_partial : bool) b ts n,
  rows_are b ts -> (forall t, In t ts -> length (t_data t) = n) ->
  match select_corr_time s e include_partial ts with
  | [] => bulk_select s e include_partial b = Raise TypeError
  | sel => exists b', bulk_select s e include_partial b = Ok b' /\ rows_are b' sel /\ counted b'
  end.
Proof. exact select_rows. Qed.
Print Assumptions C25_select_rows.
(** The row count in the header is wrong whenever a row is left out. *)
Theorem C25_count_refuted : forall s e (include_partial : bool) b ts t,
  rows_are b ts -> counted b -> length ts <> 1 -> (s < e)%Z ->
  In t ts -> (if include_partial then touches s e else lies_in s e) t = false ->
  exists b', slice s e include_partial b = Ok b' /\ ~ counted b'.
Proof. exact slice_miscounts. Qed.
Print Assumptions C25_count_refuted.
(** A matrix with a single row cannot be sliced at all. *)
Theorem C25_single_row_refuted : forall s e include_partial b t,
  rows_are b [t] -> (s < e)%Z -> slice s e include_partial b = Raise TypeError.
Proof. exact slice_single. Qed.
Print Assumptions C25_single_row_refuted.
(** Picking rows by index keeps rows and header aligned and counts right. *)
Theorem C25_getitem_rows : forall idx b ts d, rows_are b ts -> (forall i, In i idx -> i < length ts) ->
  exists b', getitem idx b = Ok b' /\ rows_are b' (map (fun i => nth i ts d) idx) /\ counted b'.
Proof. exact getitem_rows. Qed.
Print Assumptions C25_getitem_rows.
Example C25_select_example : exists b b', create_corr_bulk true None C24_st = Ok b /\
  bulk_select 0 20 false b = Ok b' /\ b_start b' = [0; 5; 10]%Z /\ bulk_select 0 15 false b <> Ok b' /\
  bulk_select 30 40 false b = Raise TypeError.
Proof.
  eexists. eexists. split; [vm_compute; reflexivity|]. split; [vm_compute; reflexivity|].
  split; [reflexivity|]. split; [vm_compute; discriminate|vm_compute; reflexivity].
Qed.
Example C25_example : exists b b', create_corr_bulk true None C24_st = Ok b /\
  slice 11 30 true b = Ok b' /\ b_start b' = [10; 5]%Z /\ b_loc b' = Many ["b"; ""]%string /\ b_ntrcs b' = 3.
Proof. eexists. eexists. split; [vm_compute; reflexivity|]. split; vm_compute; auto. Qed.
