(** C36 - C42, C55: the local archive of waveforms, masks and gaps. *)
From Coq Require Import QArith Sorted.
From Verif Require Import Lib.Base Lib.Str Lib.Time Lib.TimeFacts Model.Archive Model.Masking
  Spec.ArchiveSpec Spec.MaskSpec Proofs.ArchiveFacts Proofs.CalendarFacts Proofs.MaskFacts.
Local Open Scope Z_scope.

(** ** C36 *)
(** The loop over the days ends.  Every piece goes to the file of the day on which it begins (the first piece
    with the start of the trace) and holds only samples of that day and possibly the midnight that ends it; no two
    pieces belong to one day; every sample is in the piece of its own day, except a last sample exactly at
    midnight.  Missing: that sample, and traces of one sample, for which it is false. *)
Theorem C36_day_files_partial : forall w, 0 < w_delta w -> (2 <= w_npts w)%nat ->
  exists fuel pieces, write_loop fuel w (w_start w) = Some pieces /\
    (forall s ks k, In (s, ks) pieces -> In k ks ->
       (k < w_npts w)%nat /\ (file_of (w_time w k) = file_of s /\ same_day s (w_time w k) \/ ends_day_of (w_time w k) s)) /\
    (forall k, (k < w_npts w)%nat -> (w_time w k < w_end w \/ ~ is_midnight (w_end w)) ->
       exists s ks, In (s, ks) pieces /\ In k ks /\ file_of s = file_of (w_time w k) /\ same_day s (w_time w k)) /\
    StronglySorted (fun a b => fst a / day < fst b / day) pieces.
Proof.
  intros w D N. destruct (write_loop_correct w D _ (w_start w) (le_n _)) as (ps & E & A & B & _ & S1 & _).
  eexists _, ps. split; [exact E|]. split; [|split; [|exact S1]].
  - intros s ks k I K. destruct (A s ks k I K) as [L [H|H]]; split; auto. left. split; [|exact H].
    symmetry. now apply same_day_file.
  - intros k K M. assert (w_start w <= w_time w k) by (unfold w_time; nia).
    assert (w_start w < w_end w) by (unfold w_end, w_time; nia).
    destruct (B k K) as (s & ks & I & Ik & SD); auto. exists s, ks. repeat split; auto. now apply same_day_file.
Qed.
Print Assumptions C36_day_files_partial.
(** five hourly samples from 22:00 on 1970-01-01 *)
Example C36_example :
  let w := mkW (22 * 3600 * sec) (3600 * sec) 5 in
  write_loop 5 w (w_start w) = Some [(22 * 3600 * sec, [0; 1; 2]%nat); (day, [2; 3; 4]%nat)] /\
  file_of (22 * 3600 * sec) = (1970, 1) /\ file_of day = (1970, 2).
Proof. split; [vm_compute; reflexivity|split; reflexivity]. Qed.

(** A last sample exactly at midnight is not written to the file of its day. *)
Theorem C36_midnight_refuted : exists w pieces, 0 < w_delta w /\ (2 <= w_npts w)%nat /\
  write_loop 5 w (w_start w) = Some pieces /\
  exists k, (k < w_npts w)%nat /\ forall s ks, In (s, ks) pieces -> In k ks -> file_of s <> file_of (w_time w k).
Proof.
  exists (mkW (22 * 3600 * sec) (3600 * sec) 3). eexists. split; [reflexivity|]. split; [cbn; lia|].
  split; [vm_compute; reflexivity|]. exists 2%nat. split; [cbn; lia|].
  intros s ks [H|[]] _. injection H as <- <-. vm_compute. discriminate.
Qed.
Print Assumptions C36_midnight_refuted.
(** A trace with a single sample is never written. *)
Theorem C36_single_sample_refuted : forall w fuel, w_npts w = 1%nat -> write_loop fuel w (w_start w) = Some [].
Proof. exact write_single. Qed.
Print Assumptions C36_single_sample_refuted.

(** ** C55 *)
(** Writing to a day that has a file already: it succeeds exactly if there is no gap between the samples in the file
    and the new ones, and they agree where they overlap; then the file holds exactly the samples of both. *)
Theorem C55_append_partial : forall lo va lo' vb, va <> [] -> vb <> [] ->
  let a := samples_from lo va in let b := samples_from lo' vb in
  ((exists c, sds_write (Some a) b = Ok c) <->
     (lo' <= lo + Z.of_nat (length va) /\ lo <= lo' + Z.of_nat (length vb) /\
      forall n x y, In (n, x) a -> In (n, y) b -> x = y)) /\
  (forall c, sds_write (Some a) b = Ok c -> forall n v, In (n, v) c <-> In (n, v) a \/ In (n, v) b) /\
  (forall e, sds_write (Some a) b = Raise e -> e = NotImplementedError).
Proof. exact sds_append. Qed.
Print Assumptions C55_append_partial.
Example C55_example :
  sds_write (Some (samples_from 0 [5; 6])) (samples_from 1 [6; 7]) = Ok (samples_from 0 [5; 6; 7]).
Proof. reflexivity. Qed.
(** With a gap (here one sample) the call raises NotImplementedError and the new samples are not stored. *)
Theorem C55_gap_refuted : exists lo va lo' vb, va <> [] /\ vb <> [] /\
  sds_write (Some (samples_from lo va)) (samples_from lo' vb) = Raise NotImplementedError.
Proof. exists 0, [5], 2, [7]. repeat split; discriminate. Qed.
Print Assumptions C55_gap_refuted.

(** ** C37 *)
(** What is checked, for all local data: one trace begins at most one sample after the start of the request and the
    trace that starts last ends at most one sample before its end. *)
Theorem C37_checked_partial : forall st a b, use_local true st a b = true <->
  exists f l, hd_error st = Some f /\ hd_error (rev st) = Some l /\
    s_start f - s_delta f <= a /\ b <= s_end l + s_delta l.
Proof. exact use_local_iff. Qed.
Print Assumptions C37_checked_partial.
(** If there are no gaps between consecutive traces the request is covered. *)
Theorem C37_gapless_partial : forall st a b, gapless st -> use_local true st a b = true -> covers st a b.
Proof.
  intros st a b G H. apply use_local_iff in H as (f & l & F & L & A & B).
  intros t T. apply (gapless_covers st l G L f F). lia.
Qed.
Print Assumptions C37_gapless_partial.
Example C37_example : gapless [mkS 0 100 1; mkS 101 200 1] /\ use_local true [mkS 0 100 1; mkS 101 200 1] 0 200 = true /\
  use_local true [mkS 0 100 1; mkS 101 200 1] 0 202 = false.
Proof. cbn. split; [lia|auto]. Qed.
(** Two short traces at the ends of the request are enough: the missing middle is not requested from the server.  And a
    short trace that starts last hides a longer one. *)
Theorem C37_interior_gap_refuted : exists st a b t, use_local true st a b = true /\ a <= t <= b /\
  forall s, In s st -> ~ (s_start s - s_delta s <= t <= s_end s + s_delta s).
Proof.
  exists [mkS 0 10 1; mkS 90 100 1], 0, 100, 50. split; [reflexivity|]. split; [lia|].
  intros s [<-|[<-|[]]]; cbn; lia.
Qed.
Print Assumptions C37_interior_gap_refuted.
Theorem C37_covered_but_rejected_refuted : exists st a b, covers st a b /\ use_local true st a b = false.
Proof.
  exists [mkS 0 100 1; mkS 10 20 1], 0, 100. split; [|reflexivity].
  intros t T. exists (mkS 0 100 1). split; [now left|]. cbn. lia.
Qed.
Print Assumptions C37_covered_but_rejected_refuted.

(** ** C38 *)
(** Every request passes the checks, in particular those with wildcards. *)
Theorem C38_wildcards_accepted_refuted : forall network station location channel,
  check_request network station location channel = Ok tt.
Proof. exact check_request_accepts. Qed.
Print Assumptions C38_wildcards_accepted_refuted.
Example C38_example : has_wildcard "*" = true /\ check_request "YP" "*" "00" "BHZ" = Ok tt.
Proof. split; reflexivity. Qed.

(** ** C39 *)
Theorem C39_first_day_partial : forall files ys, sds_archive files ys -> (exists n, has_day files ys n) ->
  exists n, get_day files FirstDay (map (dec 4) ys) = Ok n /\ has_day files ys n /\
    forall m, has_day files ys m -> n <= m.
Proof. exact first_day. Qed.
Print Assumptions C39_first_day_partial.
(** the end of the last day is the beginning of the following one *)
Theorem C39_last_day_partial : forall files ys, sds_archive files ys -> (exists n, has_day files ys n) ->
  exists n, get_day files LastDay (map (dec 4) ys) = Ok (n + 1) /\ has_day files ys n /\
    forall m, has_day files ys m -> m <= n.
Proof. exact last_day. Qed.
Print Assumptions C39_last_day_partial.
Definition archive_files (y : string) : list string :=
  if String.eqb y "2014" then ["YP.A.00.BHZ.D.2014.200"; "YP.A.00.BHZ.D.2014.033"]%string
  else if String.eqb y "2016" then ["YP.A.00.BHZ.D.2016.366"]%string else [].
Example C39_example : sds_archive archive_files [2013; 2014; 2015; 2016] /\
  get_day archive_files FirstDay (map (dec 4) [2013; 2014; 2015; 2016]) = Ok (days_before_year 2014 + 32) /\
  get_day archive_files LastDay (map (dec 4) [2013; 2014; 2015; 2016]) = Ok (days_before_year 2017).
Proof.
  split; [|split; vm_compute; reflexivity]. split.
  - repeat constructor.
  - intros y [<-|[<-|[<-|[<-|[]]]]]; (split; [lia|]); intros f F; vm_compute in F; 
      repeat (destruct F as [<-|F]); try destruct F;
      first [exists 200; split; [vm_compute; reflexivity|vm_compute; split; discriminate]
            |exists 33; split; [vm_compute; reflexivity|vm_compute; split; discriminate]
            |exists 366; split; [vm_compute; reflexivity|vm_compute; split; discriminate]].
Qed.
(** An archive without files: IndexError instead of the documented FileNotFoundError. *)
Theorem C39_no_files_refuted : forall files w ys, (forall n, ~ has_day files ys n) -> sds_archive files ys ->
  get_day files w (map (dec 4) ys) = Raise IndexError.
Proof. exact no_day. Qed.
Print Assumptions C39_no_files_refuted.

(** ** C40 *)
(** Structures whose last time indicator is an hour, half day, day, week or month: the adjacent file is that of the
    preceding or following period.  It always exists for hours to weeks; for months exactly if the adjacent month
    has the same day (and the year is in range of datetime), otherwise ValueError.  Missing: years, other
    indicators. *)
Theorem C40_adjacent_partial : forall fs p t inc, time_ok t -> inc = 1 \/ inc = -1 -> last_indicator fs = Some p ->
  is_year_ind p = false -> forall k, period p t = Some k ->
  (forall t', adjacent_time fs t inc = Ok t' -> period p t' = Some (k + inc)) /\
  ((exists t', adjacent_time fs t inc = Ok t') <->
     (is_month_ind p = true -> month_has_day (month_index t + inc) (dom_of t) /\ 1 <= (month_index t + inc - 1) / 12 <= 9999)) /\
  (forall e, adjacent_time fs t inc = Raise e -> e = ValueError).
Proof. exact adjacent_period. Qed.
Print Assumptions C40_adjacent_partial.
(** SDS-like structure, 2015-12-31 12:00: the following file is that of 2016-01-01; monthly files, 2015-12-15 *)
Example C40_example :
  let t := (days_before_year 2016 - 1 - epoch_day) * day + day / 2 in
  last_indicator [["%Y"]; ["%NET"]; ["%STA"]; ["%NET"; "."; "%STA"; "."; "%Y"; "."; "%j"]]%string = Some "%j"%string /\
  match adjacent_time [["%Y"]; ["%NET"; "%j"]]%string t 1 with Ok t' => file_of t' = (2016, 1) | _ => False end /\
  match adjacent_time [["%Y"]; ["%m"; "%NET"]]%string (t - 16 * day) 1 with
  | Ok t' => (year_of t', month_of t', dom_of t') = (2016, 1, 15) | _ => False end.
Proof. vm_compute. split; [reflexivity|]. split; reflexivity. Qed.
(** Yearly files: always the wrong direction. *)
Theorem C40_year_direction_refuted : forall fs p t inc, inc = 1 \/ inc = -1 -> last_indicator fs = Some p -> time_ok t ->
  is_year_ind p = true -> forall t', adjacent_time fs t inc = Ok t' -> year_of t' = year_of t - inc.
Proof. exact adjacent_year. Qed.
Print Assumptions C40_year_direction_refuted.
(** Monthly files on the 31st of January: ValueError. *)
Theorem C40_month_end_refuted : exists t, time_ok t /\ adjacent_time [["%Y"]; ["%m"]]%string t 1 = Raise ValueError.
Proof. exists (30 * day). split; [vm_compute; split; [discriminate|reflexivity]|vm_compute; reflexivity]. Qed.
Print Assumptions C40_month_end_refuted.
(** No time indicator, or one without a rule (minutes, %G, ...): UnboundLocalError. *)
Theorem C40_other_indicator_refuted : forall fs t inc, inc = 1 \/ inc = -1 ->
  (forall p, last_indicator fs = Some p -> forall u, period p u = None) -> adjacent_time fs t inc = Raise UnboundLocalError.
Proof. exact adjacent_unknown. Qed.
Print Assumptions C40_other_indicator_refuted.
Example C40_other_example : adjacent_time [["%Y"]; ["%j"; "%H"; "%M"]]%string 0 1 = Raise UnboundLocalError.
Proof. reflexivity. Qed.

(** ** C41 *)
(** A sample is masked exactly if it lies in an interval, widened by less than one sampling interval on each side,
    that begins or ends strictly inside the trace.  Missing: intervals of which neither end is inside. *)
Theorem C41_masked_iff_partial : forall start delta n ints k, 0 < delta -> (k < n)%nat ->
  (forall s e, In (s, e) ints -> s <= e) ->
  forall b, nth_error (mask_at start delta n ints false) k = Some b ->
  (b = true <-> exists s e, In (s, e) ints /\
     (start < s < sample_time start delta (n - 1) \/ start < e < sample_time start delta (n - 1)) /\
     s - delta < sample_time start delta k < e + delta).
Proof. intros start delta n ints k D K. exact (mask_at_spec start delta n D ints k K). Qed.
Print Assumptions C41_masked_iff_partial.
Theorem C41_length_reverse : forall start delta n ints,
  length (mask_at start delta n ints false) = n /\
  mask_at start delta n ints true = map negb (mask_at start delta n ints false).
Proof. intros. split; [apply mask_at_length|apply mask_at_reverse]. Qed.
Print Assumptions C41_length_reverse.
Example C41_example : mask_at 0 10 8 [(25, 31); (65, 100)] false = [false; false; true; true; true; false; true; true].
Proof. vm_compute. reflexivity. Qed.
(** An interval that covers the whole trace masks nothing (and with reverse everything). *)
Theorem C41_covering_refuted : forall start delta n s e k, 0 < delta -> s <= start -> sample_time start delta (n - 1) <= e ->
  (k < n)%nat -> nth_error (mask_at start delta n [(s, e)] false) k = Some false.
Proof. intros start delta n s e k D. exact (mask_covering start delta n s e k). Qed.
Print Assumptions C41_covering_refuted.
(** Arguments: exactly one of ends and masklen, as many ends as starts. *)
Theorem C41_arguments : forall trs starts ends masklen rv,
  (exists m, stream_mask trs starts ends masklen rv = Ok m) <->
  (ends = None /\ masklen <> None) \/ (masklen = None /\ exists es, ends = Some es /\ length es = length starts).
Proof.
  intros trs starts [es|] [ml|] rv; cbn; split.
  - intros [m H]. discriminate.
  - intros [[H _]|[H _]]; discriminate.
  - destruct (Nat.eqb_spec (length es) (length starts)); cbn; intros [m H]; [|discriminate]. right. eauto.
  - intros [[H _]|[_ (es' & E & L)]]; [discriminate|]. injection E as <-. rewrite L, Nat.eqb_refl. cbn. eauto.
  - intros _. left. split; [reflexivity|discriminate].
  - eauto.
  - intros [m H]. discriminate.
  - intros [[_ H]|[_ (es & E & _)]]; [now destruct H|discriminate].
Qed.
Print Assumptions C41_arguments.
(** Each trace is masked with the intervals from each start to its end, which is [masklen] after the start or the
    end in the same place of the list. *)
Theorem C41_intervals : forall trs starts ends masklen rv m, stream_mask trs starts ends masklen rv = Ok m ->
  exists ints, m = map (fun x => mask_at (fst (fst x)) (snd (fst x)) (snd x) ints rv) trs /\ map fst ints = starts /\
    match masklen with
    | Some l => forall s e, In (s, e) ints -> e = s + l
    | None => ends = Some (map snd ints)
    end.
Proof. exact stream_mask_intervals. Qed.
Print Assumptions C41_intervals.
Example C41_arguments_example : stream_mask [((0, 10), 4%nat)] [12] None (Some 5) false = Ok [[false; true; true; false]].
Proof. vm_compute. reflexivity. Qed.

(** ** C42 *)
(** Whenever interpolate_gaps returns: same length, existing samples untouched, interior gaps of at most max samples
    filled with the line between their neighbours, longer gaps and gaps at the ends still missing. *)
Theorem C42_interpolate_partial : forall max l l', interpolate_gaps max l = Ok l' ->
  length l' = length l /\
  (forall i v, nth_error l i = Some (Some v) -> nth_error l' i = Some (Some v)) /\
  (forall s n, is_gap l s n -> forall x, (s <= x < s + n)%nat ->
     (short max n -> forall a b, (0 < s)%nat -> nth_error l (s - 1) = Some (Some a) -> nth_error l (s + n) = Some (Some b) ->
        exists v, nth_error l' x = Some (Some v) /\ on_line (s - 1) a (s + n) b x v) /\
     (s = 0%nat \/ (s + n)%nat = length l \/ ~ short max n -> nth_error l' x = Some None)).
Proof. exact interpolate_gaps_spec. Qed.
Print Assumptions C42_interpolate_partial.
(** It returns unless every sample is missing and the array is not longer than max. *)
Theorem C42_returns : forall max l e, interpolate_gaps max l = Raise e <->
  e = ValueError /\ l <> [] /\ (forall o, In o l -> o = None) /\ short max (length l).
Proof. exact interpolate_gaps_fails. Qed.
Print Assumptions C42_returns.
Example C42_example : let l := [None; Some 1; None; None; Some 4; None; None; None; Some 0; None]%Q in
  match interpolate_gaps 2 l with
  | Ok l' => map (option_map Qred) l' = [None; Some 1; Some 2; Some 3; Some 4; None; None; None; Some 0; None]%Q
  | Raise _ => False
  end /\ is_gap l 2 2.
Proof.
  split; [vm_compute; reflexivity|]. split; [lia|]. split; [cbn; lia|]. split; [|split; right; eexists; reflexivity].
  intros i Hi. assert (i = 2 \/ i = 3)%nat as [->| ->] by lia; reflexivity.
Qed.
(** A short array without any sample raises ValueError instead of staying masked. *)
Theorem C42_nothing_known_refuted : exists max l, interpolate_gaps max l = Raise ValueError /\ is_gap l 0 (length l).
Proof.
  exists 10, [None; None]. split; [reflexivity|]. split; [cbn; lia|]. split; [cbn; lia|]. split; [|split; now left].
  intros [|[|i]] H; cbn in *; [reflexivity|reflexivity|lia].
Qed.
Print Assumptions C42_nothing_known_refuted.
