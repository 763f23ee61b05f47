(** C26 - C31, C54: monitoring windows, time bins, lag axis, lag windows, best match. *)
From Coq Require Import QArith Lqa Reals.
From Verif Require Import Lib.Base Model.CorrStream Model.LagMatrix Model.Similarity Spec.LagSpec
  Proofs.LagFacts Proofs.SimilarityFacts.
Local Open Scope nat_scope.

Definition s (z : Z) : sample := Some (inject_Z z).

(** ** C26 *)
(** Starts: start date plus multiples of the increment, exactly those before the end date; every window is
    win_len long; invalid arguments are rejected and only those. *)
Theorem C26_windows : forall start stop inc win,
  match make_time_list start stop inc win with
  | Ok (st, en) =>
      (0 < inc /\ 0 < win /\ start < stop)%Z /\
      (forall k t, nth_error st k = Some t <-> t = (start + Z.of_nat k * inc)%Z /\ (t < stop)%Z) /\
      en = map (fun t => (t + win)%Z) st
  | Raise x => x = ValueError /\ (inc <= 0 \/ win <= 0 \/ stop <= start)%Z
  end.
Proof. exact time_list_spec. Qed.
Print Assumptions C26_windows.

(** With win_len = date_inc every instant of the period lies in exactly one window. *)
Theorem C26_tiling : forall start stop inc st en t,
  make_time_list start stop inc inc = Ok (st, en) -> (start <= t < stop)%Z ->
  exists! k, exists a b, nth_error st k = Some a /\ nth_error en k = Some b /\ (a <= t < b)%Z.
Proof. exact time_list_tiles. Qed.
Print Assumptions C26_tiling.

Example C26_windows_example : make_time_list 0 10 4 4 = Ok ([0; 4; 8], [4; 8; 12])%Z.
Proof. reflexivity. Qed.
Example C26_rejected_example : make_time_list 10 10 4 4 = Raise ValueError.
Proof. reflexivity. Qed.

(** ** C27 *)
(** Each row of the result is the NaN row, the copy or the average of the correlations that start in its bin. *)
Theorem C27_rows : forall width data h starts ends data' h',
  (forall row, In row data -> length row = width) ->
  resample width data h starts ends = Ok (data', h') ->
  h_start h' = starts /\ length data' = length starts /\ length (h_end h') = length starts /\
  h_lag h' = h_lag h /\ h_sr h' = h_sr h /\
  forall i a e row, nth_error starts i = Some a -> nth_error (h_end h') i = Some e -> nth_error data' i = Some row ->
    bin_content width (starting_in a e (h_start h) data) row.
Proof.
  intros width data h starts ends data' h' L E. pose proof (resample_rows width data h starts ends L) as R.
  rewrite E in R. exact R.
Qed.
Print Assumptions C27_rows.

(** The bins: the given ends, or the spacing of the first two starts, or the end of the last correlation. *)
Theorem C27_bins : forall h starts ends,
  match bins h starts ends with
  | Ok bs =>
      map fst bs = starts /\ starts <> [] /\
      (ends <> [] -> map snd bs = ends) /\
      (ends = [] -> forall s0 s1 r, starts = s0 :: s1 :: r -> map snd bs = map (fun x => (x + (s1 - s0))%Z) starts) /\
      (ends = [] -> forall s0, starts = [s0] -> exists l e, h_end h = l ++ [e] /\ map snd bs = [e])
  | Raise x =>
      (x = ValueError /\ ends <> [] /\ length ends <> length starts) \/
      (x = IndexError /\ (starts = [] \/ (ends = [] /\ length starts = 1 /\ h_end h = [])))
  end.
Proof. exact bins_spec. Qed.
Print Assumptions C27_bins.

(** four correlations in bins of width 2: one average of two (ignoring NaN), one copy, one empty bin, one copy *)
Example C27_rows_example :
  resample 2 [[s 1; s 2]; [s 3; None]; [s 5; s 6]; [s 7; s 8]] (mkH 0 1 2 [0; 1; 2; 6]%Z [1; 2; 3; 7]%Z) [0; 2; 4; 6]%Z []
  = Ok ([[nanmean [s 1; s 3]; nanmean [s 2; None]]; [s 5; s 6]; [None; None]; [s 7; s 8]],
        mkH 0 1 2 [0; 2; 4; 6]%Z [2; 4; 6; 8]%Z).
Proof. reflexivity. Qed.

(** ** C28 *)
(** A request that reaches beyond the matrix changes nothing. *)
Theorem C28_beyond : forall data h st et, (0 < h_sr h)%Q ->
  (st < h_lag h \/ h_lag h + inject_Z (Z.of_nat (h_npts h)) / h_sr h <= et)%Q -> trim data h st et = (data, h).
Proof. exact trim_refused. Qed.
Print Assumptions C28_beyond.

(** The full claim holds if the start coincides with a sample.
    Missing: starts between two samples and ends before the first lag, for which it is false. *)
Theorem C28_trim_partial : forall data h st et row,
  describes h row -> In row data ->
  (h_lag h <= st)%Q -> (h_lag h <= et)%Q -> (et < h_lag h + inject_Z (Z.of_nat (h_npts h)) / h_sr h)%Q ->
  on_grid h st ->
  forall i, nth_error data i = Some row ->
  exists row', nth_error (fst (trim data h st et)) i = Some row' /\ trimmed h row st et (snd (trim data h st et)) row'.
Proof. exact trim_exact. Qed.
Print Assumptions C28_trim_partial.

(** For every start: the lag a sample is assigned is that of the sample or later, by less than one sample. *)
Theorem C28_displacement_partial : forall data h st et i row, describes h row ->
  (h_lag h <= st)%Q -> (h_lag h <= et)%Q -> (et < h_lag h + inject_Z (Z.of_nat (h_npts h)) / h_sr h)%Q ->
  nth_error data i = Some row ->
  exists row', nth_error (fst (trim data h st et)) i = Some row' /\
    forall k v, nth_error row' k = Some v ->
      exists j, nth_error row j = Some v /\
        (0 <= lag_at (snd (trim data h st et)) k - lag_at h j)%Q /\
        (lag_at (snd (trim data h st et)) k - lag_at h j < 1 / h_sr h)%Q.
Proof. exact trim_displacement. Qed.
Print Assumptions C28_displacement_partial.

Example C28_trim_example :
  trim [[s 0; s 1; s 2; s 3; s 4]] (mkH (-2) 1 5 [0%Z] [1%Z]) (-1) 1 = ([[s 1; s 2; s 3]], mkH (-1) 1 3 [0%Z] [1%Z]).
Proof. reflexivity. Qed.

(** A start between two samples: the sample of lag 0 is in the result at lag 1/2. *)
Theorem C28_between_samples_refuted : exists data h st et row row' v,
  describes h row /\ data = [row] /\ fst (trim data h st et) = [row'] /\
  at_lag (snd (trim data h st et)) row' (1 # 2) v /\ at_lag h row 0 v /\
  ~ (exists w, at_lag h row (1 # 2) w) /\ ~ trimmed h row st et (snd (trim data h st et)) row'.
Proof.
  exists [[s 0; s 1; s 2]], (mkH 0 1 3 [0%Z] [1%Z]), (1 # 2)%Q, 2%Q, [s 0; s 1; s 2], [s 0; s 1; s 2], (s 0).
  assert (N : ~ exists w, at_lag (mkH 0 1 3 [0%Z] [1%Z]) [s 0; s 1; s 2] (1 # 2) w).
  { intros (w & i & I & E). destruct i as [|[|[|i]]]; [now compute in E..|destruct i; discriminate]. }
  assert (A : at_lag (snd (trim [[s 0; s 1; s 2]] (mkH 0 1 3 [0%Z] [1%Z]) (1 # 2) 2)) [s 0; s 1; s 2] (1 # 2) (s 0)).
  { exists 0. split; reflexivity. }
  repeat split; try exact A; try exact N; try reflexivity.
  - exists 0. split; reflexivity.
  - intros [_ T]. apply N. apply T in A as [A _]. eauto.
Qed.
Print Assumptions C28_between_samples_refuted.

(** An end before the first lag: samples outside the requested interval are returned. *)
Theorem C28_end_before_first_lag_refuted : exists data h st et,
  (et < h_lag h)%Q /\ (h_lag h <= st)%Q /\ fst (trim data h st et) = [[s 1; s 2; s 3]].
Proof.
  exists [[s 0; s 1; s 2; s 3; s 4]], (mkH 0 1 5 [0%Z] [1%Z]), 1%Q, (-2)%Q. repeat split; try reflexivity. discriminate.
Qed.
Print Assumptions C28_end_before_first_lag_refuted.

(** ** C29 *)
(** The full claim for every matrix with both sides and a sample at lag zero.
    Missing: one-sided matrices and axes without lag zero (below). *)
Theorem C29_mirror_partial : forall data h,
  (0 < h_sr h)%Q -> (forall row, In row data -> length row = h_npts h) ->
  (h_lag h < 0)%Q -> (0 < end_lag h)%Q -> on_grid h 0 ->
  exists data' h', mirror data h = Ok (data', h') /\ length data' = length data /\
    forall i row row', nth_error data i = Some row -> nth_error data' i = Some row' -> mirrored h row h' row'.
Proof. exact mirror_exact. Qed.
Print Assumptions C29_mirror_partial.

(** one-sided data are left as they are *)
Theorem C29_one_sided : forall data h,
  (0 < h_sr h)%Q -> (0 <= h_lag h \/ end_lag h <= 0)%Q -> mirror data h = Ok (data, h).
Proof. exact mirror_one_sided. Qed.
Print Assumptions C29_one_sided.

(** an axis that misses lag zero is refused *)
Theorem C29_no_zero_lag : forall data h,
  (0 < h_sr h)%Q -> (h_lag h < 0)%Q -> (0 < end_lag h)%Q -> ~ on_grid h 0 -> mirror data h = Raise TypeError.
Proof. exact mirror_off_grid. Qed.
Print Assumptions C29_no_zero_lag.

(** "the lag axis starts at 0" is false of acausal data *)
Theorem C29_acausal_refuted : exists data h data' h',
  mirror data h = Ok (data', h') /\ (h_lag h' < 0)%Q.
Proof. exists [[s 1; s 2]], (mkH (-2) 1 2 [0%Z] [1%Z]), [[s 1; s 2]], (mkH (-2) 1 2 [0%Z] [1%Z]). split; reflexivity. Qed.
Print Assumptions C29_acausal_refuted.

Example C29_mirror_example : exists h',
  mirror [[s 2; s 4; s 6; s 8]] (mkH (-1) 1 4 [0%Z] [1%Z]) =
    Ok ([[Some ((4 + 4) / 2)%Q; Some ((6 + 2) / 2)%Q; Some 8%Q]], h') /\ h_lag h' = 0%Q /\ h_npts h' = 3.
Proof. eexists. split; [reflexivity|]. split; reflexivity. Qed.

(** ** C30 *)
(** The window of one start and one width: the samples start, start + 1, ... , width of them; a width that is not
    positive is refused. *)
Theorem C30_created : forall start width,
  ((width <= 0)%Z -> time_window start width = Raise ValueError) /\
  ((0 < width)%Z -> exists l, time_window start width = Ok l /\ Z.of_nat (length l) = width /\
     forall i t, nth_error l i = Some t <-> t = (start + Z.of_nat i)%Z /\ (Z.of_nat i < width)%Z).
Proof. exact time_window_spec. Qed.
Print Assumptions C30_created.
Example C30_created_example : time_window 4 3 = Ok [4; 5; 6]%Z.
Proof. vm_compute. reflexivity. Qed.

(** For windows that lie on the traces the samples used are exactly the requested ones, for all four sides.
    Missing: windows that do not (false, see below). *)
Theorem C30_window_partial : forall sd n ctw, 0 < n -> window_fits sd n ctw -> ctw <> [] ->
  exists m, window_mask sd n ctw = Ok m /\ length m = n /\
    forall i, i < n -> (nth i m false = true <-> wanted sd n ctw i).
Proof. exact window_exact. Qed.
Print Assumptions C30_window_partial.

(** On the right side a window that leaves the trace is refused. *)
Theorem C30_beyond_right : forall n ctw t,
  In t ctw -> (Z.of_nat n - center (Z.of_nat n) <= t)%Z -> 0 < n ->
  window_mask RightSide n ctw = Raise IndexError /\ window_mask Both n ctw = Raise IndexError.
Proof. exact window_right_beyond. Qed.
Print Assumptions C30_beyond_right.

(** On the left side it is not: samples of the right side are used instead. *)
Theorem C30_beyond_left_refuted : exists n ctw m i,
  window_mask LeftSide n ctw = Ok m /\ nth i m false = true /\ ~ wanted LeftSide n ctw i /\
  (center (Z.of_nat n) < Z.of_nat i)%Z.
Proof.
  exists 5, [3%Z], [false; false; false; false; true], 4. repeat split.
  unfold wanted. cbn. intros [H|H]; [discriminate|exact H].
Qed.
Print Assumptions C30_beyond_left_refuted.

Example C30_window_example :
  window_mask Both 7 [1; 2]%Z = Ok [false; true; true; false; true; true; false] /\
  window_mask LeftSide 7 [1; 2]%Z = Ok [false; true; true; false; false; false; false] /\
  window_mask RightSide 7 [1; 2]%Z = Ok [false; false; false; false; true; true; false] /\
  window_mask Single 7 [1; 2]%Z = Ok [false; true; true; false; false; false; false] /\
  window_fits Both 7 [1; 2]%Z.
Proof.
  repeat split; try reflexivity; destruct H as [<-|[<-|[]]]; cbv; congruence.
Qed.

(** ** C31 *)
Local Open Scope R_scope.
(** Every similarity lies between -1 and 1, for every window, trace (with NaN) and reference. *)
Theorem C31_bounded : forall m row refs x,
  (forall ref, In ref refs -> length ref = length row) ->
  In (Some x) (sim_row m row refs) -> -1 <= x <= 1.
Proof. exact sims_bounded. Qed.
Print Assumptions C31_bounded.

(** The reported stretch belongs to a maximal similarity, which is the reported one.
    Missing: references without energy in the window (below). *)
Theorem C31_best_match_partial : forall strvec sims,
  sims <> [] -> length strvec = length sims -> (forall x, In x sims -> x <> None) ->
  exists i c v, best_match strvec sims = Ok (Some c, Some v) /\ nth_error sims i = Some (Some c) /\
    nth_error strvec i = Some v /\ (forall x, In (Some x) sims -> x <= c).
Proof. exact best_match_spec. Qed.
Print Assumptions C31_best_match_partial.

(** similarities are defined iff both windows contain energy *)
Theorem C31_defined : forall a b, dot a a <> 0 -> dot b b <> 0 -> exists x, similarity a b = Some x.
Proof. exact similarity_defined. Qed.
Print Assumptions C31_defined.
Theorem C31_silent : forall a b, dot a a = 0 \/ dot b b = 0 -> similarity a b = None.
Proof. exact similarity_silent. Qed.
Print Assumptions C31_silent.

(** identical traces have similarity 1; the amplitude does not matter *)
Theorem C31_identical : forall a, dot a a <> 0 -> similarity a a = Some 1.
Proof. exact similarity_self. Qed.
Print Assumptions C31_identical.
Theorem C31_amplitude : forall k a b, 0 < k -> similarity (map (Rmult k) a) b = similarity a b.
Proof. exact similarity_scale. Qed.
Print Assumptions C31_amplitude.

(** One reference without energy in the window: no velocity change is reported although another reference
    is identical to the trace. *)
Theorem C31_silent_reference_refuted : exists row refs strvec,
  In (Some 1) (sim_row [true] row refs) /\ best_match strvec (sim_row [true] row refs) = Ok (None, None).
Proof.
  exists [Some 1], [[1]; [0]], [0; 1].
  assert (A : sim_row [true] [Some 1] [[1]; [0]] = [Some 1; None]).
  { unfold sim_row. cbn [map nan_to_num masked combine fst snd]. f_equal; [|f_equal].
    - apply similarity_self. unfold dot. cbn. rewrite Rplus_0_r, Rmult_1_r. apply R1_neq_R0.
    - apply similarity_silent. right. unfold dot. cbn. rewrite Rmult_0_l. apply Rplus_0_r. }
  rewrite A. split; [now left|]. apply best_match_nan; [reflexivity|right; now left].
Qed.
Print Assumptions C31_silent_reference_refuted.

Example C31_best_match_example : exists c v, best_match [10; 20] [Some 0; Some 1] = Ok (Some c, Some v) /\ v = 20 /\ c = 1.
Proof.
  unfold best_match, argmax. cbn [argmax_from larger]. destruct (Rlt_dec 0 1) as [L|N].
  - cbn. eauto.
  - exfalso. apply N. exact Rlt_0_1.
Qed.
Local Close Scope R_scope.

(** ** C54 *)
(** Measuring a stretch leaves a matrix with a symmetric lag axis as it was. *)
Theorem C54_symmetric_partial : forall data h,
  (0 < h_sr h)%Q -> (forall row, In row data -> length row = h_npts h) -> 0 < h_npts h ->
  (h_lag h + end_lag h == 0)%Q ->
  fst (stretch_trim false data h) = data /\
  let h' := snd (snd (stretch_trim false data h)) in
  fst (snd (stretch_trim false data h)) = data /\ h_npts h' = h_npts h /\ (h_lag h' == h_lag h)%Q.
Proof. exact stretch_symmetric. Qed.
Print Assumptions C54_symmetric_partial.

(** Otherwise the header of the matrix is changed and the data are not: the header no longer describes them. *)
Theorem C54_asymmetric_refuted : exists row h,
  describes h row /\
  let after := snd (stretch_trim false [row] h) in
  fst after = [row] /\ ~ describes (snd after) row /\ ~ (lag_at (snd after) 0 == lag_at h 0)%Q.
Proof.
  exists [s 0; s 1; s 2; s 3; s 4], (mkH (-3) 1 5 [0%Z] [1%Z]). repeat split; try reflexivity.
  - intros [_ L]. discriminate.
  - intros E. discriminate.
Qed.
Print Assumptions C54_asymmetric_refuted.

Example C54_symmetric_example :
  let h := mkH (-2) 1 5 [0%Z] [1%Z] in
  stretch_trim false [[s 0; s 1; s 2; s 3; s 4]] h = ([[s 0; s 1; s 2; s 3; s 4]], ([[s 0; s 1; s 2; s 3; s 4]], h)).
Proof. reflexivity. Qed.
