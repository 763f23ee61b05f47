(** C66, C67: normalised correlation traces and reference traces. *)
From Coq Require Import Reals QArith Qround Qreals Lra Lia.
From Verif Require Import Lib.Base Model.LagMatrix Model.Reference Spec.ReferenceSpec Proofs.ReferenceFacts Proofs.ExtractFacts.
Local Open Scope R_scope.

(** ** C66 *)
(** After normalising with 'energy' the mean square in the window is one; the trace is only divided by a positive number. *)
Theorem C66_energy : forall data h st et out i x, (0 < h_sr h)%Q -> on_axis h st et ->
  normalize data h st et Energy = Ok out -> nth_error data i = Some (map Some x) -> length x = h_npts h -> (exists v, In v (window_of h st et x) /\ v <> 0) ->
  exists c, 0 < c /\ nth_error out i = Some (map Some (scaled c x)) /\ average (map (fun v => v * v) (window_of h st et (scaled c x))) = 1.
Proof.
  intros data h st et out i x P A E N L S. destruct (normalize_at _ _ _ _ _ _ _ _ P A E N) as [r [R F]].
  destruct (energy_row h st et x P L A S) as [c [C [G M]]]. exists c. rewrite F in G. injection G as ->. auto.
Qed.
Theorem C66_abssum : forall data h st et out i x, (0 < h_sr h)%Q -> on_axis h st et ->
  normalize data h st et Abssum = Ok out -> nth_error data i = Some (map Some x) -> length x = h_npts h -> (exists v, In v (window_of h st et x) /\ v <> 0) ->
  exists c, 0 < c /\ nth_error out i = Some (map Some (scaled c x)) /\ average (map Rabs (window_of h st et (scaled c x))) = 1.
Proof.
  intros data h st et out i x P A E N L S. destruct (normalize_at _ _ _ _ _ _ _ _ P A E N) as [r [R F]].
  destruct (abssum_row h st et x P L A S) as [c [C [G M]]]. exists c. rewrite F in G. injection G as ->. auto.
Qed.
Theorem C66_absmax : forall data h st et out i x, (0 < h_sr h)%Q -> on_axis h st et ->
  normalize data h st et Absmax = Ok out -> nth_error data i = Some (map Some x) -> length x = h_npts h -> (exists v, In v (window_of h st et x) /\ v <> 0) ->
  exists c, 0 < c /\ nth_error out i = Some (map Some (scaled c x)) /\ is_max (map Rabs (window_of h st et (scaled c x))) 1.
Proof.
  intros data h st et out i x P A E N L S. destruct (normalize_at _ _ _ _ _ _ _ _ P A E N) as [r [R F]].
  destruct (absmax_row h st et x P L A S) as [c [C [G M]]]. exists c. rewrite F in G. injection G as ->. auto.
Qed.
(** 'max' does so if the largest value is positive *)
Theorem C66_max_partial : forall data h st et out i x m, (0 < h_sr h)%Q -> on_axis h st et ->
  normalize data h st et Max = Ok out -> nth_error data i = Some (map Some x) -> length x = h_npts h -> is_max (window_of h st et x) m -> 0 < m ->
  nth_error out i = Some (map Some (scaled m x)) /\ is_max (window_of h st et (scaled m x)) 1.
Proof.
  intros data h st et out i x m P A E N L M Q. destruct (normalize_at _ _ _ _ _ _ _ _ P A E N) as [r [R F]].
  destruct (max_row h st et x P L A m M Q) as [G M']. rewrite F in G. injection G as ->. auto.
Qed.
(** There is always an answer, with as many traces, if there are samples in the window. *)
Theorem C66_answers : forall data h st et ty, (0 < h_sr h)%Q -> on_axis h st et -> ty <> OtherNorm ->
  (forall row, In row data -> length row = h_npts h /\ window_of h st et row <> []) -> exists out, normalize data h st et ty = Ok out /\ length out = length data.
Proof. exact normalize_answers. Qed.
Theorem C66_unknown : forall data h st et, (0 < h_sr h)%Q -> on_axis h st et -> data <> [] -> normalize data h st et OtherNorm = Raise ValueError.
Proof. exact normalize_other. Qed.
(** A trace without signal in the window stays as it is. *)
Theorem C66_silent : forall data h st et out i x ty, (0 < h_sr h)%Q -> on_axis h st et -> ty <> OtherNorm ->
  normalize data h st et ty = Ok out -> nth_error data i = Some (map Some x) -> length x = h_npts h ->
  window_of h st et x <> [] -> (forall v, In v (window_of h st et x) -> v = 0) -> nth_error out i = Some (map Some x).
Proof.
  intros data h st et out i x ty P A T E N L W Z. destruct (normalize_at _ _ _ _ _ _ _ _ P A E N) as [r [R F]].
  assert (G := silent_row h st et x P L A ty T W Z). rewrite F in G. injection G as ->. exact R.
Qed.
(** The gain of a trace does not matter. *)
Theorem C66_gain : forall h st et x ty c n, (0 < h_sr h)%Q -> on_axis h st et -> length x = h_npts h -> 0 < c ->
  norm_of ty (map Some (window_of h st et x)) = Ok (Some n) -> n <> 0 ->
  normalize [map Some (map (fun v => c * v) x)] h st et ty = normalize [map Some x] h st et ty.
Proof.
  intros h st et x ty c n P A L C E N. unfold normalize. rewrite range_on_axis by assumption. cbn [mapM]. now rewrite (scale_row h st et c x ty n P L A C E N).
Qed.
(** A window that does not lie on the lag axis leaves everything as it is ... *)
Theorem C66_outside : forall data h st et ty, (0 < h_sr h)%Q -> (0 < h_npts h)%nat ->
  (exists t, st = Some t /\ (t < h_lag h)%Q) \/ (exists t, et = Some t /\ (lag_at h (h_npts h) <= t)%Q) -> normalize data h st et ty = Ok data.
Proof. exact normalize_outside. Qed.
(** ... but a window that ends before the first sample does not: the negative end counts from the last sample, so the trace is
    normalised with samples after the end of the window. *)
Theorem C66_ends_before_start_refuted : forall h k x ty, (0 < h_sr h)%Q -> length x = h_npts h -> (0 < k < h_npts h)%nat ->
  let et := (h_lag h - inject_Z (Z.of_nat k) / h_sr h)%Q in
  window_of h None (Some et) x = [] /\
  normalize [map Some x] h None (Some et) ty = (do n <- norm_of ty (map Some (firstn (h_npts h - k) x)); Ok [map (fun s => sdiv s (no_zero n)) (map Some x)]).
Proof.
  intros h k x ty P L K et. split; [|exact (proj2 (proj2 (normalize_before h k x ty P L K)))].
  rewrite window_filter by exact P. unfold lag_index, et. cbn [option_map].
  assert (E : (Qfloor ((h_lag h - inject_Z (Z.of_nat k) / h_sr h - h_lag h) * h_sr h) = - Z.of_nat k)%Z).
  { setoid_replace ((h_lag h - inject_Z (Z.of_nat k) / h_sr h - h_lag h) * h_sr h)%Q with (inject_Z (- Z.of_nat k)); [apply Qfloor_Z|].
    rewrite inject_Z_opp. field. intros C. rewrite C in P. now apply Qlt_irrefl in P. }
  rewrite E. replace (Z.to_nat (- Z.of_nat k)) with 0%nat by lia. generalize 0%nat at 1 3. clear. intros s.
  assert (H : forall l : list (nat * R), filter (fun p : nat * R => (s <=? fst p)%nat && (fst p <? 0)%nat) l = []).
  { induction l as [|q l IH]; [reflexivity|]. cbn [filter]. replace (fst q <? 0)%nat with false by (symmetry; apply Nat.ltb_ge; lia). rewrite andb_false_r. exact IH. }
  now rewrite H.
Qed.
(** With 'max' a trace that is negative in the window is turned upside down. *)
Theorem C66_negative_refuted : forall data h st et out i x m, (0 < h_sr h)%Q -> on_axis h st et ->
  normalize data h st et Max = Ok out -> nth_error data i = Some (map Some x) -> length x = h_npts h -> is_max (window_of h st et x) m -> m < 0 ->
  nth_error out i = Some (map Some (map (fun v => - (v / Rabs m)) x)).
Proof.
  intros data h st et out i x m P A E N L M Q. destruct (normalize_at _ _ _ _ _ _ _ _ P A E N) as [r [R F]].
  assert (G := max_row_negative h st et x P L A m M Q). rewrite F in G. injection G as ->. rewrite R. unfold scaled. do 2 f_equal. apply map_ext. intros v.
  rewrite Rabs_left by exact Q. field. lra.
Qed.
(** One missing sample in the window and the whole trace is lost. *)
Theorem C66_missing_refuted : forall data h st et out i row ty, (0 < h_sr h)%Q -> on_axis h st et -> ty <> OtherNorm ->
  normalize data h st et ty = Ok out -> nth_error data i = Some row -> length row = h_npts h -> In None (window_of h st et row) ->
  nth_error out i = Some (map (fun _ => None) row).
Proof.
  intros data h st et out i row ty P A T E N L I. destruct (normalize_at _ _ _ _ _ _ _ _ P A E N) as [r [R F]].
  rewrite (missing_row h st et row ty P L A T I) in F. injection F as <-. exact R.
Qed.
(** The sample at the end of the window is not used, so a window of one sample is empty and the trace is lost. *)
Theorem C66_one_sample_refuted : forall h k x ty, (0 < h_sr h)%Q -> length x = h_npts h -> (k < h_npts h)%nat -> ty = Energy \/ ty = Abssum ->
  normalize [map Some x] h (Some (lag_at h k)) (Some (lag_at h k)) ty = Ok [map (fun _ => None) x].
Proof.
  intros h k x ty P L K T.
  assert (E : Qfloor ((lag_at h k - h_lag h) * h_sr h) = Z.of_nat k).
  { unfold lag_at. setoid_replace ((h_lag h + inject_Z (Z.of_nat k) / h_sr h - h_lag h) * h_sr h)%Q with (inject_Z (Z.of_nat k)); [apply Qfloor_Z|].
    field. intros C. rewrite C in P. now apply Qlt_irrefl in P. }
  assert (A : on_axis h (Some (lag_at h k)) (Some (lag_at h k))).
  { assert (A1 : (h_lag h <= lag_at h k)%Q) by (apply index_nonneg; [exact P|]; rewrite E; lia). split; [exact A1|]. split; [exact A1|]. apply index_below; [exact P|]. rewrite E. lia. }
  unfold normalize. rewrite range_on_axis by assumption. cbn [mapM]. rewrite (empty_row h _ _ x P L A ty T); [reflexivity|].
  rewrite window_filter by exact P. unfold lag_index. cbn [option_map]. rewrite E. rewrite Nat2Z.id.
  assert (H : forall l : list (nat * R), filter (fun p : nat * R => (k <=? fst p)%nat && (fst p <? k)%nat) l = []).
  { induction l as [|q l IH]; [reflexivity|]. cbn [filter]. destruct (k <=? fst q)%nat eqn:E1; cbn [andb]; [|exact IH]. apply Nat.leb_le in E1. replace (fst q <? k)%nat with false by (symmetry; apply Nat.ltb_ge; lia). exact IH. }
  now rewrite H.
Qed.
Print Assumptions C66_energy. Print Assumptions C66_abssum. Print Assumptions C66_absmax. Print Assumptions C66_max_partial. Print Assumptions C66_answers.
Print Assumptions C66_unknown. Print Assumptions C66_silent. Print Assumptions C66_gain. Print Assumptions C66_outside. Print Assumptions C66_ends_before_start_refuted.
Print Assumptions C66_negative_refuted. Print Assumptions C66_missing_refuted. Print Assumptions C66_one_sample_refuted.

(** five samples from lag -2 to 2, window from -1 to 2: three samples *)
Definition ex_h : hdr := mkH (-2) 1 5 [] [].
Example window_example : window_of ex_h (Some (-1)%Q) (Some 2%Q) [10; 3; -4; 0; 7] = [3; -4; 0] /\ on_axis ex_h (Some (-1)%Q) (Some 2%Q).
Proof. split; [reflexivity|]. unfold on_axis. cbn. repeat split; discriminate. Qed.
Example energy_example : exists out, normalize [map Some [10; 3; -4; 0; 7]; map Some [1; 1; 1; 1; 1]] ex_h (Some (-1)%Q) (Some 2%Q) Energy = Ok out /\ length out = 2%nat.
Proof. apply C66_answers; [reflexivity|apply window_example|discriminate|]. intros row [<-|[<-|[]]]; split; try reflexivity; discriminate. Qed.
(** a negative trace becomes positive *)
Example negative_example : is_max (window_of ex_h (Some (-1)%Q) (Some 2%Q) [-1; -2; -4; -8; -2]) (-2).
Proof. change (window_of _ _ _ _) with [-2; -4; -8]. split; [now left|]. intros w [<-|[<-|[<-|[]]]]; lra. Qed.
(** the window ends at -3, before the first lag, and the trace is divided by its maximum *)
Example before_example : normalize [map Some [1; 2; 3; 4; 5]] ex_h None (Some (-3)%Q) Max = (do n <- norm_of Max (map Some [1; 2; 3; 4]); Ok [map (fun s => sdiv s (no_zero n)) (map Some [1; 2; 3; 4; 5])]).
Proof. reflexivity. Qed.

(** ** C67 *)
(** 'mean': every sample is the average over the traces that have it. *)
Theorem C67_mean : forall data h out c, extract_trace data h Mean = Ok out -> (c < width data)%nat ->
  length out = width data /\ nth c out None = match values (map (fun row => nth c row None) data) with [] => None | v => Some (average v) end.
Proof. intros data h out c [= <-] C. split; [unfold mean_trace; now rewrite map_length, seq_length|]. now apply mean_trace_at. Qed.
(** 'norm_mean': no sample is larger than one. *)
Theorem C67_norm_mean_bound : forall data h out v, extract_trace data h NormMean = Ok out -> In (Some v) out -> -1 <= v <= 1.
Proof. exact norm_mean_bounded. Qed.
(** It loses every trace that has a gap. *)
Theorem C67_norm_mean_gap_refuted : forall data h w, (0 < w)%nat -> (forall row, In row data -> length row = w) -> filter complete data <> [] ->
  extract_trace data h NormMean = extract_trace (filter complete data) h NormMean.
Proof. exact norm_mean_missing. Qed.
(** 'similarity_percentile': the result is the average of some of the normalised traces; these are more similar to the mean trace than all
    others; there are not more than 100 - p percent of them; if one trace is the most similar of all and p < 100, it is among them. *)
Theorem C67_similarity_partial : forall xs ns w h p,
  (forall x, In x xs -> length x = w /\ exists v, In v x /\ v <> 0) -> xs <> [] -> (0 <= p)%Q -> (p <= 100)%Q ->
  Forall2 (fun x n => exists k, is_max (map Rabs x) k /\ n = scaled k x) xs ns ->
  let m := map (fun c => average (map (fun n => nth c n 0) ns)) (seq 0 w) in (exists v, In v m /\ v <> 0) ->
  let sim := fun i => cosine (nth i ns []) m in
  exists out sel, extract_trace (map (map Some) xs) h (SimilarityPercentile p) = Ok out /\ length out = w /\
    NoDup sel /\ (forall i, In i sel -> (i < length xs)%nat) /\
    (forall i j, In i sel -> (j < length xs)%nat -> ~ In j sel -> sim j < sim i) /\
    (length sel <= length xs - 1 - Z.to_nat (Qfloor (p / 100 * inject_Z (Z.of_nat (length xs) - 1))))%nat /\
    (sel <> [] -> forall c, (c < w)%nat -> nth c out None = Some (average (map (fun i => nth c (nth i ns []) 0) sel))) /\
    ((2 <= length xs)%nat -> (p < 100)%Q -> forall i, (i < length xs)%nat -> (forall j, (j < length xs)%nat -> j <> i -> sim j < sim i) -> In i sel).
Proof.
  intros xs ns w h p H Ne P0 P1 F m M sim. apply ns_unique in F. subst ns.
  assert (W : forall x, In x xs -> length x = w) by (intros x I; now destruct (H x I)). assert (S : forall x, In x xs -> exists v, In v x /\ v <> 0) by (intros x I; now destruct (H x I)).
  set (ns := map (fun x => scaled (peak x) x) xs) in *. set (sims := map (fun x => cosine x m) ns).
  assert (SI : forall i, (i < length xs)%nat -> nth i sims 0 = sim i).
  { intros i I. unfold sims, sim. assert (I' : (i < length ns)%nat) by (unfold ns; now rewrite map_length). rewrite (nth_indep _ 0 (cosine [] m)) by now rewrite map_length. apply (map_nth (fun x => cosine x m)). }
  eexists. exists (filter (fun i => if Rlt_dec (percentile sims p) (nth i sims 0) then true else false) (seq 0 (length xs))).
  split; [exact (extracted xs w h p W S Ne M P0 P1)|]. split; [now rewrite map_length, seq_length|].
  split; [apply sel_nodup|]. split; [intros i I; exact (sel_range xs w p W S i I)|]. split.
  { intros i j I J N. rewrite <- (SI j J), <- (SI i (sel_range xs w p W S i I)). exact (sel_best xs w p W S i j I J N). }
  split; [exact (sel_count xs w p Ne P0 P1)|]. split.
  - fold ns m sims. set (sel := filter _ _). intros N c C. rewrite Proofs.SpectralFacts.nth_map_seq by exact C. destruct sel; [contradiction|reflexivity].
  - intros N Q i I U. apply (sel_unique xs w p W S P0 i N Q I). intros j J D. fold ns m sims. rewrite (SI j J), (SI i I). now apply U.
Qed.
(** So the percentile is the share of the traces that is left out: with p = 90 and eleven traces at most one is used. *)
Theorem C67_share_refuted : forall xs ns w h, length xs = 11%nat ->
  (forall x, In x xs -> length x = w /\ exists v, In v x /\ v <> 0) ->
  Forall2 (fun x n => exists k, is_max (map Rabs x) k /\ n = scaled k x) xs ns ->
  (exists v, In v (map (fun c => average (map (fun n => nth c n 0) ns)) (seq 0 w)) /\ v <> 0) ->
  exists out sel, extract_trace (map (map Some) xs) h (SimilarityPercentile 90) = Ok out /\ (length sel <= 1)%nat /\
    (sel <> [] -> forall c, (c < w)%nat -> nth c out None = Some (average (map (fun i => nth c (nth i ns []) 0) sel))).
Proof.
  intros xs ns w h L H F M. assert (Ne : xs <> []) by (intros ->; discriminate).
  destruct (C67_similarity_partial xs ns w h 90 H Ne ltac:(discriminate) ltac:(discriminate) F M) as [out [sel [E [_ [_ [_ [_ [N [A _]]]]]]]]].
  exists out, sel. rewrite L in N. auto.
Qed.
(** With p = 100, and with identical traces (in particular with a single one) for every p, there is no reference trace at all. *)
Theorem C67_hundred_refuted : forall xs ns w h,
  (forall x, In x xs -> length x = w /\ exists v, In v x /\ v <> 0) -> xs <> [] ->
  Forall2 (fun x n => exists k, is_max (map Rabs x) k /\ n = scaled k x) xs ns ->
  (exists v, In v (map (fun c => average (map (fun n => nth c n 0) ns)) (seq 0 w)) /\ v <> 0) ->
  extract_trace (map (map Some) xs) h (SimilarityPercentile 100) = Ok (repeat None w).
Proof.
  intros xs ns w h H Ne F M. apply ns_unique in F. subst ns.
  assert (W : forall x, In x xs -> length x = w) by (intros x I; now destruct (H x I)). assert (S : forall x, In x xs -> exists v, In v x /\ v <> 0) by (intros x I; now destruct (H x I)).
  assert (P0 : (0 <= 100)%Q) by discriminate. assert (P1 : (100 <= 100)%Q) by discriminate.
  rewrite (extracted xs w h 100 W S Ne M P0 P1). rewrite (sel_hundred xs w 100 W S Ne P0 P1 eq_refl). f_equal. generalize 0%nat. clear. induction w as [|w IH]; intros o; [reflexivity|]. cbn. now rewrite IH.
Qed.
Theorem C67_identical_refuted : forall x k h p, (exists v, In v x /\ v <> 0) -> (0 < k)%nat -> (0 <= p)%Q -> (p <= 100)%Q ->
  extract_trace (repeat (map Some x) k) h (SimilarityPercentile p) = Ok (map (fun _ => None) x).
Proof. exact identical_nan. Qed.
Theorem C67_errors : forall data h, extract_trace data h OtherMethod = Raise ValueError. Proof. reflexivity. Qed.
Print Assumptions C67_mean. Print Assumptions C67_norm_mean_bound. Print Assumptions C67_norm_mean_gap_refuted. Print Assumptions C67_similarity_partial.
Print Assumptions C67_share_refuted. Print Assumptions C67_hundred_refuted. Print Assumptions C67_identical_refuted. Print Assumptions C67_errors.

Example mean_example : exists out, extract_trace [[Some 1; None; Some 3]; [Some 5; None; None]] ex_h Mean = Ok out /\ nth 0 out None = Some 3 /\ nth 1 out None = None /\ nth 2 out None = Some 3.
Proof. eexists. split; [reflexivity|]. repeat split; cbn; f_equal; unfold Model.TimeDomain.mean; cbn; lra. Qed.
(** two good traces and one that is opposite: hypotheses of the similarity theorem *)
Example similar_example : let xs := [[2; 0]; [4; 4]; [0; 3]] in let ns := [[1; 0]; [1; 1]; [0; 1]] in
  Forall2 (fun x n => exists k, is_max (map Rabs x) k /\ n = scaled k x) xs ns /\
  let m := map (fun c => average (map (fun n => nth c n 0) ns)) (seq 0 2) in (exists v, In v m /\ v <> 0).
Proof.
  split.
  - assert (R : forall a b k, Rabs a <= k -> Rabs b <= k -> k = Rabs a \/ k = Rabs b -> is_max (map Rabs [a; b]) k).
    { intros a b k A B E. split; [cbn; destruct E; auto|]. intros w [<-|[<-|[]]]; assumption. }
    repeat constructor.
    + exists 2. split; [apply R; rewrite ?Rabs_R0, ?Rabs_pos_eq by lra; lra|]. unfold scaled. cbn. repeat f_equal; lra.
    + exists 4. split; [apply R; rewrite ?Rabs_pos_eq by lra; lra|]. unfold scaled. cbn. repeat f_equal; lra.
    + exists 3. split; [apply R; rewrite ?Rabs_R0, ?Rabs_pos_eq by lra; lra|]. unfold scaled. cbn. repeat f_equal; lra.
  - exists (2 / 3). split; [left; unfold average; cbn; lra|lra].
Qed.
