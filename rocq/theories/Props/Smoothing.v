(** C49 moving averages, C65 smoothed similarities. *)
From Coq Require Import Reals QArith Lra.
From Verif Require Import Lib.Base Model.CorrStream Model.LagMatrix Model.DVs Model.Spectral Model.TimeDomain Model.Smoothing
  Spec.LagSpec Spec.SmoothSpec Proofs.DVFacts Proofs.MovingFacts Proofs.SmoothFacts.
Local Open Scope nat_scope.

(** ** C49: moving averages *)
(** A moving average has as many values as the data; each is the average of the values that are not missing at most h
    places away, and it is missing if there are none. *)
Theorem C49_moving_average : forall h l, length (mav h l) = length l /\ forall i, i < length l -> is_average (near h i l) (nth i (mav h l) None).
Proof. intros h l. split; [apply mav_length|apply mav_average]. Qed.
Print Assumptions C49_moving_average.
(** The same along the columns of a matrix. *)
Theorem C49_moving_average_matrix : forall h m w, (forall row, In row m -> length row = w) ->
  length (mav_rows h m) = length m /\ (forall row, In row (mav_rows h m) -> length row = w) /\
  forall i c, i < length m -> c < w -> is_average (near h i (col c m)) (nth c (nth i (mav_rows h m) []) None).
Proof. exact mav_rows_spec. Qed.
Print Assumptions C49_moving_average_matrix.
(** The same along its rows. *)
Theorem C49_moving_average_rows : forall h m, length (mav_cols h m) = length m /\
  forall i row, nth_error m i = Some row -> exists row', nth_error (mav_cols h m) i = Some row' /\ length row' = length row /\
    forall c, c < length row -> is_average (near h c row) (nth c row' None).
Proof.
  intros h m. unfold mav_cols. split; [apply map_length|]. intros i row N. exists (mav h row).
  split; [rewrite nth_error_map, N; reflexivity|]. split; [apply mav_length|apply mav_average].
Qed.
Print Assumptions C49_moving_average_rows.
(** It lies between the smallest and the largest of them. *)
Theorem C49_moving_average_bounds : forall h l i v lo hi, i < length l -> nth i (mav h l) None = Some v ->
  (forall j x, nth_error l j = Some (Some x) -> j <= i + h -> i <= j + h -> (lo <= x <= hi)%Q) -> (lo <= v <= hi)%Q.
Proof.
  intros h l i v lo hi L E B. pose proof (mav_average h l i L) as A. rewrite E in A. apply (average_bounds _ _ _ _ A).
  intros x I. apply near_In in I as (j & N & J1 & J2). eauto.
Qed.
Print Assumptions C49_moving_average_bounds.
(** A window of one sample changes nothing. *)
Theorem C49_moving_average_one : forall l i x, nth_error l i = Some x -> same_number x (nth i (mav 0 l) None).
Proof.
  intros l i x N. apply average_one. rewrite <- (near_zero i l x N). apply mav_average. apply nth_error_Some. congruence.
Qed.
Print Assumptions C49_moving_average_one.
Example C49_moving_example : let l := [Some 1%Q; None; Some 5%Q; None; None; None; Some 3%Q] in
  map (option_map Qred) (mav 1 l) = [Some 1%Q; Some 3%Q; Some 5%Q; Some 5%Q; None; Some 3%Q; Some 3%Q] /\ near 1 0 l = [Some 1%Q; None] /\ near 2 3 l = [None; Some 5%Q; None; None; None].
Proof. repeat split. Qed.

(** Smoothing with a window keeps the shape of a matrix whose lines are longer than the window.  Missing: lines exactly
    as long as the window, for which it is false. *)
Theorem C49_shape_partial : forall m wl w n, (forall x, In x m -> length x = n) -> wl < n -> w <> Unknown ->
  exists r, smooth_lines m wl w = Ok r /\ length r = length m /\ forall x, In x r -> length x = n.
Proof. exact lines_ok. Qed.
Print Assumptions C49_shape_partial.
(** Lines as long as the window, which the check in the code lets pass, are one sample shorter afterwards: a vector is
    shortened, a matrix gives ValueError. *)
Theorem C49_equal_length_refuted : (forall x w, 3 <= length x -> w <> Unknown -> exists y, smooth x (length x) w = Ok y /\ length y = length x - 1) /\
  forall m w x, In x m -> 3 <= length x -> (forall z, In z m -> length z = length x) -> smooth_lines m (length x) w = Raise ValueError.
Proof. split; [exact smooth_equal|exact lines_equal]. Qed.
Print Assumptions C49_equal_length_refuted.
(** Shorter lines and unknown windows are refused; windows of less than three samples change nothing. *)
Theorem C49_errors : forall x wl w, (length x < wl -> smooth x wl w = Raise ValueError) /\ (wl <= length x -> wl < 3 -> smooth x wl w = Ok x) /\
  (3 <= wl <= length x -> smooth x wl Unknown = Raise ValueError).
Proof.
  intros x wl w. unfold smooth. repeat split.
  - intros H. apply Nat.ltb_lt in H. now rewrite H.
  - intros H L. apply Nat.ltb_ge in H. apply Nat.ltb_lt in L. now rewrite H, L.
  - intros [L H]. apply Nat.ltb_ge in H, L. now rewrite H, L.
Qed.
Print Assumptions C49_errors.
Local Open Scope R_scope.
(** Constant data stay as they are, for every window. *)
Theorem C49_constant : forall x wl w y c, (3 <= wl < length x)%nat -> w <> Unknown -> smooth x wl w = Ok y ->
  (forall i, (i < length x)%nat -> nth i x 0 = c) -> y = x.
Proof. exact smooth_const. Qed.
Print Assumptions C49_constant.
(** Away from the ends each value is the weighted mean of the samples around it, with the weights of the window, ... *)
Theorem C49_weighted_mean : forall x wl w y i, (3 <= wl < length x)%nat -> w <> Unknown -> smooth x wl w = Ok y -> inside x wl i ->
  nth i y 0 = rsum wl (fun t => win_at w wl t / rsum wl (win_at w wl) * nth (i + (wl - 1) / 2 - t) x 0).
Proof. exact smooth_inside. Qed.
Print Assumptions C49_weighted_mean.
(** ... and lies between the smallest and the largest of them. *)
Theorem C49_bounds : forall x wl w y i lo hi, (3 <= wl < length x)%nat -> w <> Unknown -> smooth x wl w = Ok y -> inside x wl i ->
  (forall k, (i + (wl - 1) / 2 - (wl - 1) <= k <= i + (wl - 1) / 2)%nat -> lo <= nth k x 0 <= hi) -> lo <= nth i y 0 <= hi.
Proof. exact smooth_bounds. Qed.
Print Assumptions C49_bounds.
(** A straight line stays a straight line away from the ends; windows with an even number of samples delay it by half a
    sample, odd ones do not. *)
Theorem C49_line : forall x wl w y i a b, (3 <= wl < length x)%nat -> w <> Unknown -> smooth x wl w = Ok y -> inside x wl i ->
  (forall k, (k < length x)%nat -> nth k x 0 = a + b * INR k) ->
  nth i y 0 = a + b * (INR i + (INR ((wl - 1) / 2) - INR (wl - 1) / 2)).
Proof. exact smooth_line. Qed.
Print Assumptions C49_line.
(** At the ends it does not: the reflected copy leaves out the second sample. *)
Theorem C49_line_end_refuted : forall n y, (3 < n)%nat -> smooth (map INR (seq 0 n)) 3 Flat = Ok y -> nth 0 y 0 = - (1 / 3).
Proof. exact smooth_edge. Qed.
Print Assumptions C49_line_end_refuted.
(** A missing sample counts as zero: among samples of value c the smoothed value is c (1 - 1/wl). *)
Theorem C49_missing_as_zero_refuted : forall x wl y j c, (3 <= wl < length x)%nat -> smooth_vector x wl Flat = Ok y -> inside x wl j ->
  (forall k, (k < length x)%nat -> nth k x None = if (k =? j)%nat then None else Some c) -> nth j y 0 = c * (1 - 1 / INR wl).
Proof. intros x wl y j c H E I. apply smooth_gap; try assumption. unfold inside, nan_to_num in *. now rewrite map_length. Qed.
Print Assumptions C49_missing_as_zero_refuted.
Example C49_example : inside [1; 2; 3; 4] 3 1 /\ (3 <= 3 < length [1; 2; 3; 4])%nat /\ (exists y, smooth [1; 2; 3; 4] 3 Hanning = Ok y) /\ win_at Bartlett 5 1 = 1 / 2 /\ win_at Hanning 3 1 = 1.
Proof.
  repeat split; try (cbn; lia).
  - eexists. reflexivity.
  - unfold win_at. cbn. destruct (Rle_dec (-2) 0); lra.
  - unfold win_at. cbn. replace (PI * 0 / (1 + 1)) with 0 by field. rewrite cos_0. lra.
Qed.

(** ** C65: smoothing the similarities of a velocity change *)
Local Open Scope nat_scope.
(** Each smoothed similarity is the average over the times at most win_len/2 (rounded down) before or after, of the
    similarities that are neither missing nor below the limit. *)
Theorem C65_average : forall wl below d d' av w, smooth_sim_mat wl below d = Ok (d', av) -> (forall row, In row (d_sim d) -> length row = w) ->
  length (d_sim d') = length (d_sim d) /\ forall i c, i < length (d_sim d) -> c < w ->
  is_average (near (wl / 2) i (map (used below) (col c (d_sim d)))) (nth c (nth i (d_sim d') []) None).
Proof. exact smooth_average. Qed.
Print Assumptions C65_average.
(** The correlation of each time is the largest of its smoothed similarities; it is missing if all are. *)
Theorem C65_correlation : forall wl below d d' av i row, smooth_sim_mat wl below d = Ok (d', av) -> nth_error (d_sim d') i = Some row ->
  exists c, nth_error (d_corr d') i = Some c /\
  match c with None => forall x, In x row -> x = None | Some m => In (Some m) row /\ forall x, In (Some x) row -> (x <= m)%Q end.
Proof. exact smooth_corr. Qed.
Print Assumptions C65_correlation.
(** The value of each time is the stretch at which that largest similarity is found, if it is positive or none is
    missing at that time.  Missing: other times, for which it is false. *)
Theorem C65_value_partial : forall wl below d d' av i row m, smooth_sim_mat wl below d = Ok (d', av) -> nth_error (d_sim d') i = Some row ->
  nth_error (d_corr d') i = Some (Some m) -> (0 < m)%Q \/ (forall x, In x row -> x <> None) ->
  exists k v q, nth_error (d_axis d) k = Some v /\ nth_error (d_value d') i = Some (Some v) /\ nth_error row k = Some (Some q) /\ (q == m)%Q.
Proof. exact smooth_value. Qed.
Print Assumptions C65_value_partial.
(** If all similarities of a time are negative and one is missing, the value is the stretch of a missing one. *)
Theorem C65_negative_refuted : forall wl below d d' av i row m, smooth_sim_mat wl below d = Ok (d', av) -> nth_error (d_sim d') i = Some row ->
  nth_error (d_corr d') i = Some (Some m) -> (m < 0)%Q -> In None row ->
  exists k v, nth_error (d_axis d) k = Some v /\ nth_error (d_value d') i = Some (Some v) /\ nth_error row k = Some None.
Proof. exact smooth_negative. Qed.
Print Assumptions C65_negative_refuted.
(** A time without any similarity gets the first stretch as its value. *)
Theorem C65_missing_refuted : forall wl below d d' av i row v r, smooth_sim_mat wl below d = Ok (d', av) -> nth_error (d_sim d') i = Some row ->
  (forall x, In x row -> x = None) -> d_axis d = v :: r ->
  nth_error (d_corr d') i = Some None /\ nth_error (d_value d') i = Some (Some v).
Proof. exact smooth_missing. Qed.
Print Assumptions C65_missing_refuted.
(** The record of the available times is not brought up to date: it is that from before smoothing. *)
Theorem C65_available_refuted : forall wl below d d' av, smooth_sim_mat wl below d = Ok (d', av) -> av = avail d.
Proof. intros wl below d d' av E. now apply smooth_parts in E as (_ & _ & _ & _ & ->). Qed.
Print Assumptions C65_available_refuted.

Definition gap_dv : dv := mkDV [None; Some (1 # 2)] [None; Some 1%Q] [[None; None]; [Some (1 # 4); Some (1 # 2)]] [0%Q; 1%Q] "stretch" "N" "S" "C" [0%Z; 1%Z] [1%Z; 2%Z].
Definition negative_dv : dv := mkDV [Some (- (1 # 2))%Q] [Some 1%Q] [[None; Some (- (1 # 2))%Q]] [0%Q; 1%Q] "stretch" "N" "S" "C" [0%Z] [1%Z].
Example C65_example : exists d' av, smooth_sim_mat 3 None gap_dv = Ok (d', av) /\
  map (map (option_map Qred)) (d_sim d') = [[Some (1 # 4); Some (1 # 2)]; [Some (1 # 4); Some (1 # 2)]] /\
  av = [false; true] /\ map is_some (d_corr d') = [true; true] /\ d_value d' = [Some 1%Q; Some 1%Q].
Proof. do 2 eexists. split; [reflexivity|]. repeat split. Qed.
Example C65_refuted_example : (exists d' av, smooth_sim_mat 1 None negative_dv = Ok (d', av) /\ map (option_map Qred) (d_corr d') = [Some (- (1 # 2))%Q] /\ d_value d' = [Some 0%Q]) /\
  (exists d' av, smooth_sim_mat 1 (Some 1%Q) gap_dv = Ok (d', av) /\ d_corr d' = [None; None] /\ d_value d' = [Some 0%Q; Some 0%Q]).
Proof. split; (do 2 eexists; split; [reflexivity|]; repeat split). Qed.
(** With an even win_len one time more than win_len is averaged. *)
Example C65_even_example : length (near (4 / 2) 5 (repeat tt 20)) = 5. Proof. reflexivity. Qed.
