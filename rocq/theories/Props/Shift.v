(** C68: measuring time shifts and correcting for them.  C69: correcting for stretching.  C70, C71: the other functions for both. *)
From Coq Require Import Reals QArith Qround Qreals Lra Lia.
From Verif Require Import Lib.Base Model.LagMatrix Model.Spectral Model.TimeDomain Model.Similarity Model.DVs Model.Shift Spec.ShiftSpec.
From Verif Require Import Proofs.SpectralFacts Proofs.SimilarityFacts Proofs.ShiftFacts Proofs.ShiftWindow Proofs.MeasureFacts Proofs.DisplacedFacts Proofs.CorrectFacts.
Local Open Scope R_scope.

(** an interpolation for the examples *)
Definition linear (y : list R) (u : R) : R := match interp (map Some y) u with Some v => v | None => nth 0 y 0 end.
Lemma some_nth (y : list R) k : (k < length y)%nat -> nth k (map Some y) None = Some (nth k y 0).
Proof. intros K. rewrite (nth_indep _ None (Some 0)) by (now rewrite map_length). apply (map_nth (@Some R)). Qed.
Lemma linear_through : through_samples linear.
Proof.
  intros y k K. unfold linear. destruct (Nat.eq_dec (length y) 1) as [E|E].
  - destruct y as [|a [|b y]]; try discriminate. assert (k = 0)%nat as -> by (cbn in K; lia). unfold interp. cbn [map length].
    set (c := cell 1 (INR 0)). destruct c as [|[|c]]; reflexivity.
  - rewrite interp_whole.
    + now rewrite some_nth.
    + rewrite map_length. lia.
    + now rewrite map_length.
    + now rewrite some_nth.
    + rewrite some_nth by (destruct (Nat.eqb_spec k 0); lia). discriminate.
Qed.
Lemma linear_reproduces n a b : (2 <= n)%nat -> reproduced linear n (fun u => a + b * u).
Proof.
  intros N u U. unfold linear, interp. rewrite map_length, sampled_length. destruct (cell_inside n u N U) as [C _].
  rewrite !some_nth by (rewrite sampled_length; lia). cbn [between]. unfold sampled. rewrite !nth_map_seq by lia. rewrite S_INR. lra.
Qed.

(** ** C68 *)
(** A shift by a whole number of samples moves the samples. *)
Theorem C68_whole_shift : forall row m k j, (2 <= length row)%nat -> (forall i, (i < length row)%nat -> nth i row None <> None) ->
  (k < length row)%nat -> (Z.of_nat j = Z.of_nat k + m)%Z -> (j < length row)%nat ->
  nth k (shift_row row (Some (IZR m))) None = nth j row None.
Proof. intros row m k j N A K E J. apply (shift_whole row m k j N K E J); apply A; [exact J|]. destruct (Nat.eqb_spec j 0); lia. Qed.
Print Assumptions C68_whole_shift.

(** Any other shift gives values between those of the neighbouring samples, as long as they are on the axis. *)
Theorem C68_between : forall row s k, (2 <= length row)%nat -> (forall i, (i < length row)%nat -> nth i row None <> None) ->
  (k < length row)%nat -> 0 <= INR k + s <= INR (length row - 1) ->
  exists i x y v, (S i < length row)%nat /\ INR i <= INR k + s <= INR i + 1 /\ nth i row None = Some x /\ nth (S i) row None = Some y /\
    nth k (shift_row row (Some s)) None = Some v /\ Rmin x y <= v <= Rmax x y.
Proof.
  intros row s k N A K U. destruct (cell_inside _ _ N U) as [C B]. set (i := cell (length row) (INR k + s)) in *.
  destruct (nth i row None) as [x|] eqn:X; [|exfalso; apply (A i); [lia|exact X]].
  destruct (nth (S i) row None) as [y|] eqn:Y; [|exfalso; apply (A (S i)); [lia|exact Y]].
  destruct (interp_between row (INR k + s) x y N U X Y) as (v & V & VB).
  exists i, x, y, v. repeat split; try assumption; try apply B; try apply VB. now rewrite shift_row_nth.
Qed.
Print Assumptions C68_between.

(** Beyond the ends the traces are continued with the slope of the last two samples: the values are not bounded by the trace. *)
Theorem C68_ends_refuted : exists row, (forall i v, nth i row None = Some v -> 0 <= v <= 1) /\
  forall b, 0 < b -> exists s v, nth 1 (shift_row row (Some s)) None = Some v /\ b < v.
Proof.
  exists [Some 0; Some 1]. split.
  { intros [|[|[|i]]] v E; cbn in E; try discriminate; injection E as <-; lra. }
  intros b B. exists b, (1 + b). split; [|lra]. cbn [shift_row map seq length nth]. unfold interp. cbn [length].
  assert (C : cell 2 (INR 1 + b) = 0%nat). { unfold cell. change (Z.of_nat 2 - 1)%Z with 1%Z. lia. }
  rewrite C. cbn. f_equal. lra.
Qed.
Print Assumptions C68_ends_refuted.

(** One missing sample removes its neighbours, even with no shift at all. *)
Theorem C68_gap_refuted : exists row, nth 2 row None = Some 2 /\ nth 2 (shift_row row (Some 0)) None = None.
Proof.
  exists [Some 1; None; Some 2]. split; [reflexivity|]. rewrite shift_row_nth by (cbn; lia). unfold interp. rewrite Rplus_0_r.
  rewrite cell_whole by (cbn; lia). reflexivity.
Qed.
Print Assumptions C68_gap_refuted.

(** Traces that are the reference displaced by a tested whole number of samples: the measurement succeeds; unless a similarity cannot be computed,
    the largest similarity is 1.  The reported shift is a tested one.  If it is a whole number of samples, too, and all bounds lie on
    samples, then in every window the reference displaced by the reported shift is proportional to the trace (and not silent
    in at least one of them). *)
Theorem C68_measured : forall sp h data ref tw range steps sd,
  (0 < h_sr h)%Q -> length ref = h_npts h -> (0 < h_npts h)%nat -> (0 <= range)%Q -> Nat.even steps = false -> sd <> OtherSides ->
  fits h sd range tw -> through_samples sp ->
  exists dt, measure_shift sp h data ref tw range steps sd = Ok dt /\
    forall i row m s, nth_error data i = Some row -> displaced (Z.to_nat (Qfloor (range * h_sr h))) m ref row ->
      In s (linspace (- range) range steps) -> (s * h_sr h == inject_Z m)%Q ->
      (reported (m_corr dt) i = Some None /\ reported (m_value dt) i = Some None) \/
      (reported (m_corr dt) i = Some (Some 1) /\ exists s', In s' (linspace (- range) range steps) /\ reported (m_value dt) i = Some (Some (Q2R s')) /\
        forall m', (s' * h_sr h == inject_Z m')%Q -> on_samples h range (windows_of h range tw) ->
          (forall w, In w (windows_of h range tw) ->
            (forall p j, compared h sd w p -> (Z.of_nat j = Z.of_nat p + m)%Z -> nth j ref 0 = 0) \/
            exists a, 0 <= a /\ forall p j j', compared h sd w p -> (Z.of_nat j = Z.of_nat p + m)%Z -> (Z.of_nat j' = Z.of_nat p + m')%Z -> nth j' ref 0 = a * nth j ref 0) /\
          exists w a, In w (windows_of h range tw) /\ 0 < a /\
            (forall p j j', compared h sd w p -> (Z.of_nat j = Z.of_nat p + m)%Z -> (Z.of_nat j' = Z.of_nat p + m')%Z -> nth j' ref 0 = a * nth j ref 0) /\
            exists p j, compared h sd w p /\ (Z.of_nat j = Z.of_nat p + m)%Z /\ nth j ref 0 <> 0).
Proof. exact measure_displaced_full. Qed.
Print Assumptions C68_measured.

(** Correcting for the shifts restores the reference at all samples that are further from the ends than the range, and a second
    measurement finds a similarity of 1 (zero shift is among those tested).
    Missing: a single trace, a single tested shift, missing samples (see below), and shifts by a fraction of a sample, for which the linear interpolation
    of the correction and the spline of the measurement differ. *)
Theorem C68_corrected_partial : forall sp h data ref tw range steps sd dt,
  (0 < h_sr h)%Q -> length ref = h_npts h -> (2 <= h_npts h)%nat -> (0 <= range)%Q -> Nat.even steps = false -> (3 <= steps)%nat -> sd <> OtherSides ->
  fits h sd range tw -> through_samples sp -> (2 <= length data)%nat ->
  (forall i row, nth_error data i = Some row -> exists m v,
    displaced 0 m ref row /\ (forall k, (k < length row)%nat -> nth k row None <> None) /\
    (- Z.of_nat (Z.to_nat (Qfloor (range * h_sr h))) <= m <= Z.of_nat (Z.to_nat (Qfloor (range * h_sr h))))%Z /\
    reported (m_value dt) i = Some (Some v) /\ v * Q2R (h_sr h) = IZR m) ->
  exists data', correct_shift h data dt = (None, data') /\ length data' = length data /\
    (forall i row', nth_error data' i = Some row' -> displaced (Z.to_nat (Qfloor (range * h_sr h))) 0 ref row') /\
    exists dt', measure_shift sp h data' ref tw range steps sd = Ok dt' /\
      forall i, (i < length data')%nat -> (reported (m_corr dt') i = Some None /\ reported (m_value dt') i = Some None) \/ reported (m_corr dt') i = Some (Some 1).
Proof.
  intros sp h data ref tw range steps sd dt S L N R O ST SD F SP LD H.
  destruct (corrected_rows h data ref range steps L N ST dt LD H) as (data' & E & L' & D).
  exists data'. split; [exact E|]. split; [exact L'|]. split; [exact D|].
  exact (measured_again sp h data' ref tw range steps sd S L N R O ST SD F SP D).
Qed.
Print Assumptions C68_corrected_partial.

(** a case *)
Definition ex_h : hdr := mkH (-2) 1 5 [0%Z; 1%Z] [1%Z; 2%Z].
Definition ex_ref : list R := [1; 4; 2; 8; 5].
Definition ex_data : list (list (option R)) := [map Some [4; 2; 8; 5; 7]; map Some [9; 1; 4; 2; 8]].
Example C68_example_fits : fits ex_h BothSides 1 (Some [(0, 1)%Q]) /\ fits ex_h BothSides 1 None /\ fits ex_h SingleSide 1 None.
Proof.
  repeat split; try discriminate; try (intros _; reflexivity); intros; destruct H as [<-|[]]; destruct H0 as [-> | ->]; cbn; discriminate.
Qed.
Example C68_example_displaced : displaced 0 1 ex_ref (nth 0 ex_data []) /\ displaced 0 (-1) ex_ref (nth 1 ex_data []).
Proof.
  split; (split; [reflexivity|]; intros k j _ K E J; cbn in K, J).
  - assert (C : (k = 0 /\ j = 1 \/ k = 1 /\ j = 2 \/ k = 2 /\ j = 3 \/ k = 3 /\ j = 4)%nat) by lia.
    destruct C as [[-> ->]|[[-> ->]|[[-> ->]|[-> ->]]]]; reflexivity.
  - assert (C : (k = 1 /\ j = 0 \/ k = 2 /\ j = 1 \/ k = 3 /\ j = 2 \/ k = 4 /\ j = 3)%nat) by lia.
    destruct C as [[-> ->]|[[-> ->]|[[-> ->]|[-> ->]]]]; reflexivity.
Qed.
Example C68_example_tested : exists s, In s (linspace (-1) 1 3) /\ (s * h_sr ex_h == inject_Z 1)%Q.
Proof. exists (-1 + inject_Z 2 * ((1 - -1) / inject_Z 2))%Q. split; [right; right; now left|reflexivity]. Qed.
(** the hypotheses of the second theorem *)
Example C68_example_corrected : exists data', correct_shift ex_h ex_data (mkM (Values [Some 1; Some 1]) (Values [Some 1; Some (-1)]) ShiftValue) = (None, data') /\
  length data' = 2%nat /\
  (forall i row', nth_error data' i = Some row' -> displaced 1 0 ex_ref row') /\
  exists dt', measure_shift linear ex_h data' ex_ref (Some [(0, 1)%Q]) 1 3 BothSides = Ok dt' /\
    forall i, (i < length data')%nat -> (reported (m_corr dt') i = Some None /\ reported (m_value dt') i = Some None) \/ reported (m_corr dt') i = Some (Some 1).
Proof.
  apply (C68_corrected_partial linear ex_h ex_data ex_ref (Some [(0, 1)%Q]) 1 3 BothSides (mkM (Values [Some 1; Some 1]) (Values [Some 1; Some (-1)]) ShiftValue));
    try reflexivity; try discriminate; try (cbn; lia).
  - apply C68_example_fits.
  - exact linear_through.
  - intros [|[|[|i]]] row E; cbn in E; try discriminate; injection E as <-.
    + exists 1%Z, 1. split; [apply C68_example_displaced|]. split; [intros k K; cbn in K; do 5 (destruct k as [|k]; [discriminate|]); lia|].
      split; [cbn; lia|]. split; [reflexivity|]. unfold Q2R. cbn. lra.
    + exists (-1)%Z, (-1). split; [apply C68_example_displaced|]. split; [intros k K; cbn in K; do 5 (destruct k as [|k]; [discriminate|]); lia|].
      split; [cbn; lia|]. split; [reflexivity|]. unfold Q2R. cbn. lra.
Qed.

(** For a single trace the measured value is a number, which cannot be passed to the correction. *)
Theorem C68_one_trace_refuted : forall sp h row ref tw range steps sd dt,
  measure_shift sp h [row] ref tw range steps sd = Ok dt -> correct_shift h [row] dt = (Some IndexError, [row]).
Proof. exact correct_single. Qed.
Print Assumptions C68_one_trace_refuted.
Example C68_one_trace_example : exists dt, measure_shift linear ex_h [map Some ex_ref] ex_ref (Some [(0, 1)%Q]) 1 3 BothSides = Ok dt.
Proof.
  destruct (C68_measured linear ex_h [map Some ex_ref] ex_ref (Some [(0, 1)%Q]) 1 3 BothSides) as (dt & E & _); try reflexivity; try discriminate.
  - cbn. lia.
  - apply C68_example_fits.
  - exact linear_through.
  - eauto.
Qed.

(** An odd number of tested shifts does not always include zero shift: if it is 1, only -range is tested. *)
Theorem C68_one_step_refuted : forall range, (0 < range)%Q ->
  linspace (- range) range 1 = [(- range)%Q] /\ forall s, In s (linspace (- range) range 1) -> ~ (s == 0)%Q.
Proof.
  intros range P. split; [reflexivity|]. intros s [<-|[]] E. apply (Qlt_irrefl 0). rewrite <- E at 1.
  assert (X : (range == 0)%Q). { rewrite <- (Qopp_involutive range), E. reflexivity. } rewrite X in P. discriminate.
Qed.
Print Assumptions C68_one_step_refuted.
Theorem C68_steps : forall range steps, Nat.even steps = false -> (3 <= steps)%nat -> exists s, In s (linspace (- range) range steps) /\ (s == 0)%Q.
Proof. exact linspace_zero. Qed.
Print Assumptions C68_steps.

(** Values of another kind are used as if they were shifts. *)
Theorem C68_kind_refuted : forall h data c v, correct_shift h data (mkM c v StretchValue) = correct_shift h data (mkM c v ShiftValue).
Proof. reflexivity. Qed.
Print Assumptions C68_kind_refuted.

(** With the default window the trace has to be symmetric about lag zero: otherwise the checks pass and the function fails. *)
Theorem C68_default_window_refuted : exists h range, (0 < range)%Q /\ (2 * range <= end_lag h - h_lag h)%Q /\ (end_lag h <= - h_lag h)%Q /\
  forall sp data ref, length ref = h_npts h -> measure_shift sp h data ref None range 3 BothSides = Raise IndexError.
Proof.
  exists (mkH (-6) 1 10 [0%Z] [1%Z]), 1%Q. split; [reflexivity|]. split; [discriminate|]. split; [discriminate|]. intros sp data ref L.
  do 10 (destruct ref as [|? ref]; [discriminate|]). destruct ref; [|discriminate]. reflexivity.
Qed.
Print Assumptions C68_default_window_refuted.

(** If there are fewer shifts than traces, an error is raised after some traces have been changed. *)
Theorem C68_atomic_refuted : exists h data shifts data', apply_shift h data shifts = (Some IndexError, data') /\ data' <> data.
Proof.
  exists (mkH 0 1 2 [0%Z; 1%Z] [1%Z; 2%Z]), [[Some 0; Some 1]; [Some 0; Some 1]], (Values [Some 1]).
  exists [shift_row [Some 0; Some 1] (in_samples (mkH 0 1 2 [0%Z; 1%Z] [1%Z; 2%Z]) (Some 1)); [Some 0; Some 1]].
  split; [reflexivity|]. intros E. apply (f_equal (@hd (list (option R)) [])) in E. revert E.
  replace (in_samples (mkH 0 1 2 [0%Z; 1%Z] [1%Z; 2%Z]) (Some 1)) with (Some (IZR 1)) by (cbn; f_equal; unfold Q2R; cbn; lra). unfold hd. intros E.
  assert (X : nth 0 (shift_row [Some 0; Some 1] (Some (IZR 1))) None = Some 1) by (rewrite (shift_whole _ 1 0 1); try reflexivity; try discriminate; cbn; lia).
  rewrite E in X. injection X as X. lra.
Qed.
Print Assumptions C68_atomic_refuted.

(** wrong arguments *)
Theorem C68_arguments : forall sp h data ref tw range steps sd,
  (Nat.even steps = true -> measure_shift sp h data ref tw range steps sd = Raise ValueError) /\
  measure_shift sp h data ref tw range steps OtherSides = Raise ValueError /\
  (forall l w, tw = Some l -> In w l -> (fst w < 0 \/ snd w < 0)%Q -> measure_shift sp h data ref tw range steps BothSides = Raise ValueError) /\
  (length ref <> h_npts h -> measure_shift sp h data ref tw range steps sd = Raise ValueError).
Proof.
  intros. unfold measure_shift. split; [intros ->; reflexivity|]. split; [now destruct (Nat.even steps)|]. split.
  - intros l w -> I N. destruct (Nat.even steps); [reflexivity|].
    assert (E : existsb (fun w => negb (Qle_bool 0 (fst w)) || negb (Qle_bool 0 (snd w))) l = true).
    { apply existsb_exists. exists w. split; [exact I|].
      assert (X : forall q, (q < 0)%Q -> Qle_bool 0 q = false). { intros q Hq. apply not_true_iff_false. intros B. apply Qle_bool_iff in B. apply (Qlt_not_le _ _ Hq B). }
      destruct N as [N|N]; rewrite (X _ N); [reflexivity|now rewrite orb_true_r]. }
    now rewrite E.
  - intros NE. apply Nat.eqb_neq in NE. rewrite NE. destruct (Nat.even steps); [reflexivity|].
    destruct sd, tw; try reflexivity; now match goal with |- (if ?b then _ else _) = _ => destruct b end.
Qed.
Print Assumptions C68_arguments.

(** ** C69 *)
(** The trace [t -> f(t exp(-v))] is the reference [f] stretched by [v], as the estimate of stretching sees it ... *)
Theorem C69_estimate : forall sp c n f v k, (k < n)%nat -> reproduced sp n f -> 0 <= c + (INR k - c) * exp (- v) <= INR (n - 1) ->
  nth k (stretched_ref sp c (sampled n f) v) 0 = nth k (sampled n (stretched c v f)) 0.
Proof.
  intros sp c n f v k K R I. unfold stretched_ref. rewrite sampled_length, (nth_map_seq _ _ _ _ K).
  rewrite (proj2 (inside_spec _ _) I). unfold stretch_at, sampled. rewrite (nth_map_seq _ _ _ _ K). now apply R.
Qed.
Print Assumptions C69_estimate.

(** ... and correcting for it restores the reference, wherever the stretched trace has data; elsewhere the result is zero. *)
Theorem C69_corrected : forall sp c n fs vs, length fs = length vs ->
  (forall i f v, nth_error fs i = Some f -> nth_error vs i = Some v -> reproduced sp n (stretched c v f)) ->
  exists out, correct_stretch sp c (map (fun p => sampled n (stretched c (snd p) (fst p))) (combine fs vs)) StretchValue vs = (None, out) /\
    length out = length fs /\
    forall i f v k, nth_error fs i = Some f -> nth_error vs i = Some v -> (k < n)%nat ->
      exists row, nth_error out i = Some row /\ length row = n /\
        (0 <= c + (INR k - c) * exp v <= INR (n - 1) -> nth k row 0 = f (INR k)) /\
        (~ 0 <= c + (INR k - c) * exp v <= INR (n - 1) -> nth k row 0 = 0).
Proof.
  intros sp c n fs vs L R. unfold correct_stretch, apply_stretch.
  destruct (for_rows_ok (stretch_row sp c) (nth_error (map Ropp vs)) (map (fun p => sampled n (stretched c (snd p) (fst p))) (combine fs vs)) 0) as (out & E & LO & H).
  { intros k K. rewrite map_length, combine_length in K. apply nth_error_Some. rewrite map_length. lia. }
  exists out. split; [exact E|]. split; [rewrite LO, map_length, combine_length; lia|].
  intros i f v k F V K. exists (stretch_row sp c (sampled n (stretched c v f)) (- v)). split; [|split; [now rewrite stretch_row_length, sampled_length|split]].
  - apply H; [|now apply (map_nth_error Ropp)].
    apply (map_nth_error (fun p => sampled n (stretched c (snd p) (fst p))) i (combine fs vs) (d := (f, v))).
    clear -F V. revert fs vs F V. induction i as [|i IH]; intros [|a fs] [|b vs] F V; try discriminate; cbn in *; [congruence|now apply IH].
  - intros I. apply stretch_corrects; try assumption. now apply (R i).
  - intros I. rewrite stretch_row_at by (try assumption; now apply (R i)). rewrite Ropp_involutive.
    destruct (inside n (c + (INR k - c) * exp v)) eqn:X; [|reflexivity]. apply inside_spec in X. contradiction.
Qed.
Print Assumptions C69_corrected.
Example C69_example : reproduced linear 5 (stretched 2 (1 / 10) (fun u => 3 + 2 * u)).
Proof.
  unfold stretched. intros u U. set (e := exp (- (1 / 10))).
  pose proof (linear_reproduces 5 (3 + 2 * (2 - 2 * e)) (2 * e) ltac:(lia) u U) as X. cbv beta in X.
  replace (3 + 2 * (2 + (u - 2) * e)) with (3 + 2 * (2 - 2 * e) + 2 * e * u) by ring. rewrite <- X. f_equal.
  unfold sampled. apply map_ext. intros k. ring.
Qed.

(** Stretching by two amounts is stretching by their sum; stretching by zero changes nothing. *)
Theorem C69_sum : forall sp c n f v w k, (k < n)%nat -> reproduced sp n f -> reproduced sp n (stretched c v f) ->
  0 <= c + (INR k - c) * exp (- w) <= INR (n - 1) -> 0 <= c + (INR k - c) * exp (- (v + w)) <= INR (n - 1) ->
  nth k (stretch_row sp c (sampled n (stretched c v f)) w) 0 = nth k (stretch_row sp c (sampled n f) (v + w)) 0.
Proof.
  intros sp c n f v w k K R1 R2 I1 I2. rewrite !stretch_row_at by assumption. rewrite (proj2 (inside_spec _ _) I1), (proj2 (inside_spec _ _) I2).
  apply stretched_twice.
Qed.
Print Assumptions C69_sum.
Theorem C69_zero : forall sp c row, through_samples sp -> stretch_row sp c row 0 = row.
Proof. exact stretch_zero_row. Qed.
Print Assumptions C69_zero.

(** A measurement of another kind is refused and nothing is changed; too few values are an error. *)
Theorem C69_kind : forall sp c data l, correct_stretch sp c data ShiftValue l = (Some ValueError, data).
Proof. reflexivity. Qed.
Print Assumptions C69_kind.
Theorem C69_too_few : forall sp c data l, (length l < length data)%nat -> fst (correct_stretch sp c data StretchValue l) = Some IndexError.
Proof.
  intros. cbn. unfold apply_stretch. apply (for_rows_fail _ _ _ 0 (length l)); [exact H|]. cbn. apply nth_error_None. now rewrite map_length.
Qed.
Print Assumptions C69_too_few.

(** ** C70 *)
(** The other function that applies stretches is documented to correct for an estimate if it is given the negative value.  That
    doubles the stretching instead; the value itself removes it.  (Without the taper.) *)
Theorem C70_negative_refuted : forall sp c n f v k, (k < n)%nat -> reproduced sp n (stretched c v f) -> 0 <= c + (INR k - c) * exp (- v) <= INR (n - 1) ->
  nth k (fst (time_stretch_apply_row sp (repeat 1 n) c (sampled n (stretched c v f)) (- v))) 0 = stretched c (2 * v) f (INR k).
Proof.
  intros sp c n f v k K R I. unfold time_stretch_apply_row. cbv zeta. cbn [fst].
  assert (T : map (fun p => fst p * snd p) (combine (sampled n (stretched c v f)) (repeat 1 n)) = sampled n (stretched c v f)).
  { unfold sampled. clear. generalize 0%nat. induction n as [|n IH]; intros s; [reflexivity|]. cbn. rewrite Rmult_1_r. f_equal. apply IH. }
  rewrite T, sampled_length, (nth_map_seq _ _ _ _ K). unfold stretch_at. rewrite R by exact I.
  change (stretched c v (stretched c v f) (INR k) = stretched c (2 * v) f (INR k)). rewrite stretched_twice. f_equal. ring.
Qed.
Print Assumptions C70_negative_refuted.
Theorem C70_positive_partial : forall sp c n f v k, (k < n)%nat -> reproduced sp n (stretched c v f) -> 0 <= c + (INR k - c) * exp v <= INR (n - 1) ->
  nth k (fst (time_stretch_apply_row sp (repeat 1 n) c (sampled n (stretched c v f)) v)) 0 = f (INR k).
Proof.
  intros sp c n f v k K R I. unfold time_stretch_apply_row. cbv zeta. cbn [fst].
  assert (T : map (fun p => fst p * snd p) (combine (sampled n (stretched c v f)) (repeat 1 n)) = sampled n (stretched c v f)).
  { unfold sampled. clear. generalize 0%nat. induction n as [|n IH]; intros s; [reflexivity|]. cbn. rewrite Rmult_1_r. f_equal. apply IH. }
  rewrite T, sampled_length, (nth_map_seq _ _ _ _ K). unfold stretch_at. rewrite R by exact I.
  transitivity (stretched c (- v) (stretched c v f) (INR k)); [unfold stretched; rewrite Ropp_involutive; reflexivity|].
  rewrite stretched_twice. replace (v + - v) with 0 by ring. apply stretched_zero.
Qed.
Print Assumptions C70_positive_partial.
(** It also changes the traces it is given. *)
Theorem C70_input_refuted : forall sp c v, exists taper row, snd (time_stretch_apply_row sp taper c row v) <> row.
Proof. intros. exists [0; 1], [1; 1]. cbn. intros E. injection E as E _. lra. Qed.
Print Assumptions C70_input_refuted.

(** ** C71 *)
(** The other pair of functions measures with the opposite sign, and its correction has the wrong one: it doubles the shift.  Applied with the opposite sign it
    removes it. *)
Theorem C71_clock_shift_refuted : forall sp ref m k j2, through_samples sp -> (2 <= length ref)%nat ->
  (k < length ref)%nat -> (0 <= Z.of_nat k - m < Z.of_nat (length ref))%Z -> (Z.of_nat j2 = Z.of_nat k - 2 * m)%Z -> (j2 < length ref)%nat ->
  nth k (time_shift_apply_row (displaced_ref sp ref (IZR m)) (IZR m)) 0 = nth j2 ref 0.
Proof.
  intros sp ref m k j2 SP N K B E J.
  assert (L : length (displaced_ref sp ref (IZR m)) = length ref) by (unfold displaced_ref; now rewrite map_length, seq_length).
  rewrite (time_shift_apply_whole _ m k (Z.to_nat (Z.of_nat k - m))) by lia.
  apply displaced_ref_whole; try assumption; lia.
Qed.
Print Assumptions C71_clock_shift_refuted.
Theorem C71_clock_shift_partial : forall sp ref m k, through_samples sp -> (2 <= length ref)%nat ->
  (k < length ref)%nat -> (0 <= Z.of_nat k + m < Z.of_nat (length ref))%Z ->
  nth k (time_shift_apply_row (displaced_ref sp ref (IZR m)) (IZR (- m))) 0 = nth k ref 0.
Proof.
  intros sp ref m k SP N K B.
  assert (L : length (displaced_ref sp ref (IZR m)) = length ref) by (unfold displaced_ref; now rewrite map_length, seq_length).
  rewrite (time_shift_apply_whole _ (- m) k (Z.to_nat (Z.of_nat k + m))) by lia.
  apply displaced_ref_whole; try assumption; lia.
Qed.
Print Assumptions C71_clock_shift_partial.
Theorem C71_sign_refuted : forall sp ref m k j, through_samples sp -> (k < length ref)%nat -> (Z.of_nat j = Z.of_nat k + m)%Z -> (j < length ref)%nat ->
  nth k (shifted_ref sp ref (IZR m)) 0 = nth j ref 0 /\ nth k (displaced_ref sp ref (IZR (- m))) 0 = nth j ref 0.
Proof.
  intros sp ref m k j SP K E J. split; [|apply displaced_ref_whole; try assumption; lia].
  rewrite <- (Nat2Z.id k). rewrite shifted_ref_whole by (try exact SP; lia). f_equal. lia.
Qed.
Print Assumptions C71_sign_refuted.
Example C71_clock_example : nth 2 (time_shift_apply_row (displaced_ref linear [1; 4; 2; 8; 5] (IZR 1)) (IZR 1)) 0 = 1.
Proof. rewrite (C71_clock_shift_refuted linear _ 1 2 0); try exact linear_through; cbn; try lia; reflexivity. Qed.
