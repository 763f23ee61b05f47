(** C114-C120: amplitudes of correlation matrices (CorrBulk.clip, taper, envelope, correct_decay).
    Samples are real numbers (exact arithmetic); [None] is NaN. *)
From Coq Require Import Reals QArith Qreals Lra Lia.
From Verif Require Import Lib.Base Model.Spectral Model.TimeDomain Model.CorrStream Model.LagMatrix Model.Amplitude
  Spec.AmplitudeSpec Spec.DecaySpec Proofs.SpectralFacts Proofs.ClipFacts Proofs.FlankFacts Proofs.EnvelopeFacts Proofs.DecayFacts.
Local Open Scope R_scope.

(** C114: clipping replaces every sample by the nearest value within thres standard deviations *)
Theorem C114_rows : forall thres A i row x, 0 <= thres -> nth_error A i = Some row -> complete row = Some x ->
  exists out, nth_error (clip thres Rows A) i = Some (map Some out) /\ length out = length x /\
    (forall j v, nth_error x j = Some v -> exists y, nth_error out j = Some y /\ nearest (thres * std x) v y).
Proof. exact clip_rows. Qed.
Print Assumptions C114_rows.
Theorem C114_columns : forall thres w A j x, 0 <= thres -> rectangular w A -> (j < w)%nat -> complete (column A j) = Some x ->
  forall i v, nth_error x i = Some v -> exists y, sample_at (clip thres Columns A) i j = Some (Some y) /\ nearest (thres * std x) v y.
Proof. exact clip_columns. Qed.
Print Assumptions C114_columns.
Theorem C114_whole : forall thres A x, 0 <= thres -> complete (concat A) = Some x ->
  forall i j v, sample_at A i j = Some (Some v) -> exists y, sample_at (clip thres Whole A) i j = Some (Some y) /\ nearest (thres * std x) v y.
Proof. exact clip_whole. Qed.
Print Assumptions C114_whole.
Theorem C114_shape : forall thres ax A, same_shape (clip thres ax A) A.
Proof. exact clip_shape. Qed.
Print Assumptions C114_shape.
(** what "nearest" means: samples within the bound stay, the others become the bound and keep their sign *)
Theorem C114_nearest : forall c x y, nearest c x y -> (Rabs x <= c -> y = x) /\ (c < Rabs x -> Rabs y = c /\ 0 <= x * y).
Proof. intros c x y H. split; intros B; [eapply nearest_kept; eauto|eapply nearest_outside; eauto]. Qed.
Print Assumptions C114_nearest.

Lemma ex_mean : mean [-1; 1] = 0. Proof. unfold mean. cbn. lra. Qed.
Lemma ex_std : std [-1; 1] = 1.
Proof. unfold std. rewrite ex_mean. cbn. replace ((0 + (-1 - 0) * (-1 - 0) + (1 - 0) * (1 - 0)) / (1 + 1)) with 1 by field. apply sqrt_1. Qed.
Example C114_example : clip (/ 2) Rows [[Some (-1); Some 1]; [None; Some 5]] = [[Some (- / 2); Some (/ 2)]; [None; None]].
Proof.
  cbn [clip map]. unfold nstd. cbn [complete option_map]. rewrite ex_std. cbn [option_map clip1]. repeat f_equal; unfold Rmin, Rmax; repeat destruct Rle_dec; lra.
Qed.

(** C115: how many samples are clipped *)
Theorem C115_few_partial : forall thres A i row x out, 0 < thres -> nth_error A i = Some row -> complete row = Some x -> mean x = 0 ->
  nth_error (clip thres Rows A) i = Some (map Some out) -> INR (changed x out) * (thres * thres) <= INR (length x).
Proof. exact changed_few. Qed.
Print Assumptions C115_few_partial.
Example C115_few_example : INR (changed [-1; 1] [- / 2; / 2]) * (/ 2 * / 2) <= INR 2.
Proof.
  apply (C115_few_partial (/ 2) [[Some (-1); Some 1]; [None; Some 5]] 0 [Some (-1); Some 1]); [lra|reflexivity|reflexivity|exact ex_mean|].
  rewrite C114_example. reflexivity.
Qed.
(** a trace with an offset: every sample of a constant trace is set to zero, whatever the threshold *)
Theorem C115_offset_refuted : forall thres c n, clip thres Rows [repeat (Some c) n] = [repeat (Some 0) n].
Proof.
  intros thres c n. cbn [clip map]. f_equal. destruct n as [|n]; [reflexivity|]. set (x := repeat c (S n)).
  assert (E : complete (repeat (Some c) (S n)) = Some x). { apply complete_spec. unfold x. generalize (S n) as m. induction m as [|m IH]; cbn; [reflexivity|]. now rewrite <- IH. }
  assert (L : length x = S n) by apply repeat_length.
  assert (NX : forall j, (j < S n)%nat -> nth j x 0 = c). { intros j J. rewrite (nth_indep x 0 c) by lia. apply nth_repeat. }
  assert (M : mean x = c).
  { unfold mean. rewrite L, (rsum_ext _ _ (fun _ => c)) by exact NX. rewrite rsum_const. field. apply not_0_INR. lia. }
  assert (D : std x = 0).
  { unfold std. rewrite rsum_0; [unfold Rdiv; rewrite Rmult_0_l; apply sqrt_0|]. intros k K. rewrite NX, M by lia. ring. }
  rewrite (nstd_complete _ x E) by (unfold x; discriminate). rewrite D. cbn [option_map]. rewrite Rmult_0_r.
  assert (Z : clip1 (Some 0) (Some c) = Some 0). { cbn. f_equal. unfold Rmin, Rmax. repeat destruct Rle_dec; lra. }
  generalize (S n) as m. induction m as [|m IH]; cbn [repeat map]; [reflexivity|]. now rewrite IH, Z.
Qed.
Print Assumptions C115_offset_refuted.
Example C115_offset_example : INR (changed [5; 5; 5] [0; 0; 0]) * (2 * 2) > INR 3.
Proof. unfold changed. cbn. repeat destruct Req_EM_T; cbn; lra. Qed.

(** C116: gaps *)
Theorem C116_rows_partial : forall thres A B, clip thres Rows (A ++ B) = clip thres Rows A ++ clip thres Rows B.
Proof. exact clip_rows_app. Qed.
Print Assumptions C116_rows_partial.
Example C116_rows_example : clip (/ 2) Rows [[Some (-1); Some 1]; [None; Some 5]] = clip (/ 2) Rows [[Some (-1); Some 1]] ++ clip (/ 2) Rows [[None; Some 5]].
Proof. exact (C116_rows_partial (/ 2) [[Some (-1); Some 1]] [[None; Some 5]]). Qed.
Lemma none_complete xs : In None xs -> complete xs = None.
Proof. intros I. destruct (complete xs) as [x|] eqn:E; [|reflexivity]. apply complete_spec in E. subst. apply in_map_iff in I as (y & ? & _). discriminate. Qed.
(** one missing sample removes all samples of its trace *)
Theorem C116_trace_lost_refuted : forall thres row, In None row -> clip thres Rows [row] = [map (fun _ => None) row].
Proof. intros thres row I. cbn [clip map]. unfold nstd. rewrite (none_complete _ I). cbn [option_map]. reflexivity. Qed.
Print Assumptions C116_trace_lost_refuted.
(** without an axis, one missing sample removes the whole matrix *)
Theorem C116_all_lost_refuted : forall thres A i j, sample_at A i j = Some None -> clip thres Whole A = map (map (fun _ => None)) A.
Proof. intros thres A i j S. cbn [clip]. unfold nstd. rewrite none_complete; [reflexivity|]. eapply in_concat_entry; eauto. Qed.
Print Assumptions C116_all_lost_refuted.
Example C116_all_lost_example : clip 3 Whole [[Some 1; Some 2]; [None; Some 5]] = [[None; None]; [None; None]].
Proof. exact (C116_all_lost_refuted 3 [[Some 1; Some 2]; [None; Some 5]] 1 0 eq_refl). Qed.

(** C117: tapering both ends *)
Theorem C117_effect : forall h width, (0 < h_sr h)%Q -> forall data, (3 <= h_npts h)%nat -> rectangular (h_npts h) data ->
  (0 <= width)%Q -> (2 * width * h_sr h <= inject_Z (Z.of_nat (h_npts h)))%Q ->
  exists out w, taper data h width = Ok out /\
    (forall i j, sample_at out i j = option_map (fun v => scale v (w j)) (sample_at data i j)) /\
    (forall j, (j < h_npts h)%nat -> 0 <= w j <= 1 /\ w (h_npts h - 1 - j)%nat = w j) /\
    (forall i j, (i <= j)%nat -> (2 * j < h_npts h)%nat -> w i <= w j) /\
    (forall j, (width * h_sr h <= inject_Z (Z.of_nat j))%Q -> (width * h_sr h <= inject_Z (Z.of_nat (h_npts h) - 1 - Z.of_nat j))%Q -> w j = 1) /\
    (((1 # 2) <= width * h_sr h)%Q -> w 0%nat = 0 /\ w (h_npts h - 1)%nat = 0).
Proof. exact taper_effect. Qed.
Print Assumptions C117_effect.
Theorem C117_refused : forall h width, (0 < h_sr h)%Q -> forall data, (1 <= h_npts h)%nat ->
  ~ ((0 <= width)%Q /\ (2 * width * h_sr h <= inject_Z (Z.of_nat (h_npts h)))%Q) -> taper data h width = Raise ValueError.
Proof. exact taper_refused. Qed.
Print Assumptions C117_refused.
Definition ex_h : hdr := mkH (-2) 1 5 [] [].
Definition ex_row : list (option R) := [Some 1; Some 2; Some 3; None; Some 5].
Example C117_example : exists out, taper [ex_row] ex_h 2 = Ok out /\ sample_at out 0 0 = Some (Some 0) /\ sample_at out 0 2 = Some (Some 3) /\ sample_at out 0 3 = Some None.
Proof.
  destruct (C117_effect ex_h 2 ltac:(reflexivity) [ex_row]) as (out & w & E & S & _ & _ & M & Z).
  - cbn. lia.
  - intros row [<-|[]]. reflexivity.
  - discriminate.
  - cbn. discriminate.
  - exists out. split; [exact E|]. rewrite !S. destruct Z as [-> _]; [cbn; discriminate|]. rewrite (M 2%nat) by (cbn; discriminate). cbn. repeat split; do 2 f_equal; lra.
Qed.
Example C117_refused_example : taper [ex_row] ex_h 3 = Raise ValueError /\ taper [ex_row] ex_h (-1) = Raise ValueError.
Proof. split; apply C117_refused; try reflexivity; cbn; try lia; intros [A B]; [apply B|apply A]; reflexivity. Qed.

(** C118: envelopes *)
Theorem C118_above : forall x l, (l < length x)%nat -> Rabs (nth l x 0) <= nth l (envelope_samples x) 0.
Proof. exact envelope_above. Qed.
Print Assumptions C118_above.
Theorem C118_harmonic : forall n k0 A phi, (0 < k0)%nat -> (2 * k0 < n)%nat -> envelope_samples (harmonic n k0 A phi) = repeat (Rabs A) n.
Proof. exact envelope_harmonic. Qed.
Print Assumptions C118_harmonic.
Theorem C118_scale : forall c x, envelope_samples (map (Rmult c) x) = map (Rmult (Rabs c)) (envelope_samples x).
Proof. exact envelope_scale. Qed.
Print Assumptions C118_scale.
(** row by row, the shape is kept; a trace with a gap has no envelope *)
Theorem C118_rows : forall data, (forall row, In row data -> row <> []) -> exists out, envelope data = Ok out /\ same_shape out data /\
  (forall i row, nth_error data i = Some row -> forall x, complete row = Some x -> nth_error out i = Some (map Some (envelope_samples x))) /\
  (forall i row, nth_error data i = Some row -> complete row = None -> nth_error out i = Some (map (fun _ => None) row)).
Proof.
  intros data R. exists (map envelope_row data). split; [|split; [|split]].
  - unfold envelope. replace (existsb _ _) with false; [reflexivity|]. symmetry. apply not_true_iff_false. intros E. apply existsb_exists in E as (row & I & E).
    apply Nat.eqb_eq in E. apply (R row I). now destruct row.
  - unfold same_shape. rewrite map_map. apply map_ext. intros row. unfold envelope_row. destruct (complete row) as [x|] eqn:E; rewrite map_length; [|reflexivity].
    rewrite envelope_length. now apply complete_length.
  - intros i row H x E. rewrite nth_error_map, H. cbn [option_map]. unfold envelope_row. now rewrite E.
  - intros i row H E. rewrite nth_error_map, H. cbn [option_map]. unfold envelope_row. now rewrite E.
Qed.
Print Assumptions C118_rows.
Example C118_example : envelope_samples (harmonic 8 1 (-3) (PI / 3)) = [3; 3; 3; 3; 3; 3; 3; 3].
Proof. rewrite C118_harmonic by lia. rewrite Rabs_left by lra. replace (- -3) with 3 by lra. reflexivity. Qed.
Example C118_rows_example : exists out, envelope [[Some 1; None]; [Some 2; Some 3]] = Ok out /\ nth_error out 0 = Some [None; None].
Proof.
  destruct (C118_rows [[Some 1; None]; [Some 2; Some 3]]) as (out & E & _ & _ & N); [intros row [<-|[<-|[]]]; discriminate|].
  exists out. split; [exact E|]. exact (N 0%nat _ eq_refl eq_refl).
Qed.

(** C119: the decay with the lag is removed *)
Theorem C119_fit : forall h c data, (0 < h_sr h)%Q -> (- (h_lag h * h_sr h) == inject_Z (Z.of_nat c))%Q -> (c < h_npts h - 1)%nat ->
  rectangular (h_npts h) data -> complete_rows data <> [] ->
  (forall t, (t < distances c (h_npts h))%nat -> 0 < mean_envelope c data t) ->
  exists out a K, 0 < a /\ correct_decay (h_npts h) data h = Ok out /\
    (forall i j, sample_at out i j = option_map (fun v => option_map (fun x => x / (a * exp (K * Rabs (INR j - INR c)))) v) (sample_at data i j)) /\
    (forall a' K', 0 < a' -> misfit c (h_npts h) data a K <= misfit c (h_npts h) data a' K').
Proof. exact decay_fit. Qed.
Print Assumptions C119_fit.
Theorem C119_removed : forall h c data K amps, (0 < h_sr h)%Q -> (- (h_lag h * h_sr h) == inject_Z (Z.of_nat c))%Q -> (c < h_npts h - 1)%nat ->
  rectangular (h_npts h) data -> complete_rows data <> [] -> (forall a, In a amps -> 0 < a) ->
  Forall2 (fun x a => decays_like (h_npts h) (INR c) a K x) (complete_rows data) amps ->
  exists out, correct_decay (h_npts h) data h = Ok out /\
    (forall i j, sample_at out i j = option_map (fun v => option_map (fun x => x / (mean amps * exp (K * Rabs (INR j - INR c)))) v) (sample_at data i j)).
Proof. exact decay_rows. Qed.
Print Assumptions C119_removed.
(** the envelope of two samples *)
Lemma two_envelope a b : envelope_samples [a; b] = [Rabs a; Rabs b].
Proof.
  assert (Z : forall l, snd (analytic [a; b] l) = 0).
  { intros l. rewrite analytic_im. cbn [length]. rewrite rsum_0; [unfold Rdiv; apply Rmult_0_l|]. intros k _.
    rewrite rsum_0; [apply Rmult_0_r|]. intros j _. unfold th.
    replace (2 * PI * INR k * IZR (Z.of_nat l - Z.of_nat j) / INR 2) with (PI * IZR (Z.of_nat k * (Z.of_nat l - Z.of_nat j))) by (rewrite mult_IZR, <- INR_IZR_INZ; cbn [INR]; field).
    rewrite sin_kpi. apply Rmult_0_r. }
  apply list_eq_nth with (d := 0); [reflexivity|]. rewrite envelope_length. cbn [length]. intros i I.
  rewrite envelope_nth by (cbn; lia). rewrite Z, Rmult_0_l, Rplus_0_r. fold (Rsqr (nth i [a; b] 0)). rewrite sqrt_Rsqr_abs. destruct i as [|[|i]]; [reflexivity|reflexivity|lia].
Qed.
Definition ex_h2 : hdr := mkH 0 1 2 [] [].
Definition ex_m2 : list (list (option R)) := [[Some 4; Some 2]; [None; Some 1]; [Some 12; Some (-6)]].
Lemma ex_decay : Forall2 (fun x a => decays_like 2 (INR 0) a (ln (/ 2)) x) (complete_rows ex_m2) [4; 12].
Proof.
  repeat constructor; intros i I; rewrite two_envelope; destruct i as [|[|i]]; try lia; cbn; rewrite ?Rminus_0_r, ?Rabs_R0, ?Rabs_R1, ?Rmult_0_r, ?Rmult_1_r, ?exp_0, ?exp_ln by lra;
    rewrite ?Rabs_Ropp; try rewrite Rabs_pos_eq by lra; try (rewrite Rabs_left by lra); lra.
Qed.
Example C119_example : exists out, correct_decay 2 ex_m2 ex_h2 = Ok out /\
  sample_at out 0 0 = Some (Some (/ 2)) /\ sample_at out 0 1 = Some (Some (/ 2)) /\ sample_at out 1 0 = Some None /\ sample_at out 2 1 = Some (Some (- (3 / 2))).
Proof.
  destruct (C119_removed ex_h2 0 ex_m2 (ln (/ 2)) [4; 12]) as (out & E & S).
  - reflexivity.
  - reflexivity.
  - cbn. lia.
  - intros row [<-|[<-|[<-|[]]]]; reflexivity.
  - discriminate.
  - intros a [<-|[<-|[]]]; lra.
  - exact ex_decay.
  - exists out. split; [exact E|]. rewrite !S. cbn [sample_at nth_error ex_m2 option_map]. change (INR 0) with 0. change (INR 1) with 1.
    assert (M : mean [4; 12] = 8) by (unfold mean; cbn; lra). rewrite M. rewrite !Rminus_0_r, Rabs_R0, Rabs_R1, Rmult_0_r, Rmult_1_r, exp_0, exp_ln by lra.
    repeat split; do 2 f_equal; lra.
Qed.

(** C120: lags of one sign, axes without a sample at zero *)
Theorem C120_causal_partial : forall h s data K amps, (0 < h_sr h)%Q -> (h_lag h * h_sr h == inject_Z (Z.of_nat s))%Q -> (2 <= h_npts h)%nat ->
  rectangular (h_npts h) data -> complete_rows data <> [] -> (forall a, In a amps -> 0 < a) ->
  Forall2 (fun x a => decays_like (h_npts h) (- INR s) a K x) (complete_rows data) amps ->
  exists out, correct_decay (h_npts h) data h = Ok out /\
    (forall i j, sample_at out i j = option_map (fun v => option_map (fun x => x / (mean amps * exp (K * (INR j + INR s))) / exp (K * INR s)) v) (sample_at data i j)).
Proof. exact decay_causal. Qed.
Print Assumptions C120_causal_partial.
(** lags before zero only: instead of divided, the samples are multiplied with the decay *)
Theorem C120_acausal_refuted : forall h c data K amps, (0 < h_sr h)%Q -> (- (h_lag h * h_sr h) == inject_Z (Z.of_nat c))%Q -> (2 <= h_npts h)%nat -> (h_npts h - 1 <= c)%nat ->
  rectangular (h_npts h) data -> complete_rows data <> [] -> (forall a, In a amps -> 0 < a) ->
  Forall2 (fun x a => decays_like (h_npts h) (INR c) a K x) (complete_rows data) amps ->
  exists out, correct_decay (h_npts h) data h = Ok out /\
    (forall i j, sample_at out i j = option_map (fun v => option_map (fun x => x * exp (K * Rabs (INR j - INR c)) / (mean amps * exp (K * INR c))) v) (sample_at data i j)).
Proof. exact decay_acausal. Qed.
Print Assumptions C120_acausal_refuted.
(** no sample at lag zero: TypeError *)
Theorem C120_between_refuted : forall h data, (0 < - (h_lag h * h_sr h))%Q -> (0 < end_lag h)%Q -> (forall z, ~ (- (h_lag h * h_sr h) == inject_Z z)%Q) ->
  (forall row, In row data -> row <> []) -> correct_decay (h_npts h) data h = Raise TypeError.
Proof. exact decay_half. Qed.
Print Assumptions C120_between_refuted.
Example C120_causal_example : exists out, correct_decay 2 ex_m2 ex_h2 = Ok out /\ sample_at out 0 1 = Some (Some (2 / (8 * exp (ln (/ 2) * (INR 1 + INR 0))) / exp (ln (/ 2) * INR 0))).
Proof.
  destruct (C120_causal_partial ex_h2 0 ex_m2 (ln (/ 2)) [4; 12]) as (out & E & S).
  - reflexivity.
  - reflexivity.
  - cbn. lia.
  - intros row [<-|[<-|[<-|[]]]]; reflexivity.
  - discriminate.
  - intros a [<-|[<-|[]]]; lra.
  - change (INR 0) with 0. rewrite Ropp_0. exact ex_decay.
  - exists out. split; [exact E|]. rewrite S. assert (M : mean [4; 12] = 8) by (unfold mean; cbn; lra). rewrite M. reflexivity.
Qed.
(** amplitudes 1 and 2 at the lags -1 and 0 become 1/2 and 2: the ratio is squared *)
Example C120_acausal_example : exists out, correct_decay 2 [[Some 1; Some 2]] (mkH (-1) 1 2 [] []) = Ok out /\ sample_at out 0 0 = Some (Some (/ 2)) /\ sample_at out 0 1 = Some (Some 2).
Proof.
  destruct (C120_acausal_refuted (mkH (-1) 1 2 [] []) 1 [[Some 1; Some 2]] (ln (/ 2)) [2]) as (out & E & S).
  - reflexivity.
  - reflexivity.
  - cbn. lia.
  - cbn. lia.
  - intros row [<-|[]]. reflexivity.
  - discriminate.
  - intros a [<-|[]]; lra.
  - repeat constructor. intros i I. cbn [h_npts] in I. rewrite two_envelope. destruct i as [|[|i]]; try lia; cbn.
    + replace (0 - 1) with (-1) by lra. rewrite (Rabs_left (-1)), Rabs_R1 by lra. replace (ln (/ 2) * - -1) with (ln (/ 2)) by lra. rewrite exp_ln by lra. lra.
    + replace (1 - 1) with 0 by lra. rewrite Rabs_R0, (Rabs_pos_eq 2), Rmult_0_r, exp_0 by lra. lra.
  - exists out. split; [exact E|]. rewrite !S. cbn [sample_at nth_error option_map]. change (INR 0) with 0. change (INR 1) with 1. assert (M : mean [2] = 2) by (unfold mean; cbn; lra). rewrite M.
    replace (0 - 1) with (-1) by lra. replace (1 - 1) with 0 by lra. rewrite Rabs_R0, Rabs_left by lra. replace (- -1) with 1 by lra. rewrite !Rmult_1_r, Rmult_0_r, exp_0, exp_ln by lra. split; do 2 f_equal; lra.
Qed.
Example C120_between_example : correct_decay 3 [[Some 1; Some 2; Some 1]] (mkH (-1 # 2) 1 3 [] []) = Raise TypeError.
Proof.
  apply (C120_between_refuted (mkH (-1 # 2) 1 3 [] [])); try reflexivity.
  - intros z E. unfold Qeq in E. cbn in E. lia.
  - intros row [<-|[]]. discriminate.
Qed.
