(** C50, C59-C64: preprocessing of the traces before the correlation. *)
From Coq Require Import Reals QArith Lra SpecFloat.
From Verif Require Import Lib.Base Model.MpiMatrix Model.Spectral Model.TimeDomain Spec.TimeDomainSpec
  Proofs.SpectralFacts Proofs.TimeDomainFacts Proofs.AmplitudeFacts Proofs.FreqDomainFacts Model.FreqDomain.
Local Open Scope R_scope.

(** ** C50: muting *)
(** With extend_gaps every sample above the threshold becomes exactly zero, if the taper has an odd number of samples
    or is not shorter than the trace.  Missing: even numbers of samples, for which this is false. *)
Theorem C50_muted_partial : forall a sr A B r x y i, mute a sr A = Ok B -> nth_error A r = Some x -> nth_error B r = Some y ->
  filter_ok a x -> (i < length x)%nat -> m_extend a = true -> exceeds a x i ->
  (Z.odd (mute_ntap a sr) = true \/ Z.of_nat (length x) <= mute_ntap a sr)%Z -> nth i y 0 = 0.
Proof. exact muted_odd. Qed.
Print Assumptions C50_muted_partial.
(** With any even number 2k of samples an isolated sample above the threshold survives. *)
Theorem C50_even_refuted : forall k, (1 <= k)%nat ->
  let a := {| m_taper := inject_Z (Z.of_nat (2 * k)); m_filter := None; m_level := Threshold (1 / 2); m_extend := true |} in
  exists x i y, exceeds a x i /\ mute a 1 [x] = Ok [y] /\ nth i y 0 <> 0.
Proof.
  intros k K a. destruct (spike_not_muted k K) as (X & y & E & N). exists (spike (2 * k)), (2 * k)%nat, y. repeat split; assumption.
Qed.
Print Assumptions C50_even_refuted.
(** What is left of it is the fraction (1 - cos(2 pi/n))/n at most. *)
Theorem C50_residual_bound : forall a sr A B r x y i, mute a sr A = Ok B -> nth_error A r = Some x -> nth_error B r = Some y ->
  filter_ok a x -> (i < length x)%nat -> m_extend a = true -> exceeds a x i ->
  let n := IZR (mute_ntap a sr) in Rabs (nth i y 0) <= Rabs (nth i x 0) * ((1 - cos (2 * PI / n)) / n) \/ nth i y 0 = 0.
Proof. exact muted_even. Qed.
Print Assumptions C50_residual_bound.
(** Samples that are further than the taper from samples above the threshold and from the ends are not changed. *)
Theorem C50_others_unchanged : forall a sr A B r x y i, mute a sr A = Ok B -> nth_error A r = Some x -> nth_error B r = Some y -> filter_ok a x ->
  (2 <= mute_ntap a sr < Z.of_nat (length x))%Z -> quiet a x i (Z.to_nat (mute_ntap a sr)) -> nth i y 0 = nth i x 0.
Proof. exact muted_quiet. Qed.
Print Assumptions C50_others_unchanged.
(** A taper of a single sample mutes everything. *)
Theorem C50_one_sample_refuted : forall a sr A B r x y i, mute a sr A = Ok B -> nth_error A r = Some x -> nth_error B r = Some y -> filter_ok a x ->
  mute_ntap a sr = 1%Z -> nth i y 0 = 0.
Proof. exact one_sample. Qed.
Print Assumptions C50_one_sample_refuted.
(** No sample is amplified and the shape is kept. *)
Theorem C50_never_amplifies : forall a sr A B r x y i, mute a sr A = Ok B -> nth_error A r = Some x -> nth_error B r = Some y -> filter_ok a x ->
  length y = length x /\ Rabs (nth i y 0) <= Rabs (nth i x 0).
Proof. exact muted_smaller. Qed.
Print Assumptions C50_never_amplifies.
(** It succeeds exactly for tapers of at least one sample; a positive taper shorter than that is a ValueError. *)
Theorem C50_succeeds : forall a sr A, ~ (m_taper a == 0)%Q -> (1 <= mute_ntap a sr)%Z -> Forall (filter_ok a) A -> exists B, mute a sr A = Ok B /\ length B = length A.
Proof. exact mute_succeeds. Qed.
Print Assumptions C50_succeeds.
Theorem C50_short_taper_raises : forall a sr A x, In x A -> x <> [] -> (mute_ntap a sr <= 0)%Z -> mute a sr A = Raise ValueError.
Proof. exact mute_short_taper. Qed.
Print Assumptions C50_short_taper_raises.
(** In double precision (products added from left to right) ten times 0.1 is below 1: with a taper of ten samples the
    extended mask of a trace in which nothing exceeds the threshold mutes all of it. *)
Theorem C50_rounding_refuted : forall L i, float_extended (repeat (fof 1) L) 10 i = 0%Z.
Proof. exact float_ones_muted. Qed.
Print Assumptions C50_rounding_refuted.
Example C50_rounding_example : float_extended (repeat (fof 1) 20) 8 10 = 1%Z /\ float_extended (repeat (fof 1) 20) 10 10 = 0%Z.
Proof. vm_compute. split; reflexivity. Qed.
Example C50_example : let a := {| m_taper := 3; m_filter := None; m_level := Threshold (1 / 2); m_extend := true |} in let x := spike 3 in
  mute_ntap a 1 = 3%Z /\ filter_ok a x /\ exceeds a x 3 /\ (exists B, mute a 1 [x] = Ok B) /\ quiet a (spike 7) 3 3 /\ ~ exceeds a (spike 7) 3.
Proof.
  intros a x. assert (X : forall n i, exceeds a (spike n) i <-> i = n).
  { intros n i. unfold exceeds, thres, filtered. cbn [m_level m_filter a]. rewrite spike_nth. destruct (Nat.eqb_spec i n); [rewrite Rabs_R1|rewrite Rabs_R0]; split; intros; [assumption|lra|lra|contradiction]. }
  split; [reflexivity|]. split; [reflexivity|]. split; [now apply X|]. split; [|split].
  - destruct (mute_succeeds a 1 [x]) as (B & E & _); [discriminate|discriminate| |eauto]. constructor; [reflexivity|constructor].
  - split; [lia|]. split; [rewrite spike_length; lia|]. intros j J. rewrite X. lia.
  - rewrite X. lia.
Qed.

(** ** C59: spectral whitening *)
(** If no sample of the spectra is zero, every frequency but the first gets amplitude 1 and keeps its phase; the first
    is set to zero.  Missing: spectra with zeros. *)
Theorem C59_whitened_partial : forall B r row w k, (forall row b, In row B -> In b row -> b <> c0) -> nth_error B r = Some row -> nth_error (whiten B) r = Some w ->
  (1 <= k < length row)%nat ->
  cabs (nth k w c0) = 1 /\ nth k row c0 = (cabs (nth k row c0) * fst (nth k w c0), cabs (nth k row c0) * snd (nth k w c0)).
Proof. exact whiten_unit. Qed.
Print Assumptions C59_whitened_partial.
(** Shape kept, zero frequency removed, always. *)
Theorem C59_zero_frequency : forall B, length (whiten B) = length B /\
  forall r row, nth_error B r = Some row -> exists w, nth_error (whiten B) r = Some w /\ length w = length row /\ nth 0 w c0 = c0.
Proof. exact whiten_shape. Qed.
Print Assumptions C59_zero_frequency.
(** A single zero anywhere (a dead trace, a demeaned trace) leaves every trace of the process as it was. *)
Theorem C59_any_zero_refuted : forall B r row z w k, In z B -> In c0 z -> nth_error B r = Some row -> nth_error (whiten B) r = Some w ->
  (1 <= k)%nat -> nth k w c0 = nth k row c0.
Proof. exact whiten_kept. Qed.
Print Assumptions C59_any_zero_refuted.
(** With joint_norm three spectra are divided by the same number, their mean amplitude, at every frequency. *)
Theorem C59_joint_partial : forall a b c, length b = length a -> length c = length a ->
  (forall k, (k < length a)%nat -> nth k a c0 <> c0 \/ nth k b c0 <> c0 \/ nth k c c0 <> c0) ->
  exists a' b' c', whiten_joint [a; b; c] = Ok [a'; b'; c'] /\
    forall k, (1 <= k < length a)%nat -> let m := (cabs (nth k a c0) + cabs (nth k b c0) + cabs (nth k c c0)) / 3 in 0 < m /\
      nth k a' c0 = cdiv (nth k a c0) m /\ nth k b' c0 = cdiv (nth k b c0) m /\ nth k c' c0 = cdiv (nth k c c0) m /\
      (cabs (nth k a' c0) + cabs (nth k b' c0) + cabs (nth k c' c0)) / 3 = 1.
Proof. exact joint_one. Qed.
Print Assumptions C59_joint_partial.
Example C59_example : let row := [(5, 0); (3, 4)] in whiten [row] = [[c0; (3 / 5, 4 / 5)]] /\ whiten [row; [c0; c0]] = [[c0; (3, 4)]; [c0; c0]].
Proof.
  intros row. assert (A : cabs (3, 4) = 5) by (unfold cabs, abs2; cbn [fst snd]; replace (3 * 3 + 4 * 4) with (5 * 5) by ring; apply sqrt_square; lra). split.
  - rewrite whiten_nonzero.
    + unfold unit_row, row, cdiv. cbn [map zero_dc fst snd]. rewrite A. reflexivity.
    + intros r b [<-|[]] [<-|[<-|[]]] E; inversion E; lra.
  - rewrite (whiten_zero _ [c0; c0]); [reflexivity|cbn; auto|now left].
Qed.

(** ** C60: clipping and normalising *)
(** Every sample is limited to a multiple of the standard deviation; smaller samples stay. *)
Theorem C60_clip : forall f x i, 0 <= f -> (i < length x)%nat ->
  nth i (clip_row f x) 0 = Rmax (- (f * std x)) (Rmin (f * std x) (nth i x 0)).
Proof. exact clip_spec. Qed.
Print Assumptions C60_clip.
Theorem C60_clip_bound : forall f x i, 0 <= f -> length (clip_row f x) = length x /\ Rabs (nth i (clip_row f x) 0) <= f * std x.
Proof. intros f x i F. split; [apply clip_length|now apply clip_bound]. Qed.
Print Assumptions C60_clip_bound.
(** The normalised trace has standard deviation 1, whatever the amplitude of the trace; a constant trace stays. *)
Theorem C60_unit_std : forall x, x <> [] -> std x <> 0 -> std (norm_std_row x) = 1 /\
  forall c, 0 < c -> norm_std_row (map (fun v => c * v) x) = norm_std_row x.
Proof.
  intros x N S. split; [now apply norm_std_one|]. intros c C. destruct (norm_std_scale c 0 x N C S) as [E _].
  rewrite <- E. f_equal. apply map_ext. intros. ring.
Qed.
Print Assumptions C60_unit_std.
Theorem C60_constant : forall x c, x <> [] -> (forall i, (i < length x)%nat -> nth i x 0 = c) -> norm_std_row x = x.
Proof. intros x c N H. apply norm_std_constant. now apply constant_std with c. Qed.
Print Assumptions C60_constant.
(** The standard deviation is zero only for constant traces. *)
Theorem C60_std_zero : forall x i, std x = 0 -> (i < length x)%nat -> nth i x 0 = mean x.
Proof. exact std_zero. Qed.
Print Assumptions C60_std_zero.
(** One-bit normalisation keeps the sign and nothing else. *)
Theorem C60_sign_bit : forall x i, (i < length x)%nat -> let s := nth i (sign_bit_row x) 0 in let v := nth i x 0 in
  (v < 0 -> s = -1) /\ (v = 0 -> s = 0) /\ (0 < v -> s = 1) /\ forall c, 0 < c -> sign_bit_row (map (fun v => c * v) x) = sign_bit_row x.
Proof.
  intros x i I s v. assert (s = sign v) as -> by (unfold s, sign_bit_row; now apply nth_map0). destruct (sign_spec v) as (H1 & H2 & H3). repeat split; try assumption.
  intros. now apply sign_bit_scale.
Qed.
Print Assumptions C60_sign_bit.
(** Removing the mean. *)
Theorem C60_demean : forall x, x <> [] -> mean (demean_row x) = 0.
Proof. exact demean_mean. Qed.
Print Assumptions C60_demean.
Example C60_example : std [-1; 1] = 1 /\ clip_row (1 / 2) [-1; 1] = [- (1 / 2); 1 / 2] /\ norm_std_row [7; 7] = [7; 7].
Proof.
  assert (S : std [-1; 1] = 1).
  { unfold std, mean. cbn [length rsum nth]. change (INR 2) with 2. replace ((0 + (-1 - (0 + -1 + 1) / 2) * (-1 - (0 + -1 + 1) / 2) + (1 - (0 + -1 + 1) / 2) * (1 - (0 + -1 + 1) / 2)) / 2) with 1 by field. apply sqrt_1. }
  split; [assumption|]. split.
  - unfold clip_row. rewrite S. replace (1 / 2 * 1) with (1 / 2) by lra. cbn [map]. repeat (destruct Rlt_dec; try lra). reflexivity.
  - apply (C60_constant _ 7); [discriminate|]. intros [|[|i]] I; cbn in *; try reflexivity; lia.
Qed.

(** ** C61: detrending *)
(** The result of the default method has zero mean and no linear trend, and no line added to the trace changes it. *)
Theorem C61_trend_removed : forall f d, qr_ok (length d) f -> length (detrendqr_row f d) = length d /\
  rsum (length d) (fun k => nth k (detrendqr_row f d) 0) = 0 /\ rsum (length d) (fun k => INR k * nth k (detrendqr_row f d) 0) = 0 /\
  forall a b, detrendqr_row f (map (fun k => nth k d 0 + (a + b * INR k)) (seq 0 (length d))) = detrendqr_row f d.
Proof.
  intros f d Q. split; [apply detrend_length|]. destruct (detrend_no_trend f d Q) as [H1 H2]. repeat split; try assumption. intros. now apply detrend_line.
Qed.
Print Assumptions C61_trend_removed.
(** The decomposition exists for two samples or more, not for one. *)
Theorem C61_decomposition : (forall n, (2 <= n)%nat -> exists f, qr_ok n f) /\ ~ exists f, qr_ok 1 f.
Proof. split; [exact qr_exists|exact no_qr_one]. Qed.
Print Assumptions C61_decomposition.
(** A single missing sample erases the whole trace ... *)
Theorem C61_missing_sample_refuted : forall f d i, In None d -> (i < length d)%nat -> nth i (detrendqr_nan f d) None = None.
Proof.
  intros f d i N I. unfold detrendqr_nan. rewrite all_samples_none by assumption. clear. revert i. induction d as [|v d IH]; intros [|i]; cbn; auto.
Qed.
Print Assumptions C61_missing_sample_refuted.
(** ... while the other method detrends the samples that exist and leaves the others missing. *)
Theorem C61_scipy_missing : forall sp d, length (sp (existing d)) = length (existing d) ->
  length (detrend_scipy_row sp d) = length d /\ existing (detrend_scipy_row sp d) = sp (existing d) /\
  forall i, nth_error (detrend_scipy_row sp d) i = Some None <-> nth_error d i = Some None.
Proof. intros sp d L. now apply put_back_spec. Qed.
Print Assumptions C61_scipy_missing.
Example C61_example : exists f, qr_ok 3 f /\ length (detrendqr_row f [1; 2; 4]) = 3%nat.
Proof. destruct (qr_exists 3 ltac:(lia)) as [f F]. exists f. split; [assumption|]. now rewrite detrend_length. Qed.
Example C61_example_missing : detrendqr_nan (fun _ => {| q1 := []; q2 := []; r11 := 1; r12 := 0; r22 := 1 |}) [Some 1; None; Some 2] = [None; None; None] /\
  detrend_scipy_row (map (fun v => v - 3 / 2)) [Some 1; None; Some 2] = [Some (1 - 3 / 2); None; Some (2 - 3 / 2)].
Proof. split; reflexivity. Qed.

(** ** C62: normalisation by the smoothed envelope *)
(** If the (filtered) trace is not zero everywhere, every sample is divided by a positive number. *)
Theorem C62_finite_partial : forall filt len sr x y, td_normalize filt len sr x = Ok y -> (0 < sr)%Q -> length (filt x) = length x -> (exists j, nth j (filt x) 0 <> 0) ->
  length y = length x /\ forall i, (i < length x)%nat -> exists e, 0 < e /\
    nth i (filt x) 0 * nth i (filt x) 0 / (INR (td_window len sr) * INR (td_window len sr)) <= e /\ nth i y None = Some (nth i x 0 / sqrt e).
Proof. exact td_spec. Qed.
Print Assumptions C62_finite_partial.
(** Without a filter the result is bounded by the length of the window in samples. *)
Theorem C62_bounded : forall len sr x y i v, td_normalize (fun b => b) len sr x = Ok y -> (0 < sr)%Q -> (exists j, nth j x 0 <> 0) -> nth i y None = Some v ->
  Rabs v <= INR (td_window len sr).
Proof. exact td_bound. Qed.
Print Assumptions C62_bounded.
(** The amplitude of the trace does not matter. *)
Theorem C62_scale : forall filt len sr x c, 0 < c -> filt (map (fun v => c * v) x) = map (fun v => c * v) (filt x) ->
  td_normalize filt len sr (map (fun v => c * v) x) = td_normalize filt len sr x.
Proof. exact td_scale. Qed.
Print Assumptions C62_scale.
(** A trace of zeros becomes a trace of NaNs. *)
Theorem C62_zero_trace_refuted : forall filt len sr x y i, td_normalize filt len sr x = Ok y -> (0 < len)%Q -> (0 < sr)%Q -> length (filt x) = length x ->
  (forall j, nth j (filt x) 0 = 0) -> nth i y None = None.
Proof. exact td_zero. Qed.
Print Assumptions C62_zero_trace_refuted.
(** A window longer than the trace, or not positive, is a ValueError. *)
Theorem C62_window_errors : forall filt len sr x, ((len <= 0)%Q \/ (length (filt x) < td_window len sr)%nat) -> td_normalize filt len sr x = Raise ValueError.
Proof.
  intros filt len sr x H. unfold td_normalize. destruct (Qle_bool len 0) eqn:E; [reflexivity|]. destruct H as [H|H].
  - apply Qle_bool_iff in H. congruence.
  - unfold td_envelope. destruct (Nat.ltb_spec (length (filt x)) (td_window len sr)); [reflexivity|lia].
Qed.
Print Assumptions C62_window_errors.
Example C62_example : (exists y, td_normalize (fun b => b) 2 1 [3; 0; 4] = Ok y) /\ td_window 2 1 = 2%nat /\ exists y, td_normalize (fun b => b) 2 1 [0; 0; 0] = Ok y.
Proof. split; [|split; [reflexivity|]]; eexists; reflexivity. Qed.

(** ** C63: tapering the ends *)
(** For floating point data of at least two taper lengths: the factors are between 0 and 1, 0 at both ends, 1 between
    the tapers, symmetric, and do not decrease over the first taper. *)
Theorem C63_taper_partial : forall len n x, (0 < len)%Q -> (1 <= n)%nat -> (2 * n <= length x)%nat ->
  exists y w, cos_taper (fun v => v) len n x = Ok y /\ length y = length x /\
    forall i, (i < length x)%nat -> nth i y 0 = nth i x 0 * w i /\ 0 <= w i <= 1 /\ ((n <= i < length x - n)%nat -> w i = 1) /\
      ((i = 0 \/ i = length x - 1)%nat -> w i = 0) /\ w (length x - 1 - i)%nat = w i /\ ((S i < n)%nat -> w i <= w (S i)).
Proof.
  intros len n x L N X. destruct (cos_taper_ok (fun v => v) len n x L N X) as (y & E & LY & V). exists y, (taper_weight (fun v => v) n (length x)).
  split; [assumption|]. split; [assumption|]. intros i I. split; [now apply V|]. now apply weight_bounds.
Qed.
Print Assumptions C63_taper_partial.
(** For integer data (conversion of the taper to integers) the tapered ends are all set to zero. *)
Theorem C63_integer_refuted : forall to_dtype len n x y i, (forall v, 0 <= v < 1 -> to_dtype v = 0) -> (0 < len)%Q -> (1 <= n)%nat -> (2 * n <= length x)%nat ->
  cos_taper to_dtype len n x = Ok y -> (i < length x)%nat -> (i < n \/ length x - n <= i)%nat -> nth i y 0 = 0.
Proof.
  intros to_dtype len n x y i D L N X E I B. destruct (cos_taper_ok to_dtype len n x L N X) as (y' & E' & LY & V). rewrite E' in E. inversion E; subst y'.
  rewrite V, int_weights by assumption. ring.
Qed.
Print Assumptions C63_integer_refuted.
(** Tapers longer than half of the trace, tapers that round to no sample, and tapers that are not positive are ValueErrors. *)
Theorem C63_errors : forall to_dtype len n x, ((len <= 0)%Q \/ (length x < 2 * n)%nat \/ (n = 0%nat /\ x <> [])) -> cos_taper to_dtype len n x = Raise ValueError.
Proof.
  intros to_dtype len n x H. unfold cos_taper. destruct (Qle_bool len 0) eqn:E; [reflexivity|]. unfold cos_taper_row. destruct H as [H|[H|[H N]]].
  - apply Qle_bool_iff in H. congruence.
  - destruct (Nat.ltb_spec (length x) (n * 2)); [reflexivity|lia].
  - subst n. destruct (length x <? 0 * 2)%nat; [reflexivity|]. cbn [Nat.eqb]. destruct x; [congruence|reflexivity].
Qed.
Print Assumptions C63_errors.
Example C63_example : exists y, cos_taper (fun v => v) 2 2 [1; 1; 1; 1; 1] = Ok y /\ nth 2 y 0 = 1 /\ nth 0 y 0 = 0 /\
  cos_taper (fun v => v) 2 3 [1; 1; 1; 1; 1] = Raise ValueError.
Proof.
  eexists. split; [reflexivity|]. cbn [nth map seq length]. split; [|split].
  - cbn. ring.
  - cbn. rewrite Rmult_0_l, sin_0. ring.
  - reflexivity.
Qed.

(** ** C64: one-bit normalisation of spectra *)
(** For spectra of traces with an even number of samples it is the spectrum of the signs of the samples.  Missing: odd
    numbers, for which it is false. *)
Theorem C64_signs_partial : forall h x, (1 <= h)%nat -> length x = (2 * h)%nat -> fd_sign_bit (rfft x) = rfft (sign_bit_row x) /\ irfft (rfft x) = x.
Proof. intros h x H L. split; [now apply (fd_sign_even h)|now apply (irfft_rfft h)]. Qed.
Print Assumptions C64_signs_partial.
(** For every odd length above one it is wrong already for a constant trace. *)
Theorem C64_odd_refuted : forall h, (1 <= h)%nat -> let x := repeat 1 (2 * h + 1) in fd_sign_bit (rfft x) <> rfft (sign_bit_row x).
Proof. exact fd_sign_odd. Qed.
Print Assumptions C64_odd_refuted.
Example C64_example : length [2; -3; 0; 1] = (2 * 2)%nat /\ sign_bit_row [2; -3; 0; 1] = [1; -1; 0; 1].
Proof. split; [reflexivity|]. unfold sign_bit_row, sign. cbn [map]. repeat (destruct Rlt_dec; try lra). reflexivity. Qed.
