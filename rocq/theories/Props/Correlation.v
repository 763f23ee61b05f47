(** C46, C56, C57: the correlation of two traces. *)
From Coq Require Import QArith Qround Qreals Reals Lra.
From Verif Require Import Lib.Base Model.MpiMatrix Model.Spectral Spec.SpectralSpec Spec.RowwiseSpec Proofs.MpiMatrixFacts Proofs.SpectralFacts.
Local Open Scope R_scope.

(** ** C46 *)
(** Two traces of the same length start at times t1 and t2 that differ by whole samples, lengthToSave is a whole number
    of samples, and the padded length is even: then sample i of the result is the plain sum of the products of all
    pairs of samples of the two traces whose times differ by exactly the i-th lag of its header.  Missing: odd padded
    lengths and lengths that are not whole numbers of samples, for which this is false; offsets of fractions of
    samples, which are corrected by interpolation. *)
Theorem C46_plain_sum_partial : forall sr len t1 t2 k m x y,
  let N := padded_len (length x) sr len in let s := sample_to_save sr len in
  (0 < sr)%Q -> (sr * len == inject_Z k)%Q -> (1 <= k)%Z -> ((t1 - t2) * sr == inject_Z m)%Q ->
  (1 <= length x)%nat -> length y = length x -> Z.even N = true ->
  exists row, correlate_traces false false sr len (t1 - t2) x y = Ok row /\ length row = (2 * s + 1)%nat /\
    forall i, (i < 2 * s + 1)%nat -> exists lag, nth i row 0 = plain x y lag /\
      forall j, ((t2 + inject_Z (j + lag) / sr) - (t1 + inject_Z j / sr) == start_lag false sr len (t1 - t2) + inject_Z (Z.of_nat i) / sr)%Q.
Proof.
  intros sr len t1 t2 k m x y N s S K K1 M L1 LY EV.
  destruct (padded_enough (length x) sr len k K ltac:(lia)) as [B SK]. fold N s in B, SK.
  destruct (correlate_traces_ok false false sr len (t1 - t2) 0 x y) as (row & E & LR & V); try assumption.
  - fold s. lia.
  - fold N s. lia.
  - exact (remaining_zero sr (t1 - t2) m S M).
  - exists row. split; [exact E|]. split; [exact LR|]. intros i I. exists (Z.of_nat i - Z.of_nat s)%Z. fold s in V, I. split.
    + rewrite V by exact I. rewrite Z.add_0_r. unfold Rdiv. rewrite Rinv_1. ring.
    + intros j. unfold start_lag. rewrite (roffset_whole sr (t1 - t2) m S M). fold s.
      unfold Z.sub. rewrite !inject_Z_plus, !inject_Z_opp. field. intros Z0. rewrite Z0 in S. now apply Qlt_irrefl in S.
Qed.
Print Assumptions C46_plain_sum_partial.
(** With center_correlation the offset m of the start times (in samples) is removed from the lags by shifting; there is
    no wrap-around as long as the zeros cover it as well. *)
Theorem C46_centered_partial : forall sr len offset m x y,
  let N := padded_len (length x) sr len in let s := sample_to_save sr len in
  (offset * sr == inject_Z m)%Q -> (1 <= length x)%nat -> length y = length x -> (1 <= s)%nat -> Z.even N = true ->
  (Z.of_nat (length x) + Z.of_nat s + Z.abs m <= N)%Z ->
  exists row, correlate_traces false true sr len offset x y = Ok row /\ length row = (2 * s + 1)%nat /\
    (start_lag true sr len offset == - inject_Z (Z.of_nat s) / sr)%Q /\
    forall i, (i < 2 * s + 1)%nat -> nth i row 0 = plain x y (Z.of_nat i - Z.of_nat s + m).
Proof.
  intros sr len offset m x y N s M L1 LY S1 EV B.
  destruct (correlate_traces_ok false true sr len offset m x y) as (row & E & LR & V); try assumption.
  - exact (remaining_center sr offset m M).
  - exists row. split; [exact E|]. split; [exact LR|]. split; [unfold start_lag, roffset; fold s; ring|].
    intros i I. rewrite V by exact I. fold s. unfold Rdiv. rewrite Rinv_1. ring.
Qed.
Print Assumptions C46_centered_partial.
(** The padded length is the smallest number without prime factors above 5 that is not below the sum of the trace
    length and the stored length. *)
Theorem C46_padded_length : forall npts sr len, let n := Qfloor (inject_Z (Z.of_nat npts) + sr * len) in (1 <= n)%Z ->
  (n <= padded_len npts sr len)%Z /\ smooth5 (padded_len npts sr len) = true /\
  forall k, (n <= k < padded_len npts sr len)%Z -> smooth5 k = false.
Proof.
  intros npts sr len n H. split; [apply next_fast_len_ge|]. split; [now apply next_fast_len_smooth|]. apply next_smooth_least.
Qed.
Print Assumptions C46_padded_length.
(** The same for the computation on any number of processes. *)
Theorem C46_parallel : forall (sadd : list cplx -> list cplx -> list cplx) szero cadd czero,
  (forall x, sadd szero x = x) -> (forall x, sadd x szero = x) -> (forall x, cadd czero x = x) -> (forall x, cadd x czero = x) ->
  forall normalize center sr len (offset : nat * nat -> Q) p npts (A : list (list R)) combis,
  (0 < p)%nat -> Forall (fun x => length x = npts) A -> Forall (fun c => (fst c < length A)%nat /\ (snd c < length A)%nat) combis ->
  let N := Z.to_nat (padded_len npts sr len) in
  pxcorr_matrix sadd szero cadd czero (fun x => rfft (zero_pad N x))
    (fun c B1 B2 => correlate_spectra normalize center N sr len (offset c) B1 B2) [] [] p A combis =
  Ok (map (fun c => correlate_traces normalize center sr len (offset c) (nth (fst c) A []) (nth (snd c) A [])) combis).
Proof.
  intros sadd szero cadd czero S1 S2 C1 C2 normalize center sr len offset p npts A combis P FA FC N.
  rewrite (pxcorr_matrix_eq sadd szero cadd czero _ _ [] [] S1 S2 C1 C2 (fun _ => True) (fun _ => True) (fun x => x) (fun x => x) (rc_nil _) (rc_nil _))
    by (auto; apply Forall_forall; auto).
  f_equal. apply map_ext_in. intros c I. rewrite Forall_forall in FC. destruct (FC c I) as [A1 A2].
  unfold spectrum. unfold correlate_traces.
  assert (L1 : length (nth (fst c) A []) = npts) by (rewrite Forall_forall in FA; apply FA; now apply nth_In). rewrite L1. fold N.
  rewrite (nth_indep _ szero (rfft (zero_pad N []))) by (rewrite map_length; exact A1).
  rewrite (map_nth (fun x => rfft (zero_pad N x))).
  rewrite (nth_indep _ szero (rfft (zero_pad N []))) by (rewrite map_length; exact A2).
  rewrite (map_nth (fun x => rfft (zero_pad N x))). reflexivity.
Qed.
Print Assumptions C46_parallel.

(** three samples at 1 Hz, three lags on both sides: six samples, even *)
Example C46_example : padded_len 3 1 3 = 6%Z /\ Z.even (padded_len 3 1 3) = true /\ sample_to_save 1 3 = 3%nat /\ (1 * 3 == inject_Z 3)%Q.
Proof. repeat split. Qed.
(** windows of one hour at 25 Hz and 25 s of lags: the padded length is odd *)
Example C46_odd_length : padded_len (Z.to_nat 90000) 25 25 = 91125%Z.
Proof. vm_compute. reflexivity. Qed.

(** With an odd padded length (here 5) the inverse transform has one sample less, and the result is not the sum of
    products. *)
Lemma odd_row : exists row, correlate_traces false false 1 2 0 [1; 0; 0] [0; 1; 0] = Ok row /\ nth 3 row 0 <> plain [1; 0; 0] [0; 1; 0] (3 - 2).
Proof.
  assert (P5 : Z.to_nat (padded_len 3 1 2) = 5%nat) by reflexivity.
  assert (S2 : sample_to_save 1 2 = 2%nat) by reflexivity.
  set (B := cross 5 (Q2R 1) (Q2R (0 - roffset false 1 0)) (rfft (zero_pad 5 [1; 0; 0])) (rfft (zero_pad 5 [0; 1; 0]))).
  exists (map (fun v => v / 1) [irfft_at B 2; irfft_at B 3; irfft_at B 0; irfft_at B 1; irfft_at B 2]).
  split; [unfold correlate_traces, correlate_spectra; cbn [length]; rewrite P5, S2; fold B; reflexivity|].
  cbn [map nth].
  assert (NB : forall k, (k < 3)%nat -> nth k B c0 = (cos (2 * PI * INR k / 5), - sin (2 * PI * INR k / 5))).
  { intros k K. unfold B, cross. rewrite nth_map_seq by exact K.
    assert (R1 : nth k (rfft (zero_pad 5 [1; 0; 0])) c0 = (1, 0)).
    { change (rfft (zero_pad 5 [1; 0; 0])) with (map (dft (zero_pad 5 [1; 0; 0])) (seq 0 3)). rewrite nth_map_seq by exact K.
      unfold dft. cbn [zero_pad app repeat length rsum nth Nat.sub]. unfold angle. cbn [INR]. rewrite !Rmult_0_r. unfold Rdiv. rewrite !Rmult_0_l, cos_0, sin_0. f_equal; ring. }
    assert (R2 : nth k (rfft (zero_pad 5 [0; 1; 0])) c0 = (cos (2 * PI * INR k / 5), - sin (2 * PI * INR k / 5))).
    { change (rfft (zero_pad 5 [0; 1; 0])) with (map (dft (zero_pad 5 [0; 1; 0])) (seq 0 3)). rewrite nth_map_seq by exact K.
      unfold dft. cbn [zero_pad app repeat length rsum nth Nat.sub].
      replace (angle 5 k 1) with (2 * PI * INR k / 5) by (unfold angle; cbn [INR]; field). f_equal; ring. }
    rewrite R1, R2. replace (Q2R (0 - roffset false 1 0)) with 0 by (unfold Q2R, roffset, qfix; cbn; lra).
    rewrite Rmult_0_r, !Rmult_0_l. unfold cexp. rewrite cos_0, sin_0. unfold cmul, cconj. cbn [fst snd]. f_equal; ring. }
  assert (LB : length B = 3%nat) by reflexivity.
  unfold irfft_at. rewrite LB. cbn [Nat.sub Nat.mul Nat.add rsum]. rewrite !NB by lia. cbn [fst snd].
  replace (angle 4 1 1) with (PI / 2) by (unfold angle; cbn [INR]; field). replace (angle 4 2 1) with PI by (unfold angle; cbn [INR]; field).
  rewrite cos_PI2, sin_PI2, cos_PI. replace (2 * PI * INR 0 / 5) with 0 by (cbn [INR]; unfold Rdiv; ring). rewrite cos_0.
  replace (2 * PI * INR 1 / 5) with (PI / 2 - PI / 10) by (cbn [INR]; field). rewrite sin_shift.
  replace (2 * PI * INR 2 / 5) with (- (PI / 5) + PI) by (cbn [INR]; field). rewrite neg_cos, cos_neg.
  assert (PL : plain [1; 0; 0] [0; 1; 0] (3 - 2) = 1) by (cbv -[Rplus Rmult IZR]; ring). rewrite PL.
  pose proof PI_RGT_0. assert (C1 : cos (PI / 10) < 1) by (rewrite <- cos_0; apply cos_decreasing_1; lra).
  assert (C2 : cos (PI / 5) < 1) by (rewrite <- cos_0; apply cos_decreasing_1; lra).
  cbn [INR]. lra.
Qed.
Theorem C46_odd_refuted : exists x y row, correlate_traces false false 1 2 0 x y = Ok row /\ length x = 3%nat /\ length y = 3%nat /\
  padded_len 3 1 2 = 5%Z /\ sample_to_save 1 2 = 2%nat /\ nth 3 row 0 <> plain x y (3 - 2).
Proof. destruct odd_row as (row & E & N). exists [1; 0; 0], [0; 1; 0], row. exact (conj E (conj eq_refl (conj eq_refl (conj eq_refl (conj eq_refl N))))). Qed.
Print Assumptions C46_odd_refuted.

(** If lengthToSave is not a whole number of samples, the outermost lags can contain products of samples from opposite
    ends of the traces. *)
Theorem C46_fraction_refuted : exists row, correlate_traces false false 1 (3 # 2) 0 [0; 0; 1] [1; 0; 0] = Ok row /\
  padded_len 3 1 (3 # 2) = 4%Z /\ sample_to_save 1 (3 # 2) = 2%nat /\
  nth 4 row 0 = 1 /\ plain [0; 0; 1] [1; 0; 0] (4 - 2) = 0.
Proof.
  assert (P4 : Z.to_nat (padded_len 3 1 (3 # 2)) = 4%nat) by reflexivity.
  destruct (correlate_rows false false 2 1 (3 # 2) 0 0 (zero_pad 4 [0; 0; 1]) (zero_pad 4 [1; 0; 0])) as (row & E & _ & V); try reflexivity.
  - lia.
  - vm_compute. lia.
  - vm_compute. lia.
  - unfold Q2R, roffset, qfix. cbn. lra.
  - exists row. split; [unfold correlate_traces; cbn [length]; rewrite P4; exact E|]. do 2 (split; [reflexivity|]). split.
    + rewrite V by (vm_compute; lia). cbv -[Rplus Rmult Rdiv Rinv IZR]. lra.
    + cbv -[Rplus Rmult IZR]. ring.
Qed.
Print Assumptions C46_fraction_refuted.
(** With center_correlation and a large offset of the start times the result wraps around. *)
Theorem C46_centered_refuted : exists row, correlate_traces false true 1 1 2 [0; 0; 1] [1; 0; 0] = Ok row /\
  nth 1 row 0 = 1 /\ plain [0; 0; 1] [1; 0; 0] (1 - 1 + 2) = 0.
Proof.
  assert (P4 : Z.to_nat (padded_len 3 1 1) = 4%nat) by reflexivity.
  destruct (correlate_rows false true 2 1 1 2 2 (zero_pad 4 [0; 0; 1]) (zero_pad 4 [1; 0; 0])) as (row & E & _ & V); try reflexivity.
  - lia.
  - vm_compute. lia.
  - apply remaining_center. reflexivity.
  - exists row. split; [unfold correlate_traces; cbn [length]; rewrite P4; exact E|]. split.
    + rewrite V by (vm_compute; lia). cbv -[Rplus Rmult Rdiv Rinv IZR]. lra.
    + cbv -[Rplus Rmult IZR]. ring.
Qed.
Print Assumptions C46_centered_refuted.
(** lengthToSave = 0 fails instead of giving the value at zero lag. *)
Theorem C46_zero_length_refuted : forall normalize center N sr offset B1 B2, (2 <= length B1)%nat ->
  correlate_spectra normalize center N sr 0 offset B1 B2 = Raise ValueError.
Proof.
  intros normalize center N sr offset B1 B2 L. unfold correlate_spectra.
  assert (S0 : sample_to_save sr 0 = O) by (unfold sample_to_save, Qceiling; cbn; reflexivity). rewrite S0.
  unfold cut, last_samples. cbn [Nat.eqb]. rewrite app_length, firstn_length, irfft_length, cross_length.
  replace (2 * (length B1 - 1) + Nat.min (0 + 1) (2 * (length B1 - 1)) =? 2 * 0 + 1)%nat with false; [reflexivity|].
  symmetry. apply Nat.eqb_neq. lia.
Qed.
Print Assumptions C46_zero_length_refuted.

(** ** C56 *)
(** Normalised correlations are between -1 and 1, whatever was done to the spectra, whatever the offsets and lengths,
    as long as the first spectral samples are real and the norm is not zero. *)
Theorem C56_bounded : forall center N sr len offset B1 B2 row v, (2 <= length B1)%nat -> length B2 = length B1 ->
  snd (nth 0 B1 c0) = 0 -> snd (nth 0 B2 c0) = 0 -> 0 < norm B1 B2 ->
  correlate_spectra true center N sr len offset B1 B2 = Ok row -> In v row -> -1 <= v <= 1.
Proof. exact normalized_bound. Qed.
Print Assumptions C56_bounded.
(** The first spectral sample of a trace is real. *)
Theorem C56_real : forall x, snd (nth 0 (rfft x) c0) = 0.
Proof.
  intros x. unfold rfft. rewrite nth_map_seq by lia. rewrite dft_eq. cbn [snd]. unfold sn. rewrite rsum_0; [ring|].
  intros j _. replace (angle (length x) 0 j) with 0 by (unfold angle; cbn [INR]; unfold Rdiv; ring). rewrite sin_0. ring.
Qed.
Print Assumptions C56_real.
(** The squared norm of a trace with itself is the sum of its squares plus the share of the Nyquist frequency, which is
    counted twice; so its correlation with itself is 1 at lag zero exactly if the Nyquist frequency is absent.
    Missing: signals with energy at the Nyquist frequency. *)
Theorem C56_autocorrelation_partial : forall h x, (1 <= h)%nat -> length x = (2 * h)%nat ->
  norm (rfft x) (rfft x) = sumsq x + abs2 (nth h (rfft x) c0) / INR (2 * h).
Proof.
  intros h x H L. unfold norm. rewrite (parseval h x H L). rewrite sqrt_sqrt.
  - rewrite rfft_length, L. replace (2 * (2 * h / 2 + 1 - 1))%nat with (2 * h)%nat by (rewrite (Nat.mul_comm 2 h), Nat.div_mul by lia; lia).
    field. apply not_0_INR. lia.
  - assert (0 <= sumsq x) by (apply rsum_nonneg; intros; nra). pose proof (abs2_nonneg (nth h (rfft x) c0)). pose proof (pos_INR (2 * h)). nra.
Qed.
Print Assumptions C56_autocorrelation_partial.
(** The correlation of a trace with itself is not always 1 at lag zero. *)
Theorem C56_autocorrelation_refuted : exists x row, correlate_traces true false 1 1 0 x x = Ok row /\ sample_to_save 1 1 = 1%nat /\
  length x = 1%nat /\ nth 1 row 0 = 2 / 3.
Proof.
  exists [1].
  assert (P2 : padded_len 1 1 1 = 2%Z) by reflexivity.
  destruct (correlate_traces_ok true false 1 1 0 0 [1] [1]) as (row & E & _ & V); try reflexivity.
  - unfold Q2R, roffset, qfix. cbn. lra.
  - exists row. split; [exact E|]. do 2 (split; [reflexivity|]). rewrite V by (vm_compute; lia). cbn [length]. rewrite P2.
    change (Z.to_nat 2) with 2%nat. change (zero_pad 2 [1]) with [1; 0].
    rewrite (C56_autocorrelation_partial 1 [1; 0]) by (reflexivity || lia).
    assert (A : abs2 (nth 1 (rfft [1; 0]) c0) = 1).
    { change (rfft [1; 0]) with (map (dft [1; 0]) (seq 0 2)). rewrite nth_map_seq by lia. unfold abs2, dft. cbn [length rsum nth fst snd].
      replace (angle 2 1 0) with 0 by (unfold angle; cbn [INR]; unfold Rdiv; ring). rewrite cos_0, sin_0. ring. }
    rewrite A. cbv -[Rplus Rmult Rdiv Rinv IZR]. field.
Qed.
Print Assumptions C56_autocorrelation_refuted.
Example C56_example : 0 < norm (rfft [1; 0]) (rfft [1; 0]) /\ length (rfft [1; 0]) = 2%nat.
Proof.
  split; [|reflexivity]. rewrite (C56_autocorrelation_partial 1 [1; 0]) by (reflexivity || lia).
  pose proof (abs2_nonneg (nth 1 (rfft [1; 0]) c0)) as A. set (a := abs2 _) in *.
  replace (INR (2 * 1)) with 2 by (cbn; ring). unfold sumsq. cbn [length rsum nth]. lra.
Qed.

(** ** C57 *)
(** Swapping the two traces mirrors the correlation, for arbitrary spectra, lengths and offsets. *)
Theorem C57_mirror : forall normalize center N sr len offset B1 B2, (2 <= length B1)%nat -> length B2 = length B1 ->
  correlate_spectra normalize center N sr len (- offset) B2 B1 =
  do row <- correlate_spectra normalize center N sr len offset B1 B2; Ok (rev row).
Proof. exact correlate_swap. Qed.
Print Assumptions C57_mirror.
(** ... and the lag axis: its start becomes the negative of its end. *)
Theorem C57_lag_axis : forall center sr len offset,
  (start_lag center sr len (- offset) == - (start_lag center sr len offset + inject_Z (2 * Z.of_nat (sample_to_save sr len)) / sr))%Q.
Proof. exact start_lag_swap. Qed.
Print Assumptions C57_lag_axis.
Example C57_example : let x := [1; 2; 0; 0] in let y := [3; 0; 1; 0] in
  (2 <= length (rfft x))%nat /\ length (rfft y) = length (rfft x) /\
  (start_lag false 2 5 (7 # 4) == - 5 - (3 # 2))%Q /\ (start_lag false 2 5 (- (7 # 4)) == - 5 + (3 # 2))%Q.
Proof. cbv zeta. rewrite !rfft_length. cbn [length]. repeat split; vm_compute; auto. Qed.
