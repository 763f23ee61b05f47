(** C48, C51: tapering the centre and changing the sampling rate of the lag axis. *)
From Coq Require Import QArith Qround Qabs.
From Verif Require Import Lib.Base Model.CorrStream Model.LagMatrix Model.Resampling Spec.LagSpec Spec.ResamplingSpec
  Proofs.ResamplingFacts Proofs.CenterFacts.
Local Open Scope nat_scope.

(** ** C48 *)
(** Full statement: for every lag axis and every width up to the length of the matrix, the samples around zero lag are
    multiplied by the taper and the others are unchanged.  Proved if the window [fits]: it lies within the axis, or
    reaches beyond its end by more than one sample, or covers the whole axis.  [z] is the number of the sample at zero lag.
    Otherwise there is an exception (C48_does_not_fit_refuted). *)
Theorem C48_tapered_partial : forall tap, (forall n, length (tap n) = n) -> forall data h width frac z,
  (forall row, In row data -> length row = h_npts h) -> (0 < h_sr h)%Q ->
  (0 < width <= inject_Z (Z.of_nat (h_npts h)) / h_sr h)%Q -> (0 < frac <= 1)%Q ->
  (- h_lag h * h_sr h == inject_Z z)%Q -> (0 <= z < Z.of_nat (h_npts h))%Z ->
  fits (half_width h width) z (h_npts h) ->
  exists data', taper_center tap data h width frac = Ok data' /\
    Forall2 (tapered_row tap (half_width h width) (slope_width h width frac) z) data data'.
Proof. exact center_ok. Qed.
Print Assumptions C48_tapered_partial.
(** in all other cases there is an exception *)
Theorem C48_does_not_fit_refuted : forall tap, (forall n, length (tap n) = n) -> forall data h width frac z,
  (forall row, In row data -> length row = h_npts h) -> (0 < h_sr h)%Q ->
  (0 < width <= inject_Z (Z.of_nat (h_npts h)) / h_sr h)%Q -> (0 < frac <= 1)%Q ->
  (- h_lag h * h_sr h == inject_Z z)%Q -> (0 <= z < Z.of_nat (h_npts h))%Z ->
  ~ fits (half_width h width) z (h_npts h) -> data <> [] ->
  taper_center tap data h width frac = Raise ValueError.
Proof. exact center_fails. Qed.
Print Assumptions C48_does_not_fit_refuted.
(** no slope: always an exception *)
Theorem C48_no_slope_refuted : forall tap data h width, (forall n, length (tap n) = n) -> (0 < h_sr h)%Q ->
  (0 < width <= inject_Z (Z.of_nat (h_npts h)) / h_sr h)%Q -> taper_center tap data h width 0 = Raise ValueError.
Proof. exact no_slope. Qed.
Print Assumptions C48_no_slope_refuted.

Definition ex_tap (n : nat) : list Q := map (fun k => (inject_Z (Z.of_nat (Nat.min (S k) (n - k))) / inject_Z (Z.of_nat (S n)))%Q) (seq 0 n).
Definition ones (n : nat) : list sample := repeat (Some 1%Q) n.
Example C48_example :
  (forall n, length (ex_tap n) = n) /\
  fits (half_width (mkH (-4) 1 9 [] []) 4) 4 9 /\
  match taper_center ex_tap [ones 9] (mkH (-4) 1 9 [] []) 4 1 with
  | Ok [row] => map (option_map Qred) row = map (fun q => Some q) [1; 1; 2 # 5; 1 # 5; 0; 1 # 5; 2 # 5; 1; 1]%Q
  | _ => False end /\
  (** after mirroring, zero lag is the first sample *)
  taper_center ex_tap [ones 9] (mkH 0 1 9 [] []) 4 1 = Raise ValueError /\
  (** lags -4, ..., 3 and the full width *)
  taper_center ex_tap [ones 8] (mkH (-4) 1 8 [] []) 8 1 = Raise ValueError.
Proof.
  split; [intros n; unfold ex_tap; now rewrite map_length, seq_length|]. split; [left; vm_compute; split; discriminate|].
  repeat split; vm_compute; reflexivity.
Qed.

(** ** C51 *)
(** Full statement: the decimated row consists of the filtered samples number 0, factor, 2*factor, ... up to the last one,
    and the header describes their lags.  Proved without the last of these samples, which is dropped (C51_last_lag_refuted).
    [lf] is the low pass along a row. *)
Theorem C51_decimated_partial : forall lf data h factor data' h', keeps_length lf -> (0 < h_sr h)%Q -> (1 < factor)%Z ->
  decimate lf data h factor = Ok (data', h') ->
  length data' = length data /\ h_npts h' = (h_npts h + Z.to_nat factor - 1) / Z.to_nat factor - 1 /\
  (h_sr h' == h_sr h / inject_Z factor)%Q /\ h_lag h' = h_lag h /\
  (forall k, lag_at h' k == lag_at h (k * Z.to_nat factor))%Q /\
  (forall i row, nth_error data i = Some row -> length row = h_npts h -> exists row', nth_error data' i = Some row' /\ length row' = h_npts h' /\
     forall k, k < h_npts h' -> nth_error row' k = nth_error (filtered lf row) (k * Z.to_nat factor)).
Proof. exact decimate_ok. Qed.
Print Assumptions C51_decimated_partial.
(** the next multiple of the factor is a sample of the input, but not of the output, for every matrix that is not empty *)
Theorem C51_last_lag_refuted : forall lf data h factor data' h', keeps_length lf -> (1 < factor)%Z -> 0 < h_npts h ->
  decimate lf data h factor = Ok (data', h') ->
  let f := Z.to_nat factor in
  h_npts h' * f < h_npts h /\ forall row', In row' data' -> (forall row, In row data -> length row = h_npts h) -> nth_error row' (h_npts h') = None.
Proof. exact decimate_last_lost. Qed.
Print Assumptions C51_last_lag_refuted.
(** a factor of one changes nothing, a smaller one is refused *)
Theorem C51_factor_one : forall lf data h, decimate lf data h 1 = Ok (data, h).
Proof. reflexivity. Qed.
Print Assumptions C51_factor_one.
Theorem C51_factor_refused : forall lf data h factor, (factor < 1)%Z -> decimate lf data h factor = Raise ValueError.
Proof. intros lf data h factor H. unfold decimate. destruct (Z.ltb_spec factor 1); [reflexivity|lia]. Qed.
Print Assumptions C51_factor_refused.
(** Other rates: n samples that last as long as m new samples are handed to the resampling, so that the new samples are
    1/freq apart, and the first floor(npts*freq/sr) of them are kept.  [filt] and [rs] are scipy's filter and resample. *)
Theorem C51_resampled : forall filt rs data h freq data' h', (0 < h_sr h)%Q -> (0 < freq)%Q -> (freq < h_sr h)%Q ->
  (forall row, length (filt row) = length row) -> (forall m row, length (rs m row) = m) ->
  resample_time filt rs data h freq = Ok (data', h') ->
  h_lag h' = h_lag h /\ h_sr h' = freq /\ h_npts h' = Z.to_nat (Qfloor (inject_Z (Z.of_nat (h_npts h)) * freq / h_sr h)) /\
  exists n m, (inject_Z (Z.of_nat n) / h_sr h == inject_Z (Z.of_nat m) / freq)%Q /\ h_npts h' <= m /\
    Forall2 (fun row row' => length row = h_npts h -> length row' = h_npts h' /\
       exists padded, length padded = n /\ firstn (length row) padded = filt row /\ (forall v, In v (skipn (length row) padded) -> v = Some 0%Q) /\
         row' = firstn (h_npts h') (rs m padded)) data data'.
Proof. exact resample_time_ok. Qed.
Print Assumptions C51_resampled.
(** the search for n and m ends; it fails only if there are no such numbers within twice the new length *)
Theorem C51_resample_fails : forall filt rs data h freq e, (0 < h_sr h)%Q -> (0 < freq)%Q -> (freq < h_sr h)%Q ->
  resample_time filt rs data h freq = Raise e ->
  e = TypeError /\
  let num := Z.to_nat (Qfloor (inject_Z (Z.of_nat (h_npts h)) * freq / h_sr h)) in
  ~ exists k m, num <= k <= 2 * num /\ h_npts h <= m /\ (inject_Z (Z.of_nat k) / freq == inject_Z (Z.of_nat m) / h_sr h)%Q.
Proof. exact resample_time_fails. Qed.
Print Assumptions C51_resample_fails.
(** whole ratios are decimated, higher rates are refused *)
Theorem C51_choice : forall lf filt rs data h freq k, (0 < freq)%Q -> (h_sr h == inject_Z k * freq)%Q ->
  resample_or_decimate lf filt rs data h freq = decimate lf data h k.
Proof.
  intros lf filt rs data h freq k Hf HE. unfold resample_or_decimate.
  assert (E : (h_sr h / freq == inject_Z k)%Q) by (rewrite HE; field; intros C; rewrite C in Hf; discriminate).
  rewrite (Qfloor_comp _ _ E), Qfloor_Z. assert (Qeq_bool (h_sr h / freq) (inject_Z k) = true) as -> by now apply Qeq_bool_iff. reflexivity.
Qed.
Print Assumptions C51_choice.
Theorem C51_higher_rate : forall lf filt rs data h freq, (0 < h_sr h)%Q -> (h_sr h < freq)%Q ->
  resample_or_decimate lf filt rs data h freq = Raise ValueError.
Proof.
  intros lf filt rs data h freq Hs Hf. unfold resample_or_decimate.
  assert (Hq : (0 < h_sr h / freq < 1)%Q).
  { assert (0 < freq)%Q by (eapply Qlt_trans; eauto). split; [apply Qlt_shift_div_l; auto; now rewrite Qmult_0_l|].
    apply Qlt_shift_div_r; auto. now rewrite Qmult_1_l. }
  destruct (Qeq_bool _ _) eqn:E.
  - exfalso. apply Qeq_bool_iff in E. rewrite E in Hq. destruct Hq as [H0 H1]. change 0%Q with (inject_Z 0) in H0. change 1%Q with (inject_Z 1) in H1.
    rewrite <- Zlt_Qlt in H0, H1. lia.
  - unfold resample_time. destruct (Qle_bool freq (h_sr h)) eqn:L; [|reflexivity]. apply Qle_bool_iff in L. now apply Qlt_not_le in Hf.
Qed.
Print Assumptions C51_higher_rate.

Example C51_example :
  let row := map (fun k => Some (inject_Z (Z.of_nat k))) (seq 0 11) in
  let h := mkH (-5) 1 11 [] [] in
  (** lags -5, ..., 5: every second sample, but not the one at lag 5 *)
  decimate (fun x => x) [row] h 2 = Ok ([map (fun k => Some (inject_Z (Z.of_nat k))) [0; 2; 4; 6; 8]], mkH (-5) (1 / inject_Z 2) 5 [] []) /\
  keeps_length (fun x => x) /\
  (** from 1 Hz to 0.4 Hz: 15 samples last as long as 6 new ones *)
  match_lengths 11 4 1 (2 # 5) (match_fuel 11 4 1 (2 # 5)) 0 0 = Ok (2, 4) /\
  resample_time (fun x => x) (fun m _ => repeat None m) [row] h (2 # 5) = Ok ([repeat None 4], mkH (-5) (2 # 5) 4 [] []).
Proof. repeat split; vm_compute; reflexivity. Qed.
