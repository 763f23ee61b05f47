(** Filtering of spectra. *)
From Coq Require Import Reals QArith Qabs Lra Lia.
From Verif Require Import Lib.Base Model.Spectral Model.FDFilter Proofs.FDFilterFacts.
Local Open Scope Z_scope.

(** ** C139: FDfilter keeps f2 to f3, removes everything up to f1 and from f4 on, and tapers in between *)
(** Corner frequencies that are at least the spacing of the frequencies apart, up to the highest frequency. *)
Theorem C139_weights_partial : forall N sr f1 f2 f3 f4, (1 <= N)%nat -> (0 < sr)%Q ->
  let df := (sr / inject_Z (Z.of_nat N))%Q in let f k := (inject_Z (Z.of_nat k) * df)%Q in
  (0 <= f1)%Q -> (f1 + df <= f2)%Q -> (f2 <= f3)%Q -> (f3 + df <= f4)%Q -> (f4 <= f (N / 2)%nat)%Q ->
  exists w, frequency_taper (rfftfreq N sr) f1 f2 f3 f4 = Ok w /\ length w = (N / 2 + 1)%nat /\
    (forall k, (k <= N / 2)%nat -> (0 <= nth k w 0 <= 1)%R /\ ((f2 <= f k <= f3)%Q -> nth k w 0%R = 1%R) /\ ((f k <= f1)%Q \/ (f4 <= f k)%Q -> nth k w 0%R = 0%R)) /\
    (forall k l, (k <= l <= N / 2)%nat -> ((f l <= f3)%Q -> (nth k w 0 <= nth l w 0)%R) /\ ((f2 <= f k)%Q -> (nth l w 0 <= nth k w 0)%R)).
Proof.
  intros N sr f1 f2 f3 f4 HN Hsr df f H1 H12 H23 H34 H4. set (n := (N / 2 + 1)%nat).
  assert (Hdf : (0 < df)%Q). { unfold df. apply Qlt_shift_div_l; [change 0%Q with (inject_Z 0); rewrite <- Zlt_Qlt; lia|]. now rewrite Qmult_0_l. }
  assert (Hn : (1 <= n)%nat) by (unfold n; lia).
  assert (Hmax : (f4 <= inject_Z (Z.of_nat n - 1) * df)%Q). { replace (Z.of_nat n - 1) with (Z.of_nat (N / 2)) by (unfold n; lia). exact H4. }
  unfold frequency_taper. change (rfftfreq N sr) with (map (fun k => inject_Z (Z.of_nat k) * df)%Q (seq 0 n)). rewrite map_length, seq_length.
  pose proof (nearest_apart n df Hn Hdf f1 f2 H1 H12 ltac:(Lqa.lra)) as A12. pose proof (nearest_mono n df Hn Hdf f2 f3 H23) as A23. pose proof (nearest_apart n df Hn Hdf f3 f4 ltac:(Lqa.lra) H34 Hmax) as A34.
  destruct (nearest_spec n df Hn f1) as (R1 & _). destruct (nearest_spec n df Hn f2) as (R2 & _). destruct (nearest_spec n df Hn f3) as (R3 & _). destruct (nearest_spec n df Hn f4) as (R4 & _).
  set (fs := map (fun k => inject_Z (Z.of_nat k) * df)%Q (seq 0 n)) in *.
  destruct (Z.eqb_spec (nearest fs f1) (nearest fs f2)); [lia|]. destruct (Z.eqb_spec (nearest fs f3) (nearest fs f4)); [lia|].
  destruct (Z.leb_spec (Z.of_nat n) 0); [lia|]. destruct (Z.leb_spec (Z.of_nat n) (nearest fs f2)); [lia|]. destruct (Z.ltb_spec (nearest fs f3) 0); [lia|]. cbn [orb].
  eexists. split; [reflexivity|]. rewrite map_length, seq_length. split; [reflexivity|].
  assert (W : forall k, (k <= N / 2)%nat -> nth k (map (fun i => flank_weight (nearest fs f1) (nearest fs f2) (nearest fs f3) (nearest fs f4) (Z.of_nat i)) (seq 0 n)) 0%R =
    flank_weight (nearest fs f1) (nearest fs f2) (nearest fs f3) (nearest fs f4) (Z.of_nat k)).
  { intros k K. rewrite (nth_indep _ 0%R (flank_weight (nearest fs f1) (nearest fs f2) (nearest fs f3) (nearest fs f4) (Z.of_nat 0))) by (rewrite map_length, seq_length; unfold n; lia).
    rewrite (map_nth (fun i => flank_weight (nearest fs f1) (nearest fs f2) (nearest fs f3) (nearest fs f4) (Z.of_nat i)) (seq 0 n) 0%nat k). rewrite seq_nth by (unfold n; lia). reflexivity. }
  split.
  - intros k K. rewrite W by exact K. assert (Kn : 0 <= Z.of_nat k < Z.of_nat n) by (unfold n; lia). split; [apply weight_bounds|]. split.
    + intros [P Q]. apply weight_pass; [lia|lia|lia|]. split; [apply (nearest_above n df Hn Hdf f2 (Z.of_nat k) Kn P)|apply (nearest_below n df Hn Hdf f3 (Z.of_nat k) Kn Q)].
    + intros P. apply weight_stop; [lia|lia|lia|]. destruct P as [P|P]; [left; apply (nearest_below n df Hn Hdf f1 (Z.of_nat k) Kn P)|right; apply (nearest_above n df Hn Hdf f4 (Z.of_nat k) Kn P)].
  - intros k l K. rewrite !W by lia. assert (Kn : 0 <= Z.of_nat k < Z.of_nat n) by (unfold n; lia). assert (Ln : 0 <= Z.of_nat l < Z.of_nat n) by (unfold n; lia). split; intros P.
    + apply weight_up; [lia|lia|lia|]. pose proof (nearest_below n df Hn Hdf f3 (Z.of_nat l) Ln P) as Q. fold fs in Q. lia.
    + apply weight_down; [lia|lia|lia|]. pose proof (nearest_above n df Hn Hdf f2 (Z.of_nat k) Kn P) as Q. fold fs in Q. lia.
Qed.
Print Assumptions C139_weights_partial.
(** All spectra are multiplied with these weights: amplitudes are scaled and phases stay. *)
Theorem C139_rows : forall freqs f1 f2 f3 f4 B w, frequency_taper freqs f1 f2 f3 f4 = Ok w ->
  exists B', fd_filter freqs f1 f2 f3 f4 B = Ok B' /\ length B' = length B /\ forall i b, nth_error B i = Some b -> length b = length freqs -> exists b', nth_error B' i = Some b' /\
    length b' = length b /\ forall k, (k < length b)%nat -> nth k b' c0 = ((fst (nth k b c0) * nth k w 0)%R, (snd (nth k b c0) * nth k w 0)%R).
Proof.
  intros freqs f1 f2 f3 f4 B w E. unfold fd_filter. rewrite E. cbn [bind]. eexists. split; [reflexivity|]. split; [now rewrite map_length|].
  intros i b I L. rewrite (map_nth_error _ _ _ I). eexists. split; [reflexivity|].
  assert (LW : length w = length freqs). { unfold frequency_taper in E. destruct (_ || _); [discriminate|]. injection E as <-. now rewrite map_length, seq_length. }
  rewrite map_length, combine_length, L, LW, Nat.min_id. split; [reflexivity|]. intros k K.
  rewrite (nth_indep _ c0 (cscale (fst (c0, 0%R)) (snd (c0, 0%R)))) by (rewrite map_length, combine_length; lia).
  rewrite (map_nth (fun p => cscale (fst p) (snd p))), combine_nth by lia. reflexivity.
Qed.
Print Assumptions C139_rows.
Example C139_example : frequency_taper (rfftfreq 12 12) 1 3 4 5 = Ok [0; (1 - cos (PI * 0 / 2)) / 2; (1 - cos (PI * 1 / 2)) / 2; (1 - cos (PI * 2 / 2)) / 2; (1 + cos (PI * 0 / 1)) / 2; (1 + cos (PI * -1 / 1)) / 2; 0]%R.
Proof. reflexivity. Qed.
(** A corner f4 above the highest frequency: the highest frequency is removed, even if f3 is above it as well. *)
Theorem C139_above_refuted : forall N sr f1 f2 f3 f4 w, (2 <= N)%nat -> (0 < sr)%Q -> (inject_Z (Z.of_nat (N / 2)) * (sr / inject_Z (Z.of_nat N)) <= f4)%Q ->
  frequency_taper (rfftfreq N sr) f1 f2 f3 f4 = Ok w -> nth (N / 2) w 1%R = 0%R.
Proof.
  intros N sr f1 f2 f3 f4 w HN Hsr H4. set (df := (sr / inject_Z (Z.of_nat N))%Q) in *. set (n := (N / 2 + 1)%nat).
  assert (Hdf : (0 < df)%Q). { unfold df. apply Qlt_shift_div_l; [change 0%Q with (inject_Z 0); rewrite <- Zlt_Qlt; lia|]. now rewrite Qmult_0_l. }
  assert (Hn : (1 <= n)%nat) by (unfold n; lia).
  assert (Hmax : (inject_Z (Z.of_nat n - 1) * df <= f4)%Q). { replace (Z.of_nat n - 1) with (Z.of_nat (N / 2)) by (unfold n; lia). exact H4. }
  unfold frequency_taper. change (rfftfreq N sr) with (map (fun k => inject_Z (Z.of_nat k) * df)%Q (seq 0 n)). rewrite map_length, seq_length.
  destruct (nearest_spec n df Hn f3) as (R3 & _). pose proof (nearest_high n df Hn Hdf f4 Hmax) as E4.
  set (fs := map (fun k => inject_Z (Z.of_nat k) * df)%Q (seq 0 n)) in *. rewrite E4.
  set (i3 := if nearest fs f3 =? Z.of_nat n - 1 then nearest fs f3 - 1 else nearest fs f3). assert (I3 : i3 < Z.of_nat n - 1) by (unfold i3; destruct (Z.eqb_spec (nearest fs f3) (Z.of_nat n - 1)); lia).
  destruct (_ || _); [discriminate|]. intros E. injection E as <-.
  rewrite (nth_indep _ 1%R (flank_weight (nearest fs f1) (if nearest fs f1 =? nearest fs f2 then nearest fs f2 + 1 else nearest fs f2) i3 (Z.of_nat n - 1) (Z.of_nat 0))) by (rewrite map_length, seq_length; unfold n; lia).
  rewrite (map_nth (fun i => flank_weight _ _ i3 (Z.of_nat n - 1) (Z.of_nat i)) (seq 0 n) 0%nat (N / 2)). rewrite seq_nth by (unfold n; lia). rewrite Nat.add_0_l.
  replace (Z.of_nat (N / 2)) with (Z.of_nat n - 1) by (unfold n; lia). unfold flank_weight.
  destruct (Z.leb_spec i3 (Z.of_nat n - 1)); [|lia]. destruct (Z.leb_spec (Z.of_nat n - 1) (Z.of_nat n - 1)); [|lia]. cbn [andb].
  replace (i3 - (Z.of_nat n - 1)) with (- (Z.of_nat n - 1 - i3)) by lia. rewrite opp_IZR.
  replace (PI * - IZR (Z.of_nat n - 1 - i3) / IZR (Z.of_nat n - 1 - i3))%R with (- PI)%R by (field; apply not_0_IZR; lia). rewrite cos_neg, cos_PI. lra.
Qed.
Print Assumptions C139_above_refuted.
(** frequencies 0, 1, ..., 6, to be kept from 2 on *)
Example C139_above_example : exists w, frequency_taper (rfftfreq 12 12) 1 2 20 30 = Ok w /\ nth 6 w 1%R = 0%R /\ (2 <= 6 <= 20)%Q.
Proof. eexists. split; [reflexivity|]. split; [apply (C139_above_refuted 12 12 1 2 20 30); [lia|reflexivity|discriminate|reflexivity]|split; discriminate]. Qed.
(** Corners f1 and f2 that are closer than the spacing: a frequency of the pass band is removed. *)
Theorem C139_narrow_refuted : forall N sr f1 f2 f3 f4 k w, (2 <= N)%nat -> (0 < sr)%Q ->
  let df := (sr / inject_Z (Z.of_nat N))%Q in let f k := (inject_Z (Z.of_nat k) * df)%Q in
  (k < N / 2)%nat -> (f k - df * (1 # 2) < f1)%Q -> (f1 <= f2)%Q -> (f2 <= f k)%Q -> (f (S k) <= f3)%Q -> (f3 + df <= f4)%Q -> (f4 <= f (N / 2)%nat)%Q ->
  frequency_taper (rfftfreq N sr) f1 f2 f3 f4 = Ok w -> nth k w 1%R = 0%R.
Proof.
  intros N sr f1 f2 f3 f4 k w HN Hsr df f K H1 H12 H2 H3 H34 H4. set (n := (N / 2 + 1)%nat).
  assert (Hdf : (0 < df)%Q). { unfold df. apply Qlt_shift_div_l; [change 0%Q with (inject_Z 0); rewrite <- Zlt_Qlt; lia|]. now rewrite Qmult_0_l. }
  assert (Hn : (1 <= n)%nat) by (unfold n; lia).
  assert (Hmax : (f4 <= inject_Z (Z.of_nat n - 1) * df)%Q). { replace (Z.of_nat n - 1) with (Z.of_nat (N / 2)) by (unfold n; lia). exact H4. }
  assert (Pk : (0 <= f k)%Q). { unfold f. apply Qmult_le_0_compat; [change 0%Q with (inject_Z 0); rewrite <- Zle_Qle; lia|Lqa.lra]. }
  assert (Sk : (f (S k) == f k + df)%Q). { unfold f. rewrite Nat2Z.inj_succ. unfold Z.succ. rewrite inject_Z_plus. unfold inject_Z at 2. ring. }
  assert (Kn : 0 <= Z.of_nat k < Z.of_nat n) by (unfold n; lia). assert (Sn : 0 <= Z.of_nat (S k) < Z.of_nat n) by (unfold n; lia).
  unfold frequency_taper. change (rfftfreq N sr) with (map (fun k => inject_Z (Z.of_nat k) * df)%Q (seq 0 n)). rewrite map_length, seq_length.
  assert (NE : forall g, (f k - df * (1 # 2) < g)%Q -> (g <= f k)%Q -> nearest (map (fun k => inject_Z (Z.of_nat k) * df)%Q (seq 0 n)) g = Z.of_nat k).
  { intros g G1 G2. pose proof (nearest_above n df Hn Hdf g (Z.of_nat k) Kn G2) as A. destruct (nearest_spec n df Hn g) as (B & C & D). set (j := nearest _ g) in *.
    destruct (Z.eq_dec j (Z.of_nat k)) as [|NE]; [assumption|]. exfalso. assert (J : j < Z.of_nat k) by lia. specialize (C (Z.of_nat k) Kn).
    pose proof (fr_mono df Hdf (j + 1) (Z.of_nat k) ltac:(lia)) as M. pose proof (fr_succ df j) as S'. fold (f k) in C, M. revert C. apply (Qabs_case (inject_Z j * df - g)); intros X1; apply (Qabs_case (f k - g)); intros X2 C; Lqa.lra. }
  pose proof (NE f1 H1 ltac:(Lqa.lra)) as E1. pose proof (NE f2 ltac:(Lqa.lra) H2) as E2.
  pose proof (nearest_below n df Hn Hdf f3 (Z.of_nat (S k)) Sn H3) as E3. pose proof (nearest_apart n df Hn Hdf f3 f4 ltac:(Lqa.lra) H34 Hmax) as A34. clear NE.
  set (fs := map (fun k => inject_Z (Z.of_nat k) * df)%Q (seq 0 n)) in *. rewrite E1, E2, Z.eqb_refl. destruct (Z.eqb_spec (nearest fs f3) (nearest fs f4)); [lia|].
  destruct (_ || _); [discriminate|]. intros E. injection E as <-.
  rewrite (nth_indep _ 1%R (flank_weight (Z.of_nat k) (Z.of_nat k + 1) (nearest fs f3) (nearest fs f4) (Z.of_nat 0))) by (rewrite map_length, seq_length; unfold n; lia).
  rewrite (map_nth (fun i => flank_weight _ _ _ _ (Z.of_nat i)) (seq 0 n) 0%nat k). rewrite seq_nth by (unfold n; lia). rewrite Nat.add_0_l.
  apply weight_stop; lia.
Qed.
Print Assumptions C139_narrow_refuted.
(** the frequency 2 is removed although it is not below f2 = 2 *)
Example C139_narrow_example : exists w, frequency_taper (rfftfreq 12 12) (19 # 10) 2 4 5 = Ok w /\ nth 2 w 1%R = 0%R.
Proof. eexists. split; [reflexivity|]. apply (C139_narrow_refuted 12 12 (19 # 10) 2 4 5 2); try reflexivity; try discriminate; lia. Qed.
