From Coq Require Import Reals QArith Qround Qreals Lra Lia.
From Verif Require Import Lib.Base Model.Spectral Model.TimeDomain Model.CorrStream Model.LagMatrix Model.Amplitude
  Spec.AmplitudeSpec Proofs.SpectralFacts Proofs.ArchiveFacts Proofs.ClipFacts.
Local Open Scope R_scope.

(** ** weights of obspy's taper for a flank of [f] samples, 2 f <= npts *)
Definition ramp (m k : Z) : R := (1 - cos (PI * IZR k / IZR m)) / 2.
Definition top (f : Z) : Z := if (f - 1 =? 0)%Z then 1%Z else (f - 1)%Z.
Lemma weight_eq n f i : (0 <= f)%Z -> (3 <= n)%nat -> (2 * f <= Z.of_nat n)%Z -> (i < n)%nat ->
  cosine_weight n f i = let k := Z.min (Z.of_nat i) (Z.of_nat n - 1 - Z.of_nat i) in if (k <=? top f)%Z then ramp (top f) k else 1.
Proof.
  intros F N H I. unfold cosine_weight. fold (top f).
  assert (E3 : (if (Z.of_nat n - f =? Z.of_nat n - 1)%Z then (Z.of_nat n - f - 1)%Z else (Z.of_nat n - f)%Z) = (Z.of_nat n - 1 - top f)%Z).
  { unfold top. destruct (Z.eqb_spec (Z.of_nat n - f) (Z.of_nat n - 1)), (Z.eqb_spec (f - 1) 0); lia. }
  rewrite E3. clear E3. assert (T : (top f = -1 \/ 1 <= top f)%Z /\ (2 * top f + 1 <= Z.of_nat n)%Z).
  { unfold top. destruct (Z.eqb_spec (f - 1) 0); lia. }
  cbv zeta. set (m := top f) in *. set (z := Z.of_nat i). set (nn := Z.of_nat n) in *. assert (Z0 : (0 <= z < nn)%Z) by (unfold z, nn; lia).
  assert (K3 : nn = 3%Z -> m = 1%Z \/ m = (-1)%Z) by lia.
  rewrite (proj2 (Z.leb_le z (nn - 1))) by lia. rewrite andb_true_r.
  destruct (Z.leb_spec (nn - 1 - m) z) as [A|A].
  - rewrite (proj2 (Z.leb_le _ m)) by lia. assert (M : (1 <= m)%Z) by lia.
    assert (R : forall k, (0 <= k <= m)%Z -> (1 + cos (PI * IZR (k - m) / IZR m)) / 2 = ramp m k).
    { intros k _. unfold ramp. assert (IZR m <> 0) by (apply not_0_IZR; lia).
      replace (PI * IZR (k - m) / IZR m) with (PI * IZR k / IZR m - PI) by (rewrite minus_IZR; field; assumption).
      rewrite cos_minus, cos_PI, sin_PI. lra. }
    replace (nn - 1 - m - z)%Z with ((nn - 1 - z) - m)%Z by lia. replace (nn - 1 - (nn - 1 - m))%Z with m by lia.
    rewrite R by lia. destruct (Z.le_gt_cases (nn - 1 - z) z) as [B|B]; [now rewrite Z.min_r|].
    assert (z = m /\ nn - 1 - z = m + 1 \/ z = m /\ nn - 1 - z = m)%Z as [[-> ->]|[-> ->]] by lia; [lia|]. now rewrite Z.min_id.
  - rewrite (proj2 (Z.ltb_lt z (nn - 1 - m))) by lia. rewrite andb_true_r. destruct (Z.ltb_spec m z) as [B|B].
    + rewrite (proj2 (Z.leb_gt _ m)) by lia. reflexivity.
    + rewrite (proj2 (Z.leb_le z m)) by lia. rewrite (proj2 (Z.leb_le _ m)) by lia. rewrite Z.min_l by lia. reflexivity.
Qed.
Lemma ramp_bounds m k : 0 <= ramp m k <= 1. Proof. unfold ramp. pose proof (COS_bound (PI * IZR k / IZR m)). lra. Qed.
Lemma ramp_0 m : ramp m 0 = 0. Proof. unfold ramp, Rdiv. rewrite Rmult_0_r, Rmult_0_l, cos_0. lra. Qed.
Lemma ramp_top m : (1 <= m)%Z -> ramp m m = 1.
Proof. intros M. unfold ramp. assert (IZR m <> 0) by (apply not_0_IZR; lia). replace (PI * IZR m / IZR m) with PI by (field; assumption). rewrite cos_PI. lra. Qed.
Lemma ramp_mono m j k : (0 <= j <= k)%Z -> (k <= m)%Z -> ramp m j <= ramp m k.
Proof.
  intros J K. destruct (Z.eq_dec m 0) as [->|M0]. { assert (j = k) as -> by lia. lra. }
  assert (M : 0 < IZR m) by (apply IZR_lt; lia). unfold ramp.
  assert (cos (PI * IZR k / IZR m) <= cos (PI * IZR j / IZR m)); [|lra].
  assert (Q : forall i, (0 <= i <= m)%Z -> 0 <= PI * IZR i / IZR m <= PI).
  { intros i [I1 I2]. apply IZR_le in I1, I2. pose proof PI_RGT_0. split.
    - apply Rmult_le_pos; [apply Rmult_le_pos; lra|]. left. now apply Rinv_0_lt_compat.
    - apply Rmult_le_reg_r with (IZR m); [assumption|]. unfold Rdiv. rewrite Rmult_assoc, Rinv_l by lra. rewrite Rmult_1_r. apply Rmult_le_compat_l; lra. }
  apply cos_decr_1; try apply Q; try lia. unfold Rdiv. apply Rmult_le_compat_r; [left; now apply Rinv_0_lt_compat|].
  apply Rmult_le_compat_l; [pose proof PI_RGT_0; lra|]. apply IZR_le. lia.
Qed.
Section W.
  Variables (n : nat) (f : Z).
  Hypotheses (F : (0 <= f)%Z) (N : (3 <= n)%nat) (H : (2 * f <= Z.of_nat n)%Z).
  Lemma weight_bounds i : 0 <= cosine_weight n f i <= 1.
  Proof.
    unfold cosine_weight. destruct (_ && _). { match goal with |- context [cos ?x] => pose proof (COS_bound x) end. lra. }
    destruct (_ && _); [lra|]. destruct (_ <=? _)%Z; [|lra]. match goal with |- context [cos ?x] => pose proof (COS_bound x) end. lra.
  Qed.
  Lemma weight_inside i : (f <= Z.of_nat i < Z.of_nat n - f)%Z -> cosine_weight n f i = 1.
  Proof.
    intros I. rewrite weight_eq by (try assumption; lia). cbv zeta. destruct (Z.leb_spec (Z.min (Z.of_nat i) (Z.of_nat n - 1 - Z.of_nat i)) (top f)) as [A|A]; [|reflexivity].
    assert (Z.min (Z.of_nat i) (Z.of_nat n - 1 - Z.of_nat i) = top f /\ 1 <= top f)%Z as [-> T].
    { revert A. unfold top. destruct (Z.eqb_spec (f - 1) 0); lia. }
    now apply ramp_top.
  Qed.
  Lemma weight_ends : (1 <= f)%Z -> cosine_weight n f 0 = 0 /\ cosine_weight n f (n - 1) = 0.
  Proof.
    intros G. rewrite !weight_eq by (try assumption; lia). cbv zeta.
    replace (Z.min (Z.of_nat 0) (Z.of_nat n - 1 - Z.of_nat 0)) with 0%Z by lia.
    replace (Z.min (Z.of_nat (n - 1)) (Z.of_nat n - 1 - Z.of_nat (n - 1))) with 0%Z by lia.
    rewrite (proj2 (Z.leb_le 0 (top f))) by (unfold top; destruct (_ =? _)%Z; lia). split; apply ramp_0.
  Qed.
  Lemma weight_sym i : (i < n)%nat -> cosine_weight n f (n - 1 - i) = cosine_weight n f i.
  Proof.
    intros I. rewrite !weight_eq by (try assumption; lia). cbv zeta.
    replace (Z.of_nat (n - 1 - i)) with (Z.of_nat n - 1 - Z.of_nat i)%Z by lia.
    replace (Z.of_nat n - 1 - (Z.of_nat n - 1 - Z.of_nat i))%Z with (Z.of_nat i) by lia. now rewrite Z.min_comm.
  Qed.
  Lemma weight_mono i j : (i <= j)%nat -> (2 * j < n)%nat -> cosine_weight n f i <= cosine_weight n f j.
  Proof.
    intros I J. rewrite !weight_eq by (try assumption; lia). cbv zeta. rewrite !Z.min_l by lia.
    destruct (Z.leb_spec (Z.of_nat i) (top f)), (Z.leb_spec (Z.of_nat j) (top f)); try lia; try lra; [apply ramp_mono; lia|apply ramp_bounds].
  Qed.
End W.

(** ** the number of samples of the flank *)
Lemma floor_double (x : Q) (n : Z) : (2 * x < inject_Z n + 1)%Q -> (2 * Qfloor x <= n)%Z.
Proof.
  intros H. pose proof (Qfloor_le x) as A. assert (Q : (inject_Z (2 * Qfloor x) < inject_Z (n + 1))%Q).
  { rewrite inject_Z_mult, inject_Z_plus. change (inject_Z 2) with 2%Q. change (inject_Z 1) with 1%Q. Lqa.lra. }
  rewrite <- Zlt_Qlt in Q. lia.
Qed.
Lemma floor_nonneg (x : Q) : (0 <= x)%Q -> (0 <= Qfloor x)%Z.
Proof. intros H. change 0%Z with (Qfloor 0). now apply Qfloor_resp_le. Qed.
Lemma flank_spec n (p : Q) : (0 <= p)%Q -> (p <= 1)%Q -> (0 <= flank n p)%Z /\ (2 * flank n p <= Z.of_nat n)%Z.
Proof.
  intros P0 P1. unfold flank. set (nq := inject_Z (Z.of_nat n)).
  assert (Nn : (0 <= nq)%Q) by (unfold nq; rewrite <- (Zle_Qle 0); lia).
  assert (D : (nq * p / 2 == nq * p * (1 # 2))%Q) by reflexivity.
  assert (L : (0 <= nq * p)%Q) by Lqa.nra. assert (U : (nq * p <= nq)%Q) by Lqa.nra.
  destruct (Qeq_bool p 0 || Qeq_bool p 1) eqn:B.
  - split; [apply floor_nonneg|apply floor_double; fold nq]; rewrite D; Lqa.lra.
  - apply orb_false_iff in B as [_ B]. apply Qeq_bool_neq in B. assert (P : (p < 1)%Q) by (apply Qle_lteq in P1 as [?|?]; [assumption|contradiction]).
    split; [apply floor_nonneg; rewrite D; Lqa.lra|]. destruct n as [|n'].
    + apply Z.le_trans with (2 * Qfloor (1 # 2))%Z; [|now vm_compute]. apply Z.mul_le_mono_nonneg_l; [lia|]. apply Qfloor_resp_le. rewrite D. unfold nq in *. change (inject_Z (Z.of_nat 0)) with 0%Q. Lqa.lra.
    + assert (Np : (0 < nq)%Q) by (unfold nq; rewrite <- (Zlt_Qlt 0); lia). apply floor_double. fold nq. rewrite D. Lqa.nra.
Qed.

(** ** tapering a matrix *)
Section Tap.
  Variables (h : hdr) (width : Q).
  Hypothesis (SR : (0 < h_sr h)%Q).
  Let n := h_npts h.
  Let nq := inject_Z (Z.of_nat n).
  Let p := (width * 2 * h_sr h / nq)%Q.
  Lemma nq_pos : (1 <= n)%nat -> (0 < nq)%Q. Proof. intros N. unfold nq. rewrite <- (Zlt_Qlt 0). lia. Qed.
  Lemma p_eq : (1 <= n)%nat -> (nq * p / 2 == width * h_sr h)%Q.
  Proof. intros N. unfold p. field. intros E. pose proof (nq_pos N). Lqa.lra. Qed.
  Lemma p_range : (1 <= n)%nat -> ((0 <= p)%Q <-> (0 <= width)%Q) /\ ((p <= 1)%Q <-> (2 * width * h_sr h <= nq)%Q).
  Proof.
    intros N. pose proof (nq_pos N) as P. unfold p. split; split; intros H.
    - assert (E : (0 <= width * 2 * h_sr h)%Q). { apply Qmult_le_compat_r with (z := nq) in H; [|Lqa.lra]. setoid_replace (width * 2 * h_sr h / nq * nq)%Q with (width * 2 * h_sr h)%Q in H by (field; Lqa.lra). Lqa.lra. }
      destruct (Qlt_le_dec width 0); [|assumption]. exfalso. Lqa.nra.
    - unfold Qdiv. apply Qmult_le_0_compat; [Lqa.nra|]. apply Qinv_le_0_compat. Lqa.lra.
    - apply Qmult_le_compat_r with (z := nq) in H; [|Lqa.lra]. setoid_replace (width * 2 * h_sr h / nq * nq)%Q with (width * 2 * h_sr h)%Q in H by (field; Lqa.lra). Lqa.lra.
    - apply Qle_shift_div_r; [assumption|]. Lqa.lra.
  Qed.
  Lemma too_long_fails : (1 <= n)%nat -> ~ (width <= nq / h_sr h)%Q -> ~ (2 * width * h_sr h <= nq)%Q.
  Proof.
    intros N A B. apply A. apply Qle_shift_div_l; [assumption|]. pose proof (nq_pos N). destruct (Qlt_le_dec width 0); Lqa.nra.
  Qed.
  Lemma flank_small j : (1 <= n)%nat -> (width * h_sr h <= inject_Z j)%Q -> (flank n p <= j)%Z.
  Proof.
    intros N J. unfold flank. fold nq. pose proof (p_eq N) as E. assert (F : forall x, (x < inject_Z j + 1)%Q -> (Qfloor x <= j)%Z).
    { intros x X. pose proof (Qfloor_le x) as A. assert (Q : (inject_Z (Qfloor x) < inject_Z (j + 1))%Q) by (rewrite inject_Z_plus; change (inject_Z 1) with 1%Q; Lqa.lra). rewrite <- Zlt_Qlt in Q. lia. }
    destruct (_ || _); apply F; rewrite E; Lqa.lra.
  Qed.
  Lemma flank_large : (3 <= n)%nat -> ((1 # 2) <= width * h_sr h)%Q -> (1 <= flank n p)%Z.
  Proof.
    intros N W. unfold flank. fold nq. pose proof (p_eq ltac:(lia)) as E. assert (F : forall x, (1 <= x)%Q -> (1 <= Qfloor x)%Z).
    { intros x X. change 1%Z with (Qfloor 1). now apply Qfloor_resp_le. }
    destruct (_ || _) eqn:B; apply F; rewrite E; [|Lqa.lra]. apply orb_true_iff in B as [B|B]; apply Qeq_bool_eq in B; rewrite B in E.
    - assert (X : (nq * 0 / 2 == 0)%Q) by (unfold Qdiv; ring). rewrite X in E. Lqa.lra.
    - rewrite <- E. assert (T : (inject_Z 3 <= nq)%Q) by (unfold nq; rewrite <- Zle_Qle; lia). change (inject_Z 3) with 3%Q in T. setoid_replace (nq * 1 / 2)%Q with (nq * (1 # 2))%Q by field. Lqa.lra.
  Qed.

  Lemma taper_ok data : (1 <= n)%nat -> rectangular n data -> (0 <= width)%Q -> (2 * width * h_sr h <= nq)%Q ->
    exists out, taper data h width = Ok out /\
      (width == 0 /\ out = data \/ ~ width == 0 /\ Forall2 (fun row r => r = map (fun q => scale (fst q) (snd q)) (combine row (map (cosine_weight n (flank n p)) (seq 0 n)))) data out)%Q.
  Proof.
    intros N R W0 W1. unfold taper. fold n. fold nq. destruct (Qeq_bool width 0) eqn:Z.
    { exists data. split; [reflexivity|]. left. split; [now apply Qeq_bool_eq|reflexivity]. }
    apply Qeq_bool_neq in Z. destruct (Qle_bool width (nq / h_sr h)) eqn:B; cbn [negb].
    2:{ exfalso. apply (too_long_fails N); [|assumption]. intros C. apply Qle_bool_iff in C. congruence. }
    rewrite (proj2 (Nat.eqb_neq n 0)) by lia. fold p. unfold cosine_taper.
    destruct (p_range N) as [P0 P1]. rewrite (proj2 (Qle_bool_iff 0 p)) by tauto. rewrite (proj2 (Qle_bool_iff p 1)) by tauto. cbn [negb orb bind].
    set (w := map _ _). assert (Lw : length w = n) by (unfold w; now rewrite map_length, seq_length).
    assert (M : forall d, rectangular n d -> exists out, mapM (times w) d = Ok out /\ Forall2 (fun row r => r = map (fun q => scale (fst q) (snd q)) (combine row w)) d out).
    { induction d as [|row d IH]; intros Rd; [exists []; split; [reflexivity|constructor]|].
      destruct (IH (fun r I => Rd r (or_intror I))) as (out & E & F). cbn [mapM]. unfold times at 1. rewrite (Rd row (or_introl eq_refl)), Lw, Nat.eqb_refl. cbn [bind]. rewrite E. cbn [bind].
      eexists. split; [reflexivity|]. constructor; [reflexivity|assumption]. }
    destruct (M data R) as (out & E & F). exists out. split; [exact E|]. right. split; [assumption|exact F].
  Qed.
  Lemma taper_refused data : (1 <= n)%nat -> ~ ((0 <= width)%Q /\ (2 * width * h_sr h <= nq)%Q) -> taper data h width = Raise ValueError.
  Proof.
    intros N H. unfold taper. fold n. fold nq. pose proof (nq_pos N) as Np. destruct (Qeq_bool width 0) eqn:Z.
    { apply Qeq_bool_eq in Z. exfalso. apply H. split; [Lqa.lra|]. rewrite Z. Lqa.lra. }
    destruct (Qle_bool width (nq / h_sr h)) eqn:B; cbn [negb]; [|reflexivity].
    rewrite (proj2 (Nat.eqb_neq n 0)) by lia. fold p. unfold cosine_taper. destruct (p_range N) as [P0 P1].
    destruct (Qle_bool 0 p) eqn:B0; [|reflexivity]. destruct (Qle_bool p 1) eqn:B1; [|reflexivity].
    exfalso. apply H. apply Qle_bool_iff in B0, B1. tauto.
  Qed.
  Lemma nth_error_combine {X Y} (l : list X) (m : list Y) j : nth_error (combine l m) j = match nth_error l j, nth_error m j with Some a, Some b => Some (a, b) | _, _ => None end.
  Proof. revert m j. induction l as [|a l IH]; intros [|b m] [|j]; cbn; try reflexivity; [destruct (nth_error l j); reflexivity|apply IH]. Qed.
  Lemma taper_effect data : (3 <= n)%nat -> rectangular n data -> (0 <= width)%Q -> (2 * width * h_sr h <= nq)%Q ->
    exists out w, taper data h width = Ok out /\
      (forall i j, sample_at out i j = option_map (fun v => scale v (w j)) (sample_at data i j)) /\
      (forall j, (j < n)%nat -> 0 <= w j <= 1 /\ w (n - 1 - j)%nat = w j) /\
      (forall i j, (i <= j)%nat -> (2 * j < n)%nat -> w i <= w j) /\
      (forall j, (width * h_sr h <= inject_Z (Z.of_nat j))%Q -> (width * h_sr h <= inject_Z (Z.of_nat n - 1 - Z.of_nat j))%Q -> w j = 1) /\
      (((1 # 2) <= width * h_sr h)%Q -> w 0%nat = 0 /\ w (n - 1)%nat = 0).
  Proof.
    intros N R W0 W1. destruct (taper_ok data ltac:(lia) R W0 W1) as (out & E & [[Z ->]|[Z F]]).
    - exists data, (fun _ => 1). split; [assumption|]. split; [|split; [intros; split; [lra|reflexivity]|split; [intros; lra|split; [intros; reflexivity|intros H; exfalso; rewrite Z in H; Lqa.lra]]]].
      intros i j. destruct (sample_at data i j) as [[v|]|]; cbn; try reflexivity. now rewrite Rmult_1_r.
    - destruct (p_range ltac:(lia)) as [P0 P1]. destruct (flank_spec n p ltac:(tauto) ltac:(tauto)) as [F0 F1].
      exists out, (cosine_weight n (flank n p)). split; [assumption|]. split; [|split; [|split; [|split]]].
      + intros i j. unfold sample_at. clear -F R. revert i. induction F as [|row r data out E F IH]; intros [|i]; cbn; try reflexivity.
        * rewrite E, nth_error_map, nth_error_combine. pose proof (R row (or_introl eq_refl)) as L.
          destruct (nth_error row j) as [v|] eqn:J; [|reflexivity].
          assert (Hj : (j < n)%nat) by (rewrite <- L; apply nth_error_Some; congruence).
          rewrite nth_error_map, (nth_error_nth' _ 0%nat) by (rewrite seq_length; lia). rewrite seq_nth by lia. reflexivity.
        * apply IH. intros x I. apply R. now right.
      + intros j J. split; [apply weight_bounds|now apply weight_sym].
      + intros i j I J. now apply weight_mono.
      + intros j A B. apply weight_inside; try assumption. pose proof (flank_small _ ltac:(lia) A). pose proof (flank_small _ ltac:(lia) B). lia.
      + intros H. apply weight_ends; try assumption. now apply flank_large.
  Qed.
End Tap.
