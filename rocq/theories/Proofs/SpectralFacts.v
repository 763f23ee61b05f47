(** Proofs about Model.Spectral. *)
From Coq Require Import Reals QArith Qround Qreals Lra.
From Verif Require Import Lib.Base Model.Spectral Spec.SpectralSpec.
Local Open Scope R_scope.

(** ** Sums *)
Lemma rsum_ext n f g : (forall k, (k < n)%nat -> f k = g k) -> rsum n f = rsum n g.
Proof. induction n as [|n IH]; intros H; cbn; [reflexivity|]. rewrite IH by (intros; apply H; lia). rewrite H by lia. reflexivity. Qed.
Lemma rsum_plus n f g : rsum n (fun k => f k + g k) = rsum n f + rsum n g.
Proof. induction n as [|n IH]; cbn; [lra|]. rewrite IH. lra. Qed.
Lemma rsum_minus n f g : rsum n (fun k => f k - g k) = rsum n f - rsum n g.
Proof. induction n as [|n IH]; cbn; [lra|]. rewrite IH. lra. Qed.
Lemma rsum_scal n c f : rsum n (fun k => c * f k) = c * rsum n f.
Proof. induction n as [|n IH]; cbn; [lra|]. rewrite IH. lra. Qed.
Lemma rsum_scal_r n c f : rsum n (fun k => f k * c) = rsum n f * c.
Proof. induction n as [|n IH]; cbn; [lra|]. rewrite IH. lra. Qed.
Lemma rsum_0 n f : (forall k, (k < n)%nat -> f k = 0) -> rsum n f = 0.
Proof. induction n as [|n IH]; intros H; cbn; [reflexivity|]. rewrite IH by (intros; apply H; lia). rewrite H by lia. lra. Qed.
Lemma rsum_const n c : rsum n (fun _ => c) = INR n * c.
Proof. induction n as [|n IH]; [cbn; lra|]. rewrite S_INR. cbn [rsum]. rewrite IH. lra. Qed.
Lemma rsum_swap n m (f : nat -> nat -> R) : rsum n (fun j => rsum m (fun i => f j i)) = rsum m (fun i => rsum n (fun j => f j i)).
Proof.
  induction n as [|n IH]; cbn.
  - symmetry. apply rsum_0. reflexivity.
  - rewrite IH. rewrite <- rsum_plus. reflexivity.
Qed.
Lemma rsum_single n i f : (i < n)%nat -> (forall k, (k < n)%nat -> k <> i -> f k = 0) -> rsum n f = f i.
Proof.
  induction n as [|n IH]; intros L H; [lia|]. cbn. destruct (Nat.eq_dec i n) as [->|N].
  - rewrite rsum_0; [lra|]. intros k K. apply H; lia.
  - rewrite IH by (try lia; intros; apply H; lia). rewrite (H n) by lia. lra.
Qed.
Lemma rsum_app n m f : rsum (n + m) f = rsum n f + rsum m (fun k => f (n + k)%nat).
Proof. induction m as [|m IH]; [rewrite Nat.add_0_r; cbn; lra|]. rewrite Nat.add_succ_r. cbn. rewrite IH. lra. Qed.
Lemma rsum_S n f : rsum (S n) f = f O + rsum n (fun k => f (S k)).
Proof. change (S n) with (1 + n)%nat. rewrite rsum_app. cbn. lra. Qed.
Lemma rsum_nonneg n f : (forall k, (k < n)%nat -> 0 <= f k) -> 0 <= rsum n f.
Proof. induction n as [|n IH]; intros H; cbn; [lra|]. assert (0 <= rsum n f) by (apply IH; intros; apply H; lia). specialize (H n (Nat.lt_succ_diag_r n)). lra. Qed.
Lemma rsum_le n f g : (forall k, (k < n)%nat -> f k <= g k) -> rsum n f <= rsum n g.
Proof. induction n as [|n IH]; intros H; cbn; [lra|]. assert (rsum n f <= rsum n g) by (apply IH; intros; apply H; lia). specialize (H n (Nat.lt_succ_diag_r n)). lra. Qed.
Lemma rsum_prod n m f g : rsum n f * rsum m g = rsum n (fun j => rsum m (fun i => f j * g i)).
Proof. rewrite <- rsum_scal_r. apply rsum_ext. intros. symmetry. apply rsum_scal. Qed.

(** ** The sum of the cosines *)
(** angle for an integer distance *)
Definition th (n k : nat) (d : Z) : R := 2 * PI * INR k * IZR d / INR n.
Lemma angle_th n k j : angle n k j = th n k (Z.of_nat j).
Proof. unfold angle, th. rewrite <- INR_IZR_INZ. reflexivity. Qed.
Lemma th_add n k d e : th n k (d + e) = th n k d + th n k e.
Proof. unfold th. rewrite plus_IZR. unfold Rdiv. lra. Qed.
Lemma th_sub n k d e : th n k (d - e) = th n k d - th n k e.
Proof. unfold th. rewrite minus_IZR. unfold Rdiv. lra. Qed.

Definition kernel (h : nat) (d : Z) : R := 1 + 2 * rsum (h - 1) (fun k => cos (th (2 * h) (S k) d)) + cos (th (2 * h) h d).

Lemma cos_2kpi (k : Z) : cos (2 * PI * IZR k) = 1.
Proof.
  assert (A : forall n : nat, cos (2 * PI * INR n) = 1).
  { intros n. replace (2 * PI * INR n) with (0 + 2 * INR n * PI) by lra. rewrite cos_period. apply cos_0. }
  destruct (Z.le_ge_cases 0 k).
  - rewrite <- (Z2Nat.id k) by assumption. rewrite <- INR_IZR_INZ. apply A.
  - replace (2 * PI * IZR k) with (- (2 * PI * IZR (- k))) by (rewrite opp_IZR; lra). rewrite cos_neg.
    rewrite <- (Z2Nat.id (- k)) by lia. rewrite <- INR_IZR_INZ. apply A.
Qed.
Lemma sin_kpi (k : Z) : sin (PI * IZR k) = 0.
Proof. rewrite Rmult_comm. apply sin_eq_0_1. exists k. reflexivity. Qed.

Lemma telescope a n : 2 * sin a * rsum n (fun k => cos (2 * INR (S k) * a)) = sin ((2 * INR n + 1) * a) - sin a.
Proof.
  induction n as [|n IH].
  - cbn. replace ((2 * 0 + 1) * a) with a by lra. lra.
  - cbn [rsum]. rewrite Rmult_plus_distr_l, IH.
    replace ((2 * INR (S n) + 1) * a) with (2 * INR (S n) * a + a) by lra.
    replace ((2 * INR n + 1) * a) with (2 * INR (S n) * a - a) by (rewrite S_INR; lra).
    rewrite sin_plus, sin_minus. lra.
Qed.

Lemma kernel_spec h d : (1 <= h)%nat -> kernel h d = if (d mod Z.of_nat (2 * h) =? 0)%Z then INR (2 * h) else 0.
Proof.
  intros H. assert (Hh : 0 < INR h) by (apply lt_0_INR; lia).
  assert (N2 : INR (2 * h) = 2 * INR h) by (rewrite mult_INR; reflexivity).
  destruct (Z.eqb_spec (d mod Z.of_nat (2 * h)) 0) as [E|E].
  - apply Z.mod_divide in E; [|lia]. destruct E as [q ->]. unfold kernel.
    assert (C : forall k, cos (th (2 * h) k (q * Z.of_nat (2 * h))) = 1).
    { intros k. unfold th. rewrite mult_IZR, <- INR_IZR_INZ.
      replace (2 * PI * INR k * (IZR q * INR (2 * h)) / INR (2 * h)) with (2 * PI * IZR (Z.of_nat k * q)).
      - apply cos_2kpi.
      - rewrite mult_IZR, <- INR_IZR_INZ. field. rewrite N2. lra. }
    rewrite (rsum_ext _ _ (fun _ => 1)) by (intros; apply C). rewrite rsum_const, C, N2.
    rewrite minus_INR by lia. cbn [INR]. lra.
  - set (a := PI * IZR d / INR (2 * h)).
    assert (SA : sin a <> 0).
    { intros S. apply sin_eq_0_0 in S as [k K]. apply E. apply Z.mod_divide; [lia|]. exists k. apply eq_IZR.
      rewrite mult_IZR, <- INR_IZR_INZ. unfold a in K. apply (Rmult_eq_reg_l PI); [|apply PI_neq0].
      replace (PI * IZR d) with (PI * IZR d / INR (2 * h) * INR (2 * h)) by (field; lra). rewrite K. lra. }
    assert (K0 : sin a * kernel h d = 0).
    { unfold kernel. rewrite (rsum_ext _ _ (fun k => cos (2 * INR (S k) * a))).
      2: { intros k _. f_equal. unfold th, a. field. lra. }
      replace (th (2 * h) h d) with (INR (2 * h) * a) by (unfold th, a; rewrite N2; field; lra).
      pose proof (telescope a (h - 1)) as T.
      replace ((2 * INR (h - 1) + 1) * a) with (INR (2 * h) * a - a) in T by (rewrite minus_INR, N2 by lia; cbn [INR]; lra).
      rewrite sin_minus in T.
      assert (S0 : sin (INR (2 * h) * a) = 0).
      { replace (INR (2 * h) * a) with (PI * IZR d) by (unfold a; field; lra). apply sin_kpi. }
      rewrite S0 in T. nra. }
    apply Rmult_integral in K0 as [K0|K0]; [contradiction|exact K0].
Qed.

(** ** Correlation theorem *)
Definition cs (x : list R) (k : nat) : R := rsum (length x) (fun j => nth j x 0 * cos (angle (length x) k j)).
Definition sn (x : list R) (k : nat) : R := rsum (length x) (fun j => nth j x 0 * sin (angle (length x) k j)).
Lemma dft_eq x k : dft x k = (cs x k, - sn x k).
Proof. reflexivity. Qed.

Lemma double_cos n k x y psi : length x = n -> length y = n ->
  (cs x k * cs y k + sn x k * sn y k) * cos psi - (sn x k * cs y k - cs x k * sn y k) * sin psi =
  rsum n (fun j => rsum n (fun i => nth j x 0 * nth i y 0 * cos (th n k (Z.of_nat j - Z.of_nat i) + psi))).
Proof.
  intros LX LY. unfold cs, sn. rewrite LX, LY. rewrite !rsum_prod.
  rewrite <- !rsum_plus, <- !rsum_minus, <- !rsum_scal_r, <- rsum_minus. apply rsum_ext. intros j _.
  rewrite <- rsum_plus, <- rsum_minus, <- !rsum_scal_r, <- rsum_minus. apply rsum_ext. intros i _.
  rewrite cos_plus, th_sub, cos_minus, sin_minus, !angle_th. ring.
Qed.

Lemma nth_map_seq {A} (f : nat -> A) n k d : (k < n)%nat -> nth k (map f (seq 0 n)) d = f k.
Proof.
  intros L. rewrite (nth_indep _ d (f O)) by (rewrite map_length, seq_length; exact L).
  rewrite map_nth. rewrite seq_nth by exact L. reflexivity.
Qed.
Lemma rfft_length x : length (rfft x) = (length x / 2 + 1)%nat.
Proof. unfold rfft. now rewrite map_length, seq_length. Qed.
Lemma cross_length N sr off B1 B2 : length (cross N sr off B1 B2) = length B1.
Proof. unfold cross. now rewrite map_length, seq_length. Qed.

(** the value of one term of irfft *)
Lemma term_eq h x y sr off m k l : (1 <= h)%nat -> length x = (2 * h)%nat -> length y = (2 * h)%nat -> sr * off = IZR m -> (k <= h)%nat ->
  let M := nth k (cross (2 * h) sr off (rfft x) (rfft y)) c0 in
  fst M * cos (angle (2 * h) k l) - snd M * sin (angle (2 * h) k l) =
  rsum (2 * h) (fun j => rsum (2 * h) (fun i => nth j x 0 * nth i y 0 * cos (th (2 * h) k (Z.of_nat j - Z.of_nat i + m + Z.of_nat l)))).
Proof.
  intros H LX LY SM K M. unfold M, cross. assert (D2 : (2 * h / 2 = h)%nat) by (rewrite Nat.mul_comm; apply Nat.div_mul; lia).
  rewrite rfft_length, LX, D2. rewrite nth_map_seq by lia.
  assert (RX : nth k (rfft x) c0 = dft x k) by (unfold rfft; rewrite LX, D2; apply nth_map_seq; lia).
  assert (RY : nth k (rfft y) c0 = dft y k) by (unfold rfft; rewrite LY, D2; apply nth_map_seq; lia).
  rewrite RX, RY, !dft_eq. unfold cmul, cconj, cexp. cbn [fst snd].
  replace (INR k * sr / INR (2 * h) * off * 2 * PI) with (th (2 * h) k m).
  2: { unfold th. rewrite <- SM. unfold Rdiv. ring. }
  rewrite angle_th.
  etransitivity; [|etransitivity; [apply (double_cos (2 * h) k x y (th (2 * h) k m + th (2 * h) k (Z.of_nat l)) LX LY)|]].
  - rewrite cos_plus, sin_plus. ring.
  - apply rsum_ext. intros j _. apply rsum_ext. intros i _. rewrite !th_add. do 2 f_equal. ring.
Qed.

Lemma irfft_kernel h x y sr off m l : (1 <= h)%nat -> length x = (2 * h)%nat -> length y = (2 * h)%nat -> sr * off = IZR m ->
  irfft_at (cross (2 * h) sr off (rfft x) (rfft y)) l =
  rsum (2 * h) (fun j => rsum (2 * h) (fun i => nth j x 0 * nth i y 0 * kernel h (Z.of_nat j - Z.of_nat i + m + Z.of_nat l))) / INR (2 * h).
Proof.
  intros H LX LY SM. assert (D2 : (2 * h / 2 = h)%nat) by (rewrite Nat.mul_comm; apply Nat.div_mul; lia).
  pose proof (fun k => term_eq h x y sr off m k l H LX LY SM) as T. cbv zeta in T.
  unfold irfft_at. rewrite cross_length, rfft_length, LX, D2. replace (h + 1 - 1)%nat with h by lia. replace (h + 1 - 2)%nat with (h - 1)%nat by lia.
  f_equal.
  assert (Hh : 0 < INR h) by (apply lt_0_INR; lia).
  assert (N2 : INR (2 * h) = 2 * INR h) by (rewrite mult_INR; reflexivity).
  set (B := cross (2 * h) sr off (rfft x) (rfft y)) in *.
  rewrite (rsum_ext (h - 1) _ _ (fun k K => T (S k) ltac:(lia))).
  assert (T0 := T O ltac:(lia)). replace (angle (2 * h) 0 l) with 0 in T0 by (unfold angle; cbn [INR]; unfold Rdiv; ring).
  rewrite cos_0, sin_0 in T0. rewrite Rmult_1_r, Rmult_0_r, Rminus_0_r in T0. rewrite T0. clear T0.
  assert (Th := T h (le_n h)).
  replace (sin (angle (2 * h) h l)) with 0 in Th.
  2: { symmetry. replace (angle (2 * h) h l) with (PI * IZR (Z.of_nat l)); [apply sin_kpi|].
       unfold angle. rewrite <- INR_IZR_INZ, N2. field. lra. }
  rewrite Rmult_0_r, Rminus_0_r in Th. rewrite Th. clear Th T.
  rewrite (rsum_swap (h - 1)), <- rsum_scal, <- !rsum_plus. apply rsum_ext. intros j _.
  rewrite (rsum_swap (h - 1)), <- rsum_scal, <- !rsum_plus. apply rsum_ext. intros i _.
  rewrite rsum_scal. unfold kernel. replace (th (2 * h) 0 _) with 0 by (unfold th; cbn [INR]; unfold Rdiv; ring). rewrite cos_0. ring.
Qed.

(** circular correlation *)
Definition circ (N : nat) (x y : list R) (s : Z) : R :=
  rsum N (fun j => nth j x 0 * nth (Z.to_nat ((Z.of_nat j + s) mod Z.of_nat N)) y 0).
Lemma irfft_circ h x y sr off m l : (1 <= h)%nat -> length x = (2 * h)%nat -> length y = (2 * h)%nat -> sr * off = IZR m ->
  irfft_at (cross (2 * h) sr off (rfft x) (rfft y)) l = circ (2 * h) x y (m + Z.of_nat l).
Proof.
  intros H LX LY SM. rewrite (irfft_kernel h x y sr off m l H LX LY SM). unfold circ.
  assert (N0 : INR (2 * h) <> 0) by (apply not_0_INR; lia).
  unfold Rdiv. rewrite <- rsum_scal_r. apply rsum_ext. intros j J.
  set (t := Z.to_nat ((Z.of_nat j + (m + Z.of_nat l)) mod Z.of_nat (2 * h))).
  pose proof (Z.mod_pos_bound (Z.of_nat j + (m + Z.of_nat l)) (Z.of_nat (2 * h)) ltac:(lia)) as B.
  rewrite (rsum_single (2 * h) t).
  - rewrite kernel_spec by exact H. destruct (Z.eqb_spec ((Z.of_nat j - Z.of_nat t + m + Z.of_nat l) mod Z.of_nat (2 * h)) 0) as [E|E]; [field; exact N0|].
    exfalso. apply E. unfold t. rewrite Z2Nat.id by lia.
    replace (Z.of_nat j - (Z.of_nat j + (m + Z.of_nat l)) mod Z.of_nat (2 * h) + m + Z.of_nat l)%Z
      with ((Z.of_nat j + (m + Z.of_nat l)) - (Z.of_nat j + (m + Z.of_nat l)) mod Z.of_nat (2 * h))%Z by lia.
    rewrite Zminus_mod_idemp_r, Z.sub_diag. apply Z.mod_0_l. lia.
  - unfold t. lia.
  - intros i I NI. rewrite kernel_spec by exact H. destruct (Z.eqb_spec ((Z.of_nat j - Z.of_nat i + m + Z.of_nat l) mod Z.of_nat (2 * h)) 0) as [E|E]; [|ring].
    exfalso. apply NI. unfold t. apply Z.mod_divide in E; [|lia]. destruct E as [q E].
    replace (Z.of_nat j + (m + Z.of_nat l))%Z with (Z.of_nat i + q * Z.of_nat (2 * h))%Z by lia.
    rewrite Z_mod_plus_full, Z.mod_small by lia. lia.
Qed.

(** no wrap-around if the zeros are at least as long as the shift *)
Lemma circ_plain N x y s : (length x <= N)%nat -> length y = length x -> (- Z.of_nat (N - length x) <= s <= Z.of_nat (N - length x))%Z ->
  circ N (zero_pad N x) (zero_pad N y) s = plain x y s.
Proof.
  intros L E S. unfold circ, plain. replace N with (length x + (N - length x))%nat at 1 by lia. rewrite rsum_app.
  rewrite (rsum_0 (N - length x)).
  2: { intros k K. unfold zero_pad. rewrite app_nth2 by lia. rewrite nth_repeat. ring. }
  rewrite Rplus_0_r. apply rsum_ext. intros j J. unfold zero_pad. rewrite app_nth1 by lia. unfold sample.
  replace (0 <=? Z.of_nat j)%Z with true by (symmetry; apply Z.leb_le; lia). rewrite Nat2Z.id.
  f_equal. destruct (Z.leb_spec 0 (Z.of_nat j + s)) as [P|P].
  - rewrite Z.mod_small by lia. destruct (Nat.lt_ge_cases (Z.to_nat (Z.of_nat j + s)) (length y)) as [G|G].
    + now rewrite app_nth1.
    + rewrite app_nth2 by lia. rewrite nth_repeat, nth_overflow by lia. reflexivity.
  - replace ((Z.of_nat j + s) mod Z.of_nat N)%Z with (Z.of_nat j + s + Z.of_nat N)%Z.
    + rewrite app_nth2 by lia. apply nth_repeat.
    + apply Z.mod_unique with (-1)%Z; lia.
Qed.

(** ** The stored row *)
Lemma irfft_length B : length (irfft B) = (2 * (length B - 1))%nat.
Proof. unfold irfft. now rewrite map_length, seq_length. Qed.
Lemma nth_skipn' {A} n : forall (l : list A) i d, nth i (skipn n l) d = nth (n + i) l d.
Proof. induction n as [|n IH]; intros l i d; [reflexivity|]. destruct l; [destruct i; reflexivity|]. apply IH. Qed.
Lemma nth_firstn' {A} n : forall (l : list A) i d, (i < n)%nat -> nth i (firstn n l) d = nth i l d.
Proof. induction n as [|n IH]; intros l i d H; [lia|]. destruct l; [reflexivity|]. destruct i; [reflexivity|]. cbn. apply IH. lia. Qed.
Lemma cut_ok s tmp : (1 <= s)%nat -> (s + 1 <= length tmp)%nat ->
  exists row, cut s tmp = Ok row /\ length row = (2 * s + 1)%nat /\
    forall i, (i < 2 * s + 1)%nat -> nth i row 0 = nth (if (i <? s)%nat then length tmp - s + i else i - s) tmp 0.
Proof.
  intros S L. unfold cut, last_samples. replace (s =? 0)%nat with false by (symmetry; apply Nat.eqb_neq; lia).
  assert (LR : length (skipn (length tmp - s) tmp ++ firstn (s + 1) tmp) = (2 * s + 1)%nat).
  { rewrite app_length, skipn_length, firstn_length. lia. }
  rewrite LR, Nat.eqb_refl. eexists. split; [reflexivity|]. split; [exact LR|]. intros i I.
  destruct (Nat.ltb_spec i s).
  - rewrite app_nth1 by (rewrite skipn_length; lia).
    apply nth_skipn'.
  - rewrite app_nth2 by (rewrite skipn_length; lia). rewrite skipn_length.
    replace (i - (length tmp - (length tmp - s)))%nat with (i - s)%nat by lia.
    apply nth_firstn'. lia.
Qed.

Lemma circ_period N x y s q : (0 < N)%nat -> circ N x y (s + q * Z.of_nat N) = circ N x y s.
Proof.
  intros H. unfold circ. apply rsum_ext. intros j _. do 3 f_equal. rewrite Z.add_assoc. apply Z_mod_plus_full.
Qed.

Lemma correlate_rows normalize center (h : nat) sr len offset m x y : (1 <= h)%nat -> length x = (2 * h)%nat -> length y = (2 * h)%nat ->
  let s := sample_to_save sr len in let N := (2 * h)%nat in
  (1 <= s)%nat -> (s + 1 <= N)%nat -> Q2R sr * Q2R (offset - roffset center sr offset) = IZR m ->
  exists row, correlate_spectra normalize center N sr len offset (rfft x) (rfft y) = Ok row /\ length row = (2 * s + 1)%nat /\
    forall i, (i < 2 * s + 1)%nat ->
      nth i row 0 = circ N x y (Z.of_nat i - Z.of_nat s + m) / (if normalize then norm (rfft x) (rfft y) else 1).
Proof.
  intros H LX LY s N S1 S2 SM. unfold correlate_spectra. fold s.
  set (tmp := irfft _). assert (D2 : (2 * h / 2 = h)%nat) by (rewrite Nat.mul_comm; apply Nat.div_mul; lia).
  assert (LT : length tmp = N).
  { unfold tmp. rewrite irfft_length, cross_length, rfft_length, LX, D2. unfold N. lia. }
  destruct (cut_ok s tmp S1) as (row & E & LR & V); [lia|]. rewrite E. cbn [bind].
  eexists. split; [reflexivity|]. split; [now rewrite map_length|]. intros i I.
  set (nrm := if normalize then _ else 1).
  rewrite (nth_indep _ 0 (0 / nrm)) by (rewrite map_length; lia). rewrite (map_nth (fun v => v / nrm)). f_equal. rewrite V by exact I.
  set (l := if (i <? s)%nat then _ else _).
  assert (LL : (l < N)%nat) by (unfold l; destruct (Nat.ltb_spec i s); lia).
  unfold tmp, irfft. rewrite nth_map_seq by (rewrite cross_length, rfft_length, LX, D2; fold N in LL; unfold N in LL; lia).
  unfold N. rewrite (irfft_circ h x y _ _ m l H LX LY SM).
  destruct (Nat.ltb_spec i s) as [L|L].
  - replace (m + Z.of_nat l)%Z with ((Z.of_nat i - Z.of_nat s + m) + 1 * Z.of_nat (2 * h))%Z.
    + apply circ_period. lia.
    + unfold l. rewrite LT. unfold N. destruct (Nat.ltb_spec i s); lia.
  - f_equal. unfold l. destruct (Nat.ltb_spec i s); lia.
Qed.

Lemma zero_pad_length N x : (length x <= N)%nat -> length (zero_pad N x) = N.
Proof. intros L. unfold zero_pad. rewrite app_length, repeat_length. lia. Qed.

(** the whole path for two traces *)
Lemma correlate_traces_ok normalize center sr len offset m x y :
  let N := padded_len (length x) sr len in let s := sample_to_save sr len in
  (1 <= length x)%nat -> length y = length x -> (1 <= s)%nat ->
  Z.even N = true -> (Z.of_nat (length x) + Z.of_nat s + Z.abs m <= N)%Z -> Q2R sr * Q2R (offset - roffset center sr offset) = IZR m ->
  exists row, correlate_traces normalize center sr len offset x y = Ok row /\ length row = (2 * s + 1)%nat /\
    forall i, (i < 2 * s + 1)%nat ->
      nth i row 0 = plain x y (Z.of_nat i - Z.of_nat s + m) /
        (if normalize then norm (rfft (zero_pad (Z.to_nat N) x)) (rfft (zero_pad (Z.to_nat N) y)) else 1).
Proof.
  intros N s L1 LY S1 EV B SM. unfold correlate_traces. fold N. apply Z.even_spec in EV as [k K].
  set (h := Z.to_nat k). assert (Nh : Z.to_nat N = (2 * h)%nat) by (unfold h; lia). rewrite Nh.
  assert (LL : (length x <= 2 * h)%nat) by lia.
  destruct (correlate_rows normalize center h sr len offset m (zero_pad (2 * h) x) (zero_pad (2 * h) y)) as (row & E & LR & V).
  - lia.
  - apply zero_pad_length; lia.
  - apply zero_pad_length; lia.
  - exact S1.
  - fold s. lia.
  - exact SM.
  - exists row. split; [exact E|]. split; [exact LR|]. intros i I. rewrite V by exact I. f_equal.
    apply circ_plain; [exact LL|exact LY|]. fold s in I |- *. lia.
Qed.

(** ** The padded length *)
Lemma next_smooth_ge fuel : forall n, (n <= next_smooth fuel n)%Z.
Proof. induction fuel as [|f IH]; intros n; cbn; [lia|]. destruct (smooth5 n); [lia|]. specialize (IH (n + 1)%Z). lia. Qed.
Lemma next_fast_len_ge n : (n <= next_fast_len n)%Z.
Proof. apply next_smooth_ge. Qed.
Lemma next_smooth_least fuel : forall n k, (n <= k < next_smooth fuel n)%Z -> smooth5 k = false.
Proof.
  induction fuel as [|f IH]; intros n k H; cbn in H; [lia|]. destruct (smooth5 n) eqn:E; [lia|].
  destruct (Z.eq_dec n k) as [<-|N]; [exact E|]. apply (IH (n + 1)%Z). lia.
Qed.
Lemma strip_factor_pow fuel : forall k, (k <= fuel)%nat -> strip_factor fuel 2 (2 ^ Z.of_nat k) = 1%Z.
Proof.
  induction fuel as [|f IH]; intros k K; [replace k with O by lia; reflexivity|]. cbn [strip_factor].
  destruct k as [|k].
  - reflexivity.
  - rewrite Nat2Z.inj_succ, Z.pow_succ_r by lia. rewrite (Z.mul_comm 2), Z.mod_mul, Z.div_mul by lia. cbn. apply IH. lia.
Qed.
Lemma smooth5_pow2 k : (0 <= k)%Z -> smooth5 (2 ^ k) = true.
Proof.
  intros K. unfold smooth5. replace (strip 2 (2 ^ k)) with 1%Z; [reflexivity|]. unfold strip. rewrite Z.log2_pow2 by exact K.
  rewrite <- (Z2Nat.id k) at 2 by exact K. symmetry. apply strip_factor_pow. lia.
Qed.
Lemma next_smooth_smooth fuel : forall n k, (n <= k)%Z -> (k < n + Z.of_nat fuel)%Z -> smooth5 k = true -> smooth5 (next_smooth fuel n) = true.
Proof.
  induction fuel as [|f IH]; intros n k A B S; [lia|]. cbn [next_smooth]. destruct (smooth5 n) eqn:E; [exact E|].
  apply (IH _ k); [|lia|exact S]. destruct (Z.eq_dec n k); [congruence|lia].
Qed.
Lemma next_fast_len_smooth n : (1 <= n)%Z -> smooth5 (next_fast_len n) = true.
Proof.
  intros H. unfold next_fast_len. destruct (Z.eq_dec n 1) as [->|N1]; [reflexivity|].
  pose proof (Z.log2_up_spec n ltac:(lia)) as [A B]. assert (0 <= Z.log2_up n)%Z by apply Z.log2_up_nonneg.
  assert (P : (0 < Z.log2_up n)%Z) by (apply Z.log2_up_pos; lia).
  apply (next_smooth_smooth _ n (2 ^ Z.log2_up n)); [lia| |now apply smooth5_pow2].
  replace (Z.log2_up n) with (Z.succ (Z.pred (Z.log2_up n))) by lia. rewrite Z.pow_succ_r by lia. lia.
Qed.

(** the zeros suffice if lengthToSave is a whole number of samples *)
Lemma padded_enough npts sr len k : (sr * len == inject_Z k)%Q -> (0 <= k)%Z ->
  (Z.of_nat npts + Z.of_nat (sample_to_save sr len) <= padded_len npts sr len)%Z /\ sample_to_save sr len = Z.to_nat k.
Proof.
  intros E K. unfold padded_len, sample_to_save.
  assert (C : Qceiling (len * sr) = k) by (rewrite Qmult_comm, E; apply Qceiling_Z).
  rewrite C. split; [|reflexivity]. etransitivity; [|apply next_fast_len_ge].
  rewrite E, <- inject_Z_plus, Qfloor_Z. lia.
Qed.
(** offsets of whole samples *)
Lemma roffset_whole sr offset m : (0 < sr)%Q -> (offset * sr == inject_Z m)%Q -> (roffset false sr offset == offset)%Q.
Proof.
  intros S E. unfold roffset. assert (F : qfix (offset * sr) = m).
  { unfold qfix. destruct (Qle_bool 0 (offset * sr)); rewrite E; [apply Qfloor_Z|apply Qceiling_Z]. }
  rewrite F, <- E. field. intros Z0. rewrite Z0 in S. now apply Qlt_irrefl in S.
Qed.
Lemma remaining_zero sr offset m : (0 < sr)%Q -> (offset * sr == inject_Z m)%Q -> Q2R sr * Q2R (offset - roffset false sr offset) = IZR 0.
Proof.
  intros S E. replace (Q2R (offset - roffset false sr offset)) with (Q2R 0).
  - unfold Q2R. cbn. lra.
  - apply Qeq_eqR. rewrite (roffset_whole sr offset m S E). ring.
Qed.
Lemma remaining_center sr offset m : (offset * sr == inject_Z m)%Q -> Q2R sr * Q2R (offset - roffset true sr offset) = IZR m.
Proof.
  intros E. rewrite <- Q2R_mult. replace (IZR m) with (Q2R (inject_Z m)) by (unfold Q2R; cbn; lra).
  apply Qeq_eqR. rewrite <- E. unfold roffset. ring.
Qed.

(** ** Bounds *)
Lemma cauchy_schwarz n a b : rsum n (fun k => a k * b k) * rsum n (fun k => a k * b k) <= rsum n (fun k => a k * a k) * rsum n (fun k => b k * b k).
Proof.
  induction n as [|n IH]; cbn; [lra|].
  set (A := rsum n (fun k => a k * b k)) in *. set (P := rsum n (fun k => a k * a k)) in *. set (Q := rsum n (fun k => b k * b k)) in *.
  assert (P0 : 0 <= P) by (apply rsum_nonneg; intros; nra). assert (Q0 : 0 <= Q) by (apply rsum_nonneg; intros; nra).
  set (p := sqrt P). set (q := sqrt Q). assert (PP : p * p = P) by (apply sqrt_sqrt; lra). assert (QQ : q * q = Q) by (apply sqrt_sqrt; lra).
  assert (p0 : 0 <= p) by apply sqrt_pos. assert (q0 : 0 <= q) by apply sqrt_pos.
  assert (AB : Rabs A <= p * q).
  { apply Rsqr_incr_0_var; [|nra]. rewrite <- Rsqr_abs. unfold Rsqr. replace (p * q * (p * q)) with (P * Q) by (rewrite <- PP, <- QQ; ring). exact IH. }
  set (u := a n). set (v := b n).
  assert (T : A * (u * v) <= p * q * (Rabs u * Rabs v)).
  { eapply Rle_trans; [apply Rle_abs|]. rewrite !Rabs_mult. apply Rmult_le_compat_r; [|exact AB].
    apply Rmult_le_pos; apply Rabs_pos. }
  assert (U2 : Rabs u * Rabs u = u * u) by (rewrite <- Rabs_mult; apply Rabs_right; nra).
  assert (V2 : Rabs v * Rabs v = v * v) by (rewrite <- Rabs_mult; apply Rabs_right; nra).
  assert (T2 : 2 * (p * q * (Rabs u * Rabs v)) <= P * (v * v) + Q * (u * u)).
  { rewrite <- PP, <- QQ, <- U2, <- V2. pose proof (Rle_0_sqr (p * Rabs v - q * Rabs u)) as S. unfold Rsqr in S. lra. }
  nra.
Qed.

Definition cabs (a : cplx) : R := sqrt (abs2 a).
Lemma abs2_nonneg a : 0 <= abs2 a.
Proof. unfold abs2. nra. Qed.
Lemma cabs_sq a : cabs a * cabs a = abs2 a.
Proof. apply sqrt_sqrt, abs2_nonneg. Qed.
Lemma abs2_mul a b : abs2 (cmul a b) = abs2 a * abs2 b.
Proof. unfold abs2, cmul. cbn. ring. Qed.
Lemma abs2_conj a : abs2 (cconj a) = abs2 a.
Proof. unfold abs2, cconj. cbn. ring. Qed.
Lemma abs2_exp t : abs2 (cexp t) = 1.
Proof. unfold abs2, cexp. cbn. pose proof (sin2_cos2 t) as H. unfold Rsqr in H. lra. Qed.
Lemma rot_le a t : Rabs (fst a * cos t - snd a * sin t) <= cabs a.
Proof.
  apply Rsqr_incr_0_var; [|apply sqrt_pos]. rewrite <- Rsqr_abs. unfold Rsqr. rewrite cabs_sq. unfold abs2.
  pose proof (sin2_cos2 t) as H. unfold Rsqr in H.
  pose proof (Rle_0_sqr (fst a * sin t + snd a * cos t)) as S. unfold Rsqr in S.
  replace (fst a * fst a + snd a * snd a) with ((fst a * fst a + snd a * snd a) * (sin t * sin t + cos t * cos t)) by (rewrite H; ring). nra.
Qed.
Lemma fst_le a : Rabs (fst a) <= cabs a.
Proof. pose proof (rot_le a 0) as H. rewrite cos_0, sin_0 in H. replace (fst a) with (fst a * 1 - snd a * 0) by ring. exact H. Qed.
Lemma fst_cos_le a t : Rabs (fst a * cos t) <= cabs a.
Proof.
  rewrite Rabs_mult. pose proof (COS_bound t). pose proof (fst_le a). pose proof (Rabs_pos (fst a)).
  assert (Rabs (cos t) <= 1) by (apply Rabs_le; lra). pose proof (Rabs_pos (cos t)). nra.
Qed.
Lemma cross_abs N sr off B1 B2 k : (k < length B1)%nat -> cabs (nth k (cross N sr off B1 B2) c0) = cabs (nth k B1 c0) * cabs (nth k B2 c0).
Proof.
  intros K. unfold cross. rewrite nth_map_seq by exact K. unfold cabs at 1. rewrite !abs2_mul, abs2_conj, abs2_exp, Rmult_1_r.
  rewrite sqrt_mult by apply abs2_nonneg. reflexivity.
Qed.

Lemma rsum_abs n f : Rabs (rsum n f) <= rsum n (fun k => Rabs (f k)).
Proof. induction n as [|n IH]; cbn; [rewrite Rabs_R0; lra|]. eapply Rle_trans; [apply Rabs_triang|]. lra. Qed.

Lemma energy_eq B : (1 <= length B)%nat -> snd (nth 0 B c0) = 0 ->
  energy B = abs2 (nth 0 B c0) + 2 * rsum (length B - 1) (fun k => abs2 (nth (S k) B c0)).
Proof.
  intros L I0. unfold energy. replace (length B) with (S (length B - 1)) at 1 by lia. rewrite rsum_S.
  assert (A : abs2 (nth 0 B c0) = fst (nth 0 B c0) * fst (nth 0 B c0)) by (unfold abs2; rewrite I0; ring). rewrite A. ring.
Qed.

Lemma irfft_bound N sr off B1 B2 l : (2 <= length B1)%nat -> length B2 = length B1 -> snd (nth 0 B1 c0) = 0 -> snd (nth 0 B2 c0) = 0 ->
  Rabs (irfft_at (cross N sr off B1 B2) l) <= norm B1 B2.
Proof.
  intros L2 E I1 I2. unfold irfft_at, norm. rewrite cross_length. set (m := length B1) in *.
  assert (Npos : 0 < INR (2 * (m - 1))) by (apply lt_0_INR; lia).
  unfold Rdiv. rewrite Rabs_mult, (Rabs_right (/ _)) by (apply Rle_ge, Rlt_le, Rinv_0_lt_compat, Npos).
  apply Rmult_le_compat_r; [apply Rlt_le, Rinv_0_lt_compat, Npos|].
  set (M := cross N sr off B1 B2).
  set (b1 := fun k => cabs (nth k B1 c0)). set (b2 := fun k => cabs (nth k B2 c0)).
  assert (MA : forall k, (k < m)%nat -> cabs (nth k M c0) = b1 k * b2 k) by (intros; apply cross_abs; assumption).
  assert (B10 : forall k, 0 <= b1 k) by (intros; apply sqrt_pos). assert (B20 : forall k, 0 <= b2 k) by (intros; apply sqrt_pos).
  assert (WE : exists r, r * r = 2) by (exists (sqrt 2); apply sqrt_sqrt; lra). destruct WE as [r W2].
  set (w := fun k => match k with O => 1 | S _ => r end).
  assert (E1 : energy B1 = rsum m (fun k => (w k * b1 k) * (w k * b1 k))).
  { rewrite energy_eq by (assumption || lia). fold m. replace m with (S (m - 1)) at 2 by lia. rewrite rsum_S. cbn [w]. unfold b1 at 1 2. rewrite !Rmult_1_l, cabs_sq.
    f_equal. rewrite <- rsum_scal. apply rsum_ext. intros k _. unfold b1. rewrite <- cabs_sq. rewrite <- W2. ring. }
  assert (E2 : energy B2 = rsum m (fun k => (w k * b2 k) * (w k * b2 k))).
  { rewrite energy_eq by (assumption || lia). rewrite E. replace m with (S (m - 1)) at 2 by lia. rewrite rsum_S. cbn [w]. unfold b2 at 1 2. rewrite !Rmult_1_l, cabs_sq.
    f_equal. rewrite <- rsum_scal. apply rsum_ext. intros k _. unfold b2. rewrite <- cabs_sq. rewrite <- W2. ring. }
  assert (EN1 : 0 <= energy B1) by (rewrite E1; apply rsum_nonneg; intros; nra).
  assert (EN2 : 0 <= energy B2) by (rewrite E2; apply rsum_nonneg; intros; nra).
  apply Rle_trans with (rsum m (fun k => (w k * b1 k) * (w k * b2 k))).
  - assert (RS : rsum m (fun k => (w k * b1 k) * (w k * b2 k)) =
      1 * b1 O * (1 * b2 O) + (rsum (m - 2) (fun k => r * b1 (S k) * (r * b2 (S k))) + r * b1 (S (m - 2)) * (r * b2 (S (m - 2))))).
    { clear -L2. clearbody m. replace m with (S (S (m - 2))) at 1 by lia. rewrite rsum_S. reflexivity. }
    rewrite RS.
    eapply Rle_trans; [apply Rabs_triang|]. eapply Rle_trans; [apply Rplus_le_compat_r, Rabs_triang|].
    assert (A0 : Rabs (fst (nth 0 M c0)) <= b1 O * b2 O) by (rewrite <- MA by lia; apply fst_le).
    assert (AL : Rabs (fst (nth (m - 1) M c0) * cos (angle (2 * (m - 1)) (m - 1) l)) <= b1 (S (m - 2)) * b2 (S (m - 2))).
    { replace (S (m - 2)) with (m - 1)%nat by lia. rewrite <- MA by lia. apply fst_cos_le. }
    assert (AS : Rabs (2 * rsum (m - 2) (fun k => fst (nth (S k) M c0) * cos (angle (2 * (m - 1)) (S k) l) - snd (nth (S k) M c0) * sin (angle (2 * (m - 1)) (S k) l)))
      <= rsum (m - 2) (fun k => r * b1 (S k) * (r * b2 (S k)))).
    { rewrite Rabs_mult, (Rabs_right 2) by lra. rewrite (rsum_ext (m - 2) (fun k => r * b1 (S k) * (r * b2 (S k))) (fun k => 2 * (b1 (S k) * b2 (S k)))) by (intros k _; rewrite <- W2; ring).
      rewrite rsum_scal. apply Rmult_le_compat_l; [lra|]. eapply Rle_trans; [apply rsum_abs|]. apply rsum_le. intros k K. rewrite <- MA by lia. apply rot_le. }
    assert (X : b1 (S (m - 2)) * b2 (S (m - 2)) <= r * b1 (S (m - 2)) * (r * b2 (S (m - 2)))).
    { replace (r * b1 (S (m - 2)) * (r * b2 (S (m - 2)))) with (2 * (b1 (S (m - 2)) * b2 (S (m - 2)))) by (rewrite <- W2; ring).
      pose proof (B10 (S (m - 2))). pose proof (B20 (S (m - 2))). nra. }
    lra.
  - apply Rsqr_incr_0_var; [|apply Rmult_le_pos; apply sqrt_pos].
    unfold Rsqr. replace (sqrt (energy B1) * sqrt (energy B2) * (sqrt (energy B1) * sqrt (energy B2))) with (energy B1 * energy B2).
    + rewrite E1, E2. apply (cauchy_schwarz m (fun k => w k * b1 k) (fun k => w k * b2 k)).
    + rewrite <- (sqrt_sqrt (energy B1)) at 1 by exact EN1. rewrite <- (sqrt_sqrt (energy B2)) at 1 by exact EN2. ring.
Qed.

Lemma cut_in s tmp row v : cut s tmp = Ok row -> In v row -> In v tmp.
Proof.
  unfold cut. destruct (_ =? _)%nat; [|discriminate]. intros [= <-] I. apply in_app_iff in I as [I|I].
  - unfold last_samples in I. destruct (s =? 0)%nat; [exact I|]. rewrite <- (firstn_skipn (length tmp - s) tmp). apply in_app_iff. now right.
  - rewrite <- (firstn_skipn (s + 1) tmp). apply in_app_iff. now left.
Qed.
Lemma normalized_bound center N sr len offset B1 B2 row v : (2 <= length B1)%nat -> length B2 = length B1 ->
  snd (nth 0 B1 c0) = 0 -> snd (nth 0 B2 c0) = 0 -> 0 < norm B1 B2 ->
  correlate_spectra true center N sr len offset B1 B2 = Ok row -> In v row -> -1 <= v <= 1.
Proof.
  intros L E I1 I2 P H I. unfold correlate_spectra in H.
  destruct (cut (sample_to_save sr len) (irfft (cross N (Q2R sr) (Q2R (offset - roffset center sr offset)) B1 B2))) as [r|] eqn:C; [|discriminate].
  cbn [bind] in H. injection H as <-. apply in_map_iff in I as (u & <- & I). apply (cut_in _ _ _ _ C) in I.
  unfold irfft in I. apply in_map_iff in I as (l & <- & _).
  pose proof (irfft_bound N (Q2R sr) (Q2R (offset - roffset center sr offset)) B1 B2 l L E I1 I2) as B.
  set (u := irfft_at _ l) in *. assert (Bb : - norm B1 B2 <= u <= norm B1 B2) by (pose proof (Rle_abs u); pose proof (Rle_abs (- u)); rewrite Rabs_Ropp in *; lra). unfold Rdiv. assert (IP : 0 < / norm B1 B2) by now apply Rinv_0_lt_compat.
  split.
  - replace (-1) with (- norm B1 B2 * / norm B1 B2) by (field; lra). apply Rmult_le_compat_r; lra.
  - assert (O1 : norm B1 B2 * / norm B1 B2 = 1) by (field; lra). rewrite <- O1. apply Rmult_le_compat_r; lra.
Qed.

(** ** Energy of a trace *)
Lemma parseval h x : (1 <= h)%nat -> length x = (2 * h)%nat -> energy (rfft x) = INR (2 * h) * sumsq x + abs2 (nth h (rfft x) c0).
Proof.
  intros H LX. assert (D2 : (2 * h / 2 = h)%nat) by (rewrite Nat.mul_comm; apply Nat.div_mul; lia).
  assert (LR : length (rfft x) = (h + 1)%nat) by (rewrite rfft_length, LX, D2; reflexivity).
  assert (RX : forall k, (k <= h)%nat -> nth k (rfft x) c0 = dft x k) by (intros; unfold rfft; rewrite LX, D2; apply nth_map_seq; lia).
  assert (N0 : INR (2 * h) <> 0) by (apply not_0_INR; lia).
  pose proof (irfft_circ h x x 0 0 0 0 H LX LX ltac:(ring)) as C. unfold irfft_at in C. rewrite cross_length, LR in C.
  replace (h + 1 - 1)%nat with h in C by lia. replace (h + 1 - 2)%nat with (h - 1)%nat in C by lia.
  assert (CR : forall k, (k <= h)%nat -> nth k (cross (2 * h) 0 0 (rfft x) (rfft x)) c0 = (abs2 (nth k (rfft x) c0), 0)).
  { intros k K. unfold cross. rewrite nth_map_seq by lia. rewrite RX by exact K. replace (INR k * 0 / INR (2 * h) * 0 * 2 * PI) with 0 by (unfold Rdiv; ring).
    unfold cexp. rewrite cos_0, sin_0. unfold cmul, cconj, abs2. cbn [fst snd]. f_equal; ring. }
  assert (A0 : forall k, angle (2 * h) k 0 = 0) by (intros; unfold angle; cbn [INR]; unfold Rdiv; ring).
  rewrite (rsum_ext (h - 1) _ (fun k => abs2 (nth (S k) (rfft x) c0))) in C.
  2: { intros k K. rewrite CR by lia. cbn [fst snd]. rewrite A0, cos_0. ring. }
  rewrite !CR in C by lia. cbn [fst] in C. rewrite A0, cos_0 in C.
  assert (CS : circ (2 * h) x x (0 + Z.of_nat 0) = sumsq x).
  { unfold circ, sumsq. rewrite LX. apply rsum_ext. intros j J. rewrite Z.mod_small by lia. do 2 f_equal. lia. }
  rewrite CS in C. rewrite energy_eq; [|lia|].
  - rewrite LR. replace (h + 1 - 1)%nat with (S (h - 1)) by lia. cbn [rsum]. replace (S (h - 1)) with h by lia.
    rewrite <- C. field. exact N0.
  - rewrite RX by lia. rewrite dft_eq. cbn [snd]. unfold sn. rewrite rsum_0; [ring|]. intros j _.
    replace (angle (length x) 0 j) with 0 by (unfold angle; cbn [INR]; unfold Rdiv; ring). rewrite sin_0. ring.
Qed.

(** ** Swapping the traces *)
Lemma cexp_opp t : cexp (- t) = cconj (cexp t).
Proof. unfold cexp, cconj. cbn. rewrite cos_neg, sin_neg. reflexivity. Qed.
Lemma cross_swap N sr off B1 B2 : length B2 = length B1 -> cross N sr (- off) B2 B1 = map cconj (cross N sr off B1 B2).
Proof.
  intros E. unfold cross. rewrite E, map_map. apply map_ext. intros k.
  replace (INR k * sr / INR N * - off * 2 * PI) with (- (INR k * sr / INR N * off * 2 * PI)) by (unfold Rdiv; ring). rewrite cexp_opp.
  set (e := cexp _). unfold cmul, cconj. cbn [fst snd]. f_equal; ring.
Qed.
Lemma angle_mirror n k l : (1 <= n)%nat -> (l <= n)%nat -> cos (angle n k (n - l)) = cos (angle n k l) /\ sin (angle n k (n - l)) = - sin (angle n k l).
Proof.
  intros N L. assert (N0 : INR n <> 0) by (apply not_0_INR; lia).
  assert (A : angle n k (n - l) = - angle n k l + 2 * INR k * PI).
  { unfold angle. rewrite minus_INR by exact L. field. exact N0. }
  rewrite A, cos_period, sin_period, cos_neg, sin_neg. auto.
Qed.
Lemma irfft_conj B l : (2 <= length B)%nat -> (l <= 2 * (length B - 1))%nat -> irfft_at (map cconj B) l = irfft_at B (2 * (length B - 1) - l).
Proof.
  intros L2 L. unfold irfft_at. rewrite map_length. set (n := (2 * (length B - 1))%nat) in *.
  assert (C0 : forall k, nth k (map cconj B) c0 = cconj (nth k B c0)).
  { intros k. replace c0 with (cconj c0) at 1 by (unfold cconj, c0; cbn; f_equal; ring). apply map_nth. }
  f_equal. rewrite !C0. f_equal; [f_equal; f_equal|].
  - apply rsum_ext. intros k _. rewrite C0. destruct (angle_mirror n (S k) l) as [-> ->]; [lia|exact L|]. unfold cconj. cbn [fst snd]. ring.
  - destruct (angle_mirror n (length B - 1) l) as [-> _]; [lia|exact L|]. reflexivity.
Qed.
Lemma irfft_swap N sr off B1 B2 l : (2 <= length B1)%nat -> length B2 = length B1 -> (l < 2 * (length B1 - 1))%nat ->
  nth l (irfft (cross N sr (- off) B2 B1)) 0 = nth (if (l =? 0)%nat then O else 2 * (length B1 - 1) - l) (irfft (cross N sr off B1 B2)) 0.
Proof.
  intros L2 E L. unfold irfft. rewrite !cross_length, E. rewrite nth_map_seq by exact L. rewrite cross_swap by exact E.
  rewrite irfft_conj by (rewrite cross_length; lia). rewrite cross_length.
  rewrite nth_map_seq by (destruct (Nat.eqb_spec l 0); lia).
  destruct (Nat.eqb_spec l 0) as [->|NZ]; [|reflexivity]. rewrite Nat.sub_0_r.
  (* n and 0 give the same angle *)
  set (B := cross N sr off B1 B2). assert (LB : length B = length B1) by apply cross_length.
  pose proof (irfft_conj B 0 ltac:(lia) ltac:(lia)) as H. rewrite LB, Nat.sub_0_r in H. rewrite <- H.
  unfold irfft_at. rewrite map_length.
  assert (C0 : forall k, nth k (map cconj B) c0 = cconj (nth k B c0)).
  { intros k. replace c0 with (cconj c0) at 1 by (unfold cconj, c0; cbn; f_equal; ring). apply map_nth. }
  f_equal. rewrite !C0. f_equal. f_equal. f_equal. apply rsum_ext. intros k _. rewrite C0. unfold cconj. cbn [fst snd].
  replace (angle (2 * (length B - 1)) (S k) 0) with 0 by (unfold angle; cbn [INR]; unfold Rdiv; ring). rewrite sin_0. ring.
Qed.

Lemma list_eq_nth {A} (d : A) l m : length l = length m -> (forall i, (i < length l)%nat -> nth i l d = nth i m d) -> l = m.
Proof.
  revert m. induction l as [|x r IH]; intros [|y q] E H; try discriminate; [reflexivity|]. f_equal; [exact (H O ltac:(cbn; lia))|].
  apply IH; [cbn in E; lia|]. intros i I. exact (H (S i) ltac:(cbn; lia)).
Qed.
Lemma norm_comm B1 B2 : length B2 = length B1 -> norm B1 B2 = norm B2 B1.
Proof. intros E. unfold norm. rewrite E. unfold Rdiv. ring. Qed.
Lemma qfix_opp q : qfix (- q) = (- qfix q)%Z.
Proof.
  unfold qfix. destruct (Qle_bool 0 q) eqn:A; destruct (Qle_bool 0 (- q)) eqn:B.
  - apply Qle_bool_iff in A, B. assert (Z0 : (q == 0)%Q) by (apply Qle_antisym; [rewrite <- (Qopp_involutive q); apply (Qopp_le_compat 0 (- q)); exact B|exact A]).
    rewrite Z0. reflexivity.
  - unfold Qceiling. rewrite Qopp_involutive. reflexivity.
  - unfold Qceiling. lia.
  - exfalso. apply not_true_iff_false in A, B. rewrite Qle_bool_iff in A, B. apply Qnot_le_lt in A, B.
    apply (Qopp_le_compat q 0) in A || idtac. assert (0 <= - q)%Q; [|now apply Qlt_not_le in B].
    apply Qlt_le_weak in A. apply (Qopp_le_compat _ _) in A. exact A.
Qed.
Lemma roffset_opp center sr offset : (roffset center sr (- offset) == - roffset center sr offset)%Q.
Proof.
  unfold roffset. destruct center; [reflexivity|].
  assert (E : qfix (- offset * sr) = (- qfix (offset * sr))%Z).
  { rewrite <- qfix_opp. unfold qfix. assert (X : (- offset * sr == - (offset * sr))%Q) by ring. rewrite !X. reflexivity. }
  rewrite E, inject_Z_opp. unfold Qdiv. ring.
Qed.
Lemma rest_opp center sr offset : Q2R (- offset - roffset center sr (- offset)) = - Q2R (offset - roffset center sr offset).
Proof. rewrite <- Q2R_opp. apply Qeq_eqR. rewrite roffset_opp. ring. Qed.

Lemma rev_nth' (l : list R) i : (i < length l)%nat -> nth i (rev l) 0 = nth (length l - 1 - i) l 0.
Proof. intros H. rewrite rev_nth by exact H. f_equal. lia. Qed.

Lemma cut_swap s t1 t2 : length t1 = length t2 ->
  (forall l, (l < length t1)%nat -> nth l t2 0 = nth (if (l =? 0)%nat then O else length t1 - l) t1 0) ->
  cut s t2 = do r <- cut s t1; Ok (rev r).
Proof.
  intros E H. destruct (Nat.eq_dec s 0) as [->|S0].
  - unfold cut, last_samples. cbn [Nat.eqb]. rewrite !app_length, !firstn_length, E.
    destruct (length t2) as [|[|n]] eqn:L; cbn [Nat.add Nat.min Nat.mul Nat.eqb]; try reflexivity.
  - destruct (Nat.lt_ge_cases (length t1) (s + 1)) as [L|L].
    + unfold cut, last_samples. replace (s =? 0)%nat with false by (symmetry; apply Nat.eqb_neq; lia).
      rewrite !app_length, !skipn_length, !firstn_length, <- E.
      replace (length t1 - (length t1 - s) + Nat.min (s + 1) (length t1) =? 2 * s + 1)%nat with false; [reflexivity|].
      symmetry. apply Nat.eqb_neq. lia.
    + destruct (cut_ok s t1) as (r1 & E1 & L1 & V1); [lia|exact L|]. destruct (cut_ok s t2) as (r2 & E2 & L2 & V2); [lia|lia|].
      rewrite E1, E2. cbn [bind]. f_equal. apply (list_eq_nth 0); [rewrite rev_length; lia|]. intros i I. rewrite rev_nth' by lia.
      rewrite V2, V1 by lia. rewrite H by (destruct (Nat.ltb_spec i s); lia). f_equal. rewrite L1.
      destruct (Nat.ltb_spec i s); destruct (Nat.ltb_spec (2 * s + 1 - 1 - i) s);
        match goal with |- context [(?a =? 0)%nat] => destruct (Nat.eqb_spec a 0) end; lia.
Qed.
Lemma correlate_swap normalize center N sr len offset B1 B2 : (2 <= length B1)%nat -> length B2 = length B1 ->
  correlate_spectra normalize center N sr len (- offset) B2 B1 = do r <- correlate_spectra normalize center N sr len offset B1 B2; Ok (rev r).
Proof.
  intros L2 E. unfold correlate_spectra. rewrite rest_opp. rewrite (norm_comm B2 B1) by congruence.
  rewrite (cut_swap _ (irfft (cross N (Q2R sr) (Q2R (offset - roffset center sr offset)) B1 B2))).
  - destruct (cut _ _); cbn [bind]; [|reflexivity]. f_equal. now rewrite map_rev.
  - now rewrite !irfft_length, !cross_length, E.
  - intros l L. rewrite irfft_length, cross_length in L |- *. apply irfft_swap; assumption.
Qed.
Lemma start_lag_swap center sr len offset :
  (start_lag center sr len (- offset) == - (start_lag center sr len offset + inject_Z (2 * Z.of_nat (sample_to_save sr len)) / sr))%Q.
Proof. unfold start_lag. rewrite roffset_opp, inject_Z_mult. unfold Qdiv. ring. Qed.
