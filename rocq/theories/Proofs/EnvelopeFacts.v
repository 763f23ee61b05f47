From Coq Require Import Reals Lra Lia.
From Verif Require Import Lib.Base Model.Spectral Model.TimeDomain Model.CorrStream Model.LagMatrix Model.Amplitude
  Spec.AmplitudeSpec Proofs.SpectralFacts Proofs.ClipFacts.
Local Open Scope R_scope.

(** ** sums over a full period *)
Lemma telescope_phase a c n : 2 * sin a * rsum n (fun j => cos (c + 2 * INR j * a)) = sin (c + (2 * INR n - 1) * a) - sin (c - a).
Proof.
  induction n as [|n IH]; cbn [rsum].
  - replace (c + (2 * INR 0 - 1) * a) with (c - a) by (cbn [INR]; ring). lra.
  - rewrite Rmult_plus_distr_l, IH, S_INR.
    replace (c + (2 * (INR n + 1) - 1) * a) with ((c + 2 * INR n * a) + a) by ring.
    replace (c + (2 * INR n - 1) * a) with ((c + 2 * INR n * a) - a) by ring. rewrite sin_plus, sin_minus. lra.
Qed.
Lemma cos_shift c (m : Z) : cos (c + 2 * PI * IZR m) = cos c.
Proof. rewrite cos_plus, cos_2kpi. replace (2 * PI * IZR m) with (PI * IZR (2 * m)) by (rewrite mult_IZR; lra). rewrite sin_kpi. lra. Qed.
Lemma sin_shift c (m : Z) : sin (c + 2 * PI * IZR m) = sin c.
Proof. rewrite sin_plus, cos_2kpi. replace (2 * PI * IZR m) with (PI * IZR (2 * m)) by (rewrite mult_IZR; lra). rewrite sin_kpi. lra. Qed.
Lemma period_sum n (m : Z) c : (0 < n)%nat -> (m mod Z.of_nat n <> 0)%Z -> rsum n (fun j => cos (c + 2 * PI * IZR m * INR j / INR n)) = 0.
Proof.
  intros N M. assert (Nn : INR n <> 0) by (apply not_0_INR; lia).
  set (a := PI * IZR m / INR n). assert (S : sin a <> 0).
  { intros S. apply sin_eq_0_0 in S as [k S]. apply M. assert (E : IZR m = IZR (k * Z.of_nat n)).
    { rewrite mult_IZR, <- INR_IZR_INZ. pose proof PI_RGT_0 as P. apply Rmult_eq_reg_l with PI; [|lra]. unfold a in S. apply Rmult_eq_compat_r with (r := INR n) in S. replace (PI * IZR m / INR n * INR n) with (PI * IZR m) in S by (field; assumption). lra. }
    apply eq_IZR in E as ->. apply Z.mod_mul. lia. }
  pose proof (telescope_phase a c n) as T.
  replace (c + (2 * INR n - 1) * a) with (c - a + 2 * PI * IZR m) in T by (unfold a; field; assumption).
  rewrite sin_shift in T. rewrite (rsum_ext n _ (fun j => cos (c + 2 * INR j * a))).
  - apply Rmult_eq_reg_l with (2 * sin a); lra.
  - intros k _. f_equal. unfold a. field. assumption.
Qed.
Lemma period_all n (m : Z) c : (0 < n)%nat -> (m mod Z.of_nat n = 0)%Z -> rsum n (fun j => cos (c + 2 * PI * IZR m * INR j / INR n)) = INR n * cos c.
Proof.
  intros N M. assert (Nn : INR n <> 0) by (apply not_0_INR; lia).
  rewrite <- rsum_const. apply rsum_ext. intros j _. apply Z.mod_divide in M as [q ->]; [|lia].
  rewrite mult_IZR, <- INR_IZR_INZ. replace (2 * PI * (IZR q * INR n) * INR j / INR n) with (2 * PI * IZR (q * Z.of_nat j)) by (rewrite mult_IZR, <- INR_IZR_INZ; field; assumption).
  apply cos_shift.
Qed.
Lemma period_cos n (m : Z) c : (0 < n)%nat -> rsum n (fun j => cos (c + 2 * PI * IZR m * INR j / INR n)) = if (m mod Z.of_nat n =? 0)%Z then INR n * cos c else 0.
Proof. intros N. destruct (Z.eqb_spec (m mod Z.of_nat n) 0); [now apply period_all|now apply period_sum]. Qed.
Lemma sin_as_cos x : sin x = cos (x - PI / 2).
Proof. rewrite cos_minus, cos_PI2, sin_PI2. lra. Qed.
Lemma period_sin n (m : Z) c : (0 < n)%nat -> rsum n (fun j => sin (c + 2 * PI * IZR m * INR j / INR n)) = if (m mod Z.of_nat n =? 0)%Z then INR n * sin c else 0.
Proof.
  intros N. rewrite (rsum_ext n _ (fun j => cos (c - PI / 2 + 2 * PI * IZR m * INR j / INR n))).
  - rewrite period_cos by assumption. now rewrite <- sin_as_cos.
  - intros j _. rewrite sin_as_cos. f_equal. lra.
Qed.

(** ** the analytic signal *)
Lemma analytic_re x l : fst (analytic x l) = rsum (length x) (fun j => nth j x 0 * rsum (length x) (fun k => one_sided (length x) k * cos (th (length x) k (Z.of_nat l - Z.of_nat j)))) / INR (length x).
Proof.
  unfold analytic. cbn [fst]. f_equal. set (n := length x).
  rewrite (rsum_ext n _ (fun k => rsum n (fun j => one_sided n k * (nth j x 0 * cos (th n k (Z.of_nat l - Z.of_nat j)))))).
  2:{ intros k _. rewrite rsum_scal. f_equal. unfold cmul, dft, cexp. cbn [fst snd]. fold n.
      rewrite <- !rsum_scal_r, Ropp_mult_distr_l_reverse, <- rsum_scal_r. unfold Rminus. rewrite Ropp_involutive, <- rsum_plus.
      apply rsum_ext. intros j _. rewrite th_sub, <- !angle_th, cos_minus. lra. }
  rewrite rsum_swap. apply rsum_ext. intros j _. rewrite <- rsum_scal. apply rsum_ext. intros k _. lra.
Qed.
Lemma analytic_im x l : snd (analytic x l) = rsum (length x) (fun k => one_sided (length x) k * rsum (length x) (fun j => nth j x 0 * sin (th (length x) k (Z.of_nat l - Z.of_nat j)))) / INR (length x).
Proof.
  unfold analytic. cbn [snd]. f_equal. set (n := length x). apply rsum_ext. intros k _. f_equal. unfold cmul, dft, cexp. cbn [fst snd]. fold n.
  rewrite <- !rsum_scal_r, Ropp_mult_distr_l_reverse, <- rsum_scal_r. match goal with |- ?a + - ?b = _ => change (a + - b) with (a - b) end. rewrite <- rsum_minus.
  apply rsum_ext. intros j _. rewrite th_sub, <- !angle_th, sin_minus. lra.
Qed.
Lemma rsum_rev n f : rsum n f = rsum n (fun k => f (n - 1 - k)%nat).
Proof.
  induction n as [|n IH]; [reflexivity|]. rewrite (rsum_S n (fun k => f (S n - 1 - k)%nat)). cbn [rsum]. rewrite Rplus_comm. f_equal; [f_equal; lia|].
  rewrite IH. apply rsum_ext. intros k K. f_equal. lia.
Qed.
Lemma one_sided_pair n k : (0 < k < n)%nat -> one_sided n k + one_sided n (n - k) = 2.
Proof.
  intros K. unfold one_sided. rewrite (proj2 (Nat.eqb_neq k 0)), (proj2 (Nat.eqb_neq (n - k) 0)) by lia.
  destruct (Nat.eqb_spec (2 * k) n), (Nat.eqb_spec (2 * (n - k)) n); try lia; [lra|].
  destruct (Nat.ltb_spec (2 * k) n), (Nat.ltb_spec (2 * (n - k)) n); try lia; lra.
Qed.
Lemma one_sided_cos n d : (0 < n)%nat -> rsum n (fun k => one_sided n k * cos (th n k d)) = rsum n (fun k => cos (th n k d)).
Proof.
  intros N. destruct n as [|n]; [lia|]. rewrite !rsum_S. f_equal; [unfold one_sided; cbn [Nat.eqb]; lra|].
  assert (P : forall k, (k < n)%nat -> cos (th (S n) (S (n - 1 - k)) d) = cos (th (S n) (S k) d)).
  { intros k K. assert (INR (S n) <> 0) by (apply not_0_INR; lia).
    replace (th (S n) (S (n - 1 - k)) d) with (- th (S n) (S k) d + 2 * PI * IZR d); [rewrite cos_shift; apply cos_neg|].
    unfold th. replace (S (n - 1 - k)) with (S n - S k)%nat by lia. rewrite minus_INR by lia. field. assumption. }
  assert (D : 2 * rsum n (fun k => one_sided (S n) (S k) * cos (th (S n) (S k) d)) = 2 * rsum n (fun k => cos (th (S n) (S k) d))); [|lra].
  replace (2 * rsum n (fun k => one_sided (S n) (S k) * cos (th (S n) (S k) d))) with
    (rsum n (fun k => one_sided (S n) (S k) * cos (th (S n) (S k) d)) + rsum n (fun k => one_sided (S n) (S (n - 1 - k)) * cos (th (S n) (S (n - 1 - k)) d))).
  2:{ rewrite <- (rsum_rev n (fun k => one_sided (S n) (S k) * cos (th (S n) (S k) d))). lra. }
  rewrite <- rsum_plus, <- rsum_scal. apply rsum_ext. intros k K. rewrite P by assumption.
  rewrite <- Rmult_plus_distr_r. replace (S (n - 1 - k)) with (S n - S k)%nat by lia. rewrite one_sided_pair by lia. reflexivity.
Qed.
Lemma th_sum n d : (0 < n)%nat -> rsum n (fun k => cos (th n k d)) = if (d mod Z.of_nat n =? 0)%Z then INR n else 0.
Proof.
  intros N. rewrite (rsum_ext n _ (fun j => cos (0 + 2 * PI * IZR d * INR j / INR n))).
  - rewrite period_cos by assumption. rewrite cos_0, Rmult_1_r. reflexivity.
  - intros k _. f_equal. unfold th, Rdiv. ring.
Qed.
(** the real part of the analytic signal is the signal *)
Lemma analytic_real x l : (l < length x)%nat -> fst (analytic x l) = nth l x 0.
Proof.
  intros L. rewrite analytic_re. set (n := length x) in *. assert (N : INR n <> 0) by (apply not_0_INR; lia).
  rewrite (rsum_ext n _ (fun j => if (j =? l)%nat then INR n * nth l x 0 else 0)).
  - rewrite (rsum_single n l); [|assumption|intros k _ K; now rewrite (proj2 (Nat.eqb_neq k l) K)]. rewrite Nat.eqb_refl. field. assumption.
  - intros j J. rewrite one_sided_cos, th_sum by lia. destruct (Nat.eqb_spec j l) as [->|K].
    + rewrite Z.sub_diag, Z.mod_0_l by lia. cbn [Z.eqb]. lra.
    + destruct (Z.eqb_spec ((Z.of_nat l - Z.of_nat j) mod Z.of_nat n) 0) as [E|E]; [|lra]. exfalso. apply K.
      apply Z.mod_divide in E as [q E]; [|lia]. assert (q = 0)%Z by nia. lia.
Qed.
Lemma envelope_length x : length (envelope_samples x) = length x.
Proof. unfold envelope_samples. now rewrite map_length, seq_length. Qed.
Lemma envelope_nth x l : (l < length x)%nat -> nth l (envelope_samples x) 0 = sqrt (nth l x 0 * nth l x 0 + snd (analytic x l) * snd (analytic x l)).
Proof. intros L. unfold envelope_samples. rewrite nth_map_seq by assumption. f_equal. unfold abs2. now rewrite analytic_real. Qed.
Lemma envelope_above x l : (l < length x)%nat -> Rabs (nth l x 0) <= nth l (envelope_samples x) 0.
Proof.
  intros L. rewrite envelope_nth by assumption. rewrite <- sqrt_Rsqr_abs. apply sqrt_le_1_alt. unfold Rsqr.
  pose proof (Rle_0_sqr (snd (analytic x l))) as P. unfold Rsqr in P. lra.
Qed.
Lemma analytic_scale c x l : analytic (map (Rmult c) x) l = (c * fst (analytic x l), c * snd (analytic x l)).
Proof.
  rewrite (surjective_pairing (analytic (map (Rmult c) x) l)), !analytic_re, !analytic_im. rewrite map_length. set (n := length x).
  assert (E : forall j, nth j (map (Rmult c) x) 0 = c * nth j x 0).
  { intros j. replace 0 with (c * 0) at 1 by ring. apply map_nth. }
  f_equal; unfold Rdiv; rewrite <- Rmult_assoc; f_equal; rewrite <- rsum_scal; apply rsum_ext; intros k _.
  - rewrite E. ring.
  - rewrite <- Rmult_assoc, (Rmult_comm c), Rmult_assoc. f_equal. rewrite <- rsum_scal. apply rsum_ext. intros j _. rewrite E. ring.
Qed.
Lemma envelope_scale c x : envelope_samples (map (Rmult c) x) = map (Rmult (Rabs c)) (envelope_samples x).
Proof.
  unfold envelope_samples. rewrite map_length, map_map. apply map_ext. intros l. rewrite analytic_scale. unfold abs2. cbn [fst snd].
  replace (c * fst (analytic x l) * (c * fst (analytic x l)) + c * snd (analytic x l) * (c * snd (analytic x l))) with
    (Rsqr c * (fst (analytic x l) * fst (analytic x l) + snd (analytic x l) * snd (analytic x l))) by (unfold Rsqr; ring).
  rewrite sqrt_mult_alt by apply Rle_0_sqr. now rewrite sqrt_Rsqr_abs.
Qed.

(** ** a harmonic with a whole number of periods *)
Lemma harmonic_im n k0 A phi l : (0 < k0)%nat -> (2 * k0 < n)%nat -> (l < n)%nat ->
  snd (analytic (harmonic n k0 A phi) l) = A * sin (2 * PI * INR k0 * INR l / INR n + phi).
Proof.
  intros K0 K1 L. assert (N : INR n <> 0) by (apply not_0_INR; lia).
  assert (Lh : length (harmonic n k0 A phi) = n) by (unfold harmonic; now rewrite map_length, seq_length). rewrite analytic_im, Lh.
  set (al k := 2 * PI * INR k * INR l / INR n).
  rewrite (rsum_ext n _ (fun k => if (k =? k0)%nat then INR n * (A * sin (al k0 + phi)) else 0)).
  { rewrite (rsum_single n k0); [|lia|intros k _ K; now rewrite (proj2 (Nat.eqb_neq k k0) K)]. rewrite Nat.eqb_refl. unfold al. field. assumption. }
  intros k K.
  assert (S : rsum n (fun j => nth j (harmonic n k0 A phi) 0 * sin (th n k (Z.of_nat l - Z.of_nat j))) =
    A / 2 * (rsum n (fun j => sin (al k + phi + 2 * PI * IZR (Z.of_nat k0 - Z.of_nat k) * INR j / INR n)) +
             rsum n (fun j => sin (al k - phi + 2 * PI * IZR (- (Z.of_nat k0 + Z.of_nat k)) * INR j / INR n)))).
  { rewrite <- rsum_plus, <- rsum_scal. apply rsum_ext. intros j J. unfold harmonic. rewrite nth_map_seq by assumption.
    set (u := 2 * PI * INR k0 * INR j / INR n + phi). set (v := th n k (Z.of_nat l - Z.of_nat j)).
    replace (al k + phi + 2 * PI * IZR (Z.of_nat k0 - Z.of_nat k) * INR j / INR n) with (v + u).
    2:{ unfold u, v, al, th. rewrite !minus_IZR, <- !INR_IZR_INZ. field. assumption. }
    replace (al k - phi + 2 * PI * IZR (- (Z.of_nat k0 + Z.of_nat k)) * INR j / INR n) with (v - u).
    2:{ unfold u, v, al, th. rewrite opp_IZR, plus_IZR, minus_IZR, <- !INR_IZR_INZ. field. assumption. }
    rewrite sin_plus, sin_minus. field. }
  rewrite S, !period_sin by lia.
  destruct (Nat.eqb_spec k k0) as [->|D].
  - rewrite Z.sub_diag, Z.mod_0_l by lia. cbn [Z.eqb].
    destruct (Z.eqb_spec ((- (Z.of_nat k0 + Z.of_nat k0)) mod Z.of_nat n) 0) as [E|E].
    { exfalso. apply Z.mod_divide in E as [q E]; [|lia]. assert (q = -1 \/ q <= -2 \/ 0 <= q)%Z as [->|[?|?]] by lia; nia. }
    unfold one_sided. rewrite (proj2 (Nat.eqb_neq k0 0)), (proj2 (Nat.eqb_neq (2 * k0) n)), (proj2 (Nat.ltb_lt (2 * k0) n)) by lia. field.
  - destruct (Z.eqb_spec ((Z.of_nat k0 - Z.of_nat k) mod Z.of_nat n) 0) as [E|E].
    { exfalso. apply Z.mod_divide in E as [q E]; [|lia]. assert (q = 0)%Z by nia. lia. }
    destruct (Z.eqb_spec ((- (Z.of_nat k0 + Z.of_nat k)) mod Z.of_nat n) 0) as [E'|E']; [|lra].
    apply Z.mod_divide in E' as [q E']; [|lia]. assert (q = -1)%Z as -> by nia. assert (k = n - k0)%nat as -> by lia.
    unfold one_sided. rewrite (proj2 (Nat.eqb_neq (n - k0) 0)), (proj2 (Nat.eqb_neq (2 * (n - k0)) n)), (proj2 (Nat.ltb_ge (2 * (n - k0)) n)) by lia. lra.
Qed.
Lemma envelope_harmonic n k0 A phi : (0 < k0)%nat -> (2 * k0 < n)%nat -> envelope_samples (harmonic n k0 A phi) = repeat (Rabs A) n.
Proof.
  intros K0 K1. assert (Lh : length (harmonic n k0 A phi) = n) by (unfold harmonic; now rewrite map_length, seq_length).
  apply list_eq_nth with (d := 0); rewrite envelope_length, Lh; [now rewrite repeat_length|].
  intros i I. rewrite envelope_nth by lia. rewrite harmonic_im by assumption. unfold harmonic. rewrite nth_map_seq by assumption.
  set (u := 2 * PI * INR k0 * INR i / INR n + phi).
  replace (A * cos u * (A * cos u) + A * sin u * (A * sin u)) with (Rsqr A * (Rsqr (sin u) + Rsqr (cos u))) by (unfold Rsqr; ring).
  rewrite sin2_cos2, Rmult_1_r, sqrt_Rsqr_abs. rewrite (nth_indep _ 0 (Rabs A)) by (rewrite repeat_length; lia). now rewrite nth_repeat.
Qed.
