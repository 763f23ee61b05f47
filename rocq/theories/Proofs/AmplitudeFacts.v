(** Proofs about clipping, normalising, detrending and tapering (Model.TimeDomain). *)
From Coq Require Import Reals QArith Qround Lra.
From Verif Require Import Lib.Base Model.Spectral Model.TimeDomain Spec.TimeDomainSpec Proofs.SpectralFacts Proofs.TimeDomainFacts.
Local Open Scope R_scope.

Lemma nth_map0 (f : R -> R) l i : (i < length l)%nat -> nth i (map f l) 0 = f (nth i l 0).
Proof. intros H. rewrite (nth_indep _ 0 (f 0)) by now rewrite map_length. apply map_nth. Qed.

(** ** Mean and standard deviation *)
Lemma std_nonneg x : 0 <= std x. Proof. apply sqrt_pos. Qed.
Lemma mean_map_affine c d x : x <> [] -> mean (map (fun v => c * v + d) x) = c * mean x + d.
Proof.
  intros H. assert (P : 0 < INR (length x)) by (apply lt_0_INR; destruct x; [congruence|cbn; lia]).
  unfold mean. rewrite map_length. rewrite (rsum_ext _ _ (fun j => c * nth j x 0 + d)); [|intros; now rewrite (nth_map0 (fun v => c * v + d))].
  rewrite rsum_plus, rsum_scal, rsum_const. field. lra.
Qed.
Lemma std_map_affine c d x : x <> [] -> std (map (fun v => c * v + d) x) = Rabs c * std x.
Proof.
  intros H. assert (P : 0 < INR (length x)) by (apply lt_0_INR; destruct x; [congruence|cbn; lia]).
  unfold std. rewrite mean_map_affine, map_length by assumption.
  rewrite (rsum_ext _ _ (fun j => (c * c) * ((nth j x 0 - mean x) * (nth j x 0 - mean x)))).
  - rewrite rsum_scal. unfold Rdiv. rewrite Rmult_assoc, sqrt_mult.
    + f_equal. change (c * c) with (Rsqr c). apply sqrt_Rsqr_abs.
    + apply Rle_0_sqr.
    + apply Rmult_le_pos; [|left; now apply Rinv_0_lt_compat]. apply rsum_nonneg. intros; apply Rle_0_sqr.
  - intros j J. rewrite (nth_map0 (fun v => c * v + d)) by assumption. ring.
Qed.
Lemma std_zero x i : std x = 0 -> (i < length x)%nat -> nth i x 0 = mean x.
Proof.
  intros H I. assert (P : 0 < INR (length x)) by (apply lt_0_INR; lia).
  unfold std in H. set (f := fun j => (nth j x 0 - mean x) * (nth j x 0 - mean x)) in *.
  assert (N : forall j, 0 <= f j) by (intros; apply Rle_0_sqr).
  apply sqrt_eq_0 in H.
  - assert (rsum (length x) f = 0) as S by (unfold Rdiv in H; apply Rmult_integral in H as [H|H]; [assumption|apply Rinv_neq_0_compat in H; [contradiction|lra]]).
    assert (f i = 0).
    { destruct (Rle_lt_or_eq_dec 0 (f i) (N i)) as [L|L]; [|auto]. exfalso.
      assert (rsum (length x) (fun _ => 0) < rsum (length x) f) by (apply rsum_lt with i; auto). rewrite rsum_const in H0. lra. }
    unfold f in H0. nra.
  - unfold Rdiv. apply Rmult_le_pos; [now apply rsum_nonneg|left; now apply Rinv_0_lt_compat].
Qed.
Lemma constant_std x c : x <> [] -> (forall i, (i < length x)%nat -> nth i x 0 = c) -> std x = 0.
Proof.
  intros N H. assert (P : 0 < INR (length x)) by (apply lt_0_INR; destruct x; [congruence|cbn; lia]).
  assert (M : mean x = c). { unfold mean. rewrite (rsum_ext _ _ (fun _ => c)) by assumption. rewrite rsum_const. field. lra. }
  unfold std. rewrite rsum_0; [unfold Rdiv; rewrite Rmult_0_l; apply sqrt_0|]. intros k K. rewrite H, M by assumption. ring.
Qed.

(** ** Clipping *)
Lemma clip_spec f x i : 0 <= f -> (i < length x)%nat -> nth i (clip_row f x) 0 = Rmax (- (f * std x)) (Rmin (f * std x) (nth i x 0)).
Proof.
  intros F I. unfold clip_row. cbv zeta. set (ts := f * std x). assert (T : 0 <= ts) by (apply Rmult_le_pos; [assumption|apply std_nonneg]).
  rewrite (nth_map0 (fun v => if Rlt_dec v (- ts) then - ts else v)) by now rewrite map_length. rewrite (nth_map0 (fun v => if Rlt_dec ts v then ts else v)) by assumption.
  destruct (Rlt_dec ts (nth i x 0)).
  - rewrite Rmin_left by lra. rewrite Rmax_right by lra. destruct Rlt_dec; lra.
  - rewrite Rmin_right by lra. destruct Rlt_dec; [rewrite Rmax_left by lra|rewrite Rmax_right by lra]; reflexivity.
Qed.
Lemma clip_length f x : length (clip_row f x) = length x. Proof. unfold clip_row. now rewrite !map_length. Qed.
Lemma clip_bound f x i : 0 <= f -> Rabs (nth i (clip_row f x) 0) <= f * std x.
Proof.
  intros F. assert (T : 0 <= f * std x) by (apply Rmult_le_pos; [assumption|apply std_nonneg]). destruct (Nat.lt_ge_cases i (length x)).
  - rewrite clip_spec by assumption. apply Rabs_le. unfold Rmax, Rmin. destruct Rle_dec; destruct Rle_dec; lra.
  - rewrite nth_overflow by (now rewrite clip_length). rewrite Rabs_R0. assumption.
Qed.

(** ** Normalising *)
Lemma norm_std_one x : x <> [] -> std x <> 0 -> std (norm_std_row x) = 1.
Proof.
  intros N S. unfold norm_std_row. destruct Req_EM_T; [contradiction|]. pose proof (std_nonneg x).
  rewrite (map_ext (fun v => v / std x) (fun v => / std x * v + 0)) by (intros; unfold Rdiv; ring).
  rewrite std_map_affine by assumption. rewrite Rabs_right; [field; assumption|]. left. apply Rinv_0_lt_compat. lra.
Qed.
Lemma norm_std_constant x : std x = 0 -> norm_std_row x = x.
Proof. intros S. unfold norm_std_row. destruct Req_EM_T; [|contradiction]. rewrite <- (map_id x) at 2. apply map_ext. intros. unfold Rdiv. rewrite Rinv_1. ring. Qed.
Lemma norm_std_scale c d x : x <> [] -> 0 < c -> std x <> 0 -> norm_std_row (map (fun v => c * v + 0) x) = norm_std_row x /\
  std (norm_std_row (map (fun v => c * v + d) x)) = 1.
Proof.
  intros N C S. pose proof (std_nonneg x). assert (E : std (map (fun v => c * v + 0) x) = c * std x) by (rewrite std_map_affine, Rabs_right by (assumption || lra); reflexivity).
  split.
  - unfold norm_std_row. rewrite E. destruct Req_EM_T as [Z|_]; [exfalso; nra|]. destruct Req_EM_T; [contradiction|].
    rewrite map_map. apply map_ext. intros v. field. lra.
  - apply norm_std_one; [destruct x; [congruence|discriminate]|]. rewrite std_map_affine, Rabs_right by (assumption || lra). nra.
Qed.
Lemma demean_mean x : x <> [] -> mean (demean_row x) = 0.
Proof.
  intros N. unfold demean_row. rewrite (map_ext _ (fun v => 1 * v + - mean x)) by (intros; ring). rewrite mean_map_affine by assumption. ring.
Qed.
Lemma sign_spec v : (v < 0 -> sign v = -1) /\ (v = 0 -> sign v = 0) /\ (0 < v -> sign v = 1).
Proof. unfold sign. destruct Rlt_dec; [|destruct Rlt_dec]; repeat split; intros; lra. Qed.
Lemma sign_bit_scale c x : 0 < c -> sign_bit_row (map (fun v => c * v) x) = sign_bit_row x.
Proof.
  intros C. unfold sign_bit_row. rewrite map_map. apply map_ext. intros v. unfold sign.
  destruct (Rlt_dec v 0); destruct (Rlt_dec (c * v) 0); try nra; destruct (Rlt_dec 0 v); destruct (Rlt_dec 0 (c * v)); nra.
Qed.

(** ** Detrending *)
Lemma dot_comm a b : length a = length b -> dot a b = dot b a.
Proof. intros L. unfold dot. rewrite L. apply rsum_ext. intros. ring. Qed.
Lemma detrend_length f d : length (detrendqr_row f d) = length d. Proof. unfold detrendqr_row. now rewrite map_length, seq_length. Qed.
Lemma trend_nth n k : (k < n)%nat -> nth k (trend_col n) 0 = INR k / INR n. Proof. intros H. unfold trend_col. now rewrite nth_map_seq. Qed.
(** the fitted line is the projection on the two columns of Q *)
Lemma detrend_nth f d k : qr_ok (length d) f -> (k < length d)%nat ->
  nth k (detrendqr_row f d) 0 = nth k d 0 - (nth k (q1 f) 0 * dot (q1 f) d + nth k (q2 f) 0 * dot (q2 f) d).
Proof.
  intros (L1 & L2 & R1 & R2 & X1 & X2 & _) K. unfold detrendqr_row. rewrite nth_map_seq by assumption. unfold detrend_coeff. cbn [fst snd].
  f_equal. rewrite <- X1 by assumption. specialize (X2 k K). set (a := dot (q1 f) d) in *. set (b := dot (q2 f) d) in *.
  assert (nth k (q2 f) 0 = (1 - nth k (q1 f) 0 * r12 f) / r22 f) as -> by (rewrite <- X2; field; assumption). field. split; assumption.
Qed.
Lemma detrend_orth f d : qr_ok (length d) f -> dot (q1 f) (detrendqr_row f d) = 0 /\ dot (q2 f) (detrendqr_row f d) = 0.
Proof.
  intros Q. pose proof Q as (L1 & L2 & R1 & R2 & X1 & X2 & D11 & D12 & D22).
  assert (G : forall q, length q = length d -> dot q (detrendqr_row f d) = dot q d - (dot q (q1 f) * dot (q1 f) d + dot q (q2 f) * dot (q2 f) d)).
  { intros q LQ. unfold dot at 1 2 3 5. rewrite LQ. rewrite <- !rsum_scal_r, <- rsum_plus, <- rsum_minus. apply rsum_ext. intros k K. rewrite detrend_nth by assumption. ring. }
  split; rewrite G by assumption.
  - rewrite D11, D12. ring.
  - rewrite D22, (dot_comm (q2 f) (q1 f)), D12 by congruence. ring.
Qed.
Lemma detrend_no_trend f d : qr_ok (length d) f ->
  rsum (length d) (fun k => nth k (detrendqr_row f d) 0) = 0 /\ rsum (length d) (fun k => INR k * nth k (detrendqr_row f d) 0) = 0.
Proof.
  intros Q. pose proof Q as (L1 & L2 & R1 & R2 & X1 & X2 & _). destruct (detrend_orth f d Q) as [O1 O2]. unfold dot in O1, O2. rewrite L1 in O1. rewrite L2 in O2.
  split.
  - rewrite (rsum_ext _ _ (fun k => r12 f * (nth k (q1 f) 0 * nth k (detrendqr_row f d) 0) + r22 f * (nth k (q2 f) 0 * nth k (detrendqr_row f d) 0))).
    + rewrite rsum_plus, !rsum_scal, O1, O2. ring.
    + intros k K. specialize (X2 k K). replace (nth k (detrendqr_row f d) 0) with (1 * nth k (detrendqr_row f d) 0) at 1 by ring. rewrite <- X2. ring.
  - destruct d as [|v d]; [reflexivity|]. assert (P : 0 < INR (length (v :: d))) by (apply lt_0_INR; cbn; lia).
    rewrite (rsum_ext _ _ (fun k => (INR (length (v :: d)) * r11 f) * (nth k (q1 f) 0 * nth k (detrendqr_row f (v :: d)) 0))).
    + rewrite rsum_scal, O1. ring.
    + intros k K. specialize (X1 k K). rewrite trend_nth in X1 by assumption. assert (INR k = INR (length (v :: d)) * (nth k (q1 f) 0 * r11 f)) as -> by (rewrite X1; field; lra). ring.
Qed.
(** a line added to the data changes nothing *)
Lemma detrend_line f d a b : qr_ok (length d) f -> detrendqr_row f (map (fun k => nth k d 0 + (a + b * INR k)) (seq 0 (length d))) = detrendqr_row f d.
Proof.
  intros Q. pose proof Q as (L1 & L2 & R1 & R2 & X1 & X2 & D11 & D12 & D22). set (d' := map _ _). assert (L' : length d' = length d) by (unfold d'; now rewrite map_length, seq_length).
  assert (Q' : qr_ok (length d') f) by now rewrite L'.
  apply (list_eq_nth 0); [now rewrite !detrend_length|]. intros k K. rewrite detrend_length, L' in K. rewrite !detrend_nth by (assumption || congruence).
  assert (P : 0 < INR (length d)) by (apply lt_0_INR; lia).
  assert (E : forall j, (j < length d)%nat -> nth j d' 0 = nth j d 0 + ((a * r12 f + b * INR (length d) * r11 f) * nth j (q1 f) 0 + (a * r22 f) * nth j (q2 f) 0)).
  { intros j J. unfold d'. rewrite nth_map_seq by assumption. specialize (X1 j J). specialize (X2 j J). rewrite trend_nth in X1 by assumption.
    assert (INR j = INR (length d) * (nth j (q1 f) 0 * r11 f)) as -> by (rewrite X1; field; lra). f_equal. replace a with (a * 1) at 1 by ring. rewrite <- X2. ring. }
  set (u := a * r12 f + b * INR (length d) * r11 f) in *. set (w := a * r22 f) in *.
  assert (G : forall q, length q = length d -> dot q d' = dot q d + (u * dot q (q1 f) + w * dot q (q2 f))).
  { intros q LQ. unfold dot. rewrite LQ. rewrite <- !rsum_scal, <- !rsum_plus. apply rsum_ext. intros j J. rewrite E by assumption. ring. }
  rewrite !G, E, D11, D12, D22, (dot_comm (q2 f) (q1 f)), D12 by congruence. ring.
Qed.
(** Gram-Schmidt: there is such a factorisation as soon as there are two samples *)
Lemma all_samples_some l : all_samples (map Some l) = Some l.
Proof. induction l as [|v l IH]; cbn; [reflexivity|]. now rewrite IH. Qed.
Lemma all_samples_none d : In None d -> all_samples d = None.
Proof. induction d as [|[v|] d IH]; cbn; [intros []| |reflexivity]. intros [E|I]; [discriminate|]. now rewrite IH. Qed.
Lemma put_back_spec d : forall v, length v = length (existing d) -> length (put_back d v) = length d /\ existing (put_back d v) = v /\
  forall i, nth_error (put_back d v) i = Some None <-> nth_error d i = Some None.
Proof.
  induction d as [|[x|] d IH]; intros v L.
  - destruct v; [|discriminate]. repeat split; auto.
  - destruct v as [|w v]; [discriminate|]. change (S (length v) = S (length (existing d))) in L. injection L as L. destruct (IH v L) as (H1 & H2 & H3).
    split; [cbn; congruence|]. split; [change (w :: existing (put_back d v) = w :: v); congruence|].
    intros [|i]; cbn [nth_error put_back]; [split; intros E; discriminate|]. apply H3.
  - change (length v = length (existing d)) in L. destruct (IH v L) as (H1 & H2 & H3).
    split; [cbn; congruence|]. split; [exact H2|]. intros [|i]; cbn [nth_error put_back]; [split; auto|]. apply H3.
Qed.

(** ** There is a QR decomposition as soon as there are two samples *)
Lemma dot_pos a i : (i < length a)%nat -> nth i a 0 <> 0 -> 0 < dot a a.
Proof.
  intros I N. unfold dot. apply Rle_lt_trans with (rsum (length a) (fun _ => 0)); [rewrite rsum_0 by reflexivity; lra|]. apply rsum_lt with i; [assumption| |].
  - intros k K. apply Rle_0_sqr.
  - cbv beta. change (0 < Rsqr (nth i a 0)). now apply Rsqr_pos_lt.
Qed.
Lemma dot_scal_r a b c : dot a (map (fun v => c * v) b) = c * dot a b.
Proof.
  unfold dot. rewrite <- rsum_scal. apply rsum_ext. intros k K. destruct (Nat.lt_ge_cases k (length b)).
  - rewrite (nth_map0 (fun v => c * v)) by assumption. ring.
  - rewrite (nth_overflow b) by assumption. rewrite (nth_overflow (map _ b)) by (now rewrite map_length). ring.
Qed.
Lemma dot_scal_l a b c : dot (map (fun v => c * v) a) b = c * dot a b.
Proof. unfold dot. rewrite map_length, <- rsum_scal. apply rsum_ext. intros k K. rewrite (nth_map0 (fun v => c * v)) by assumption. ring. Qed.
Lemma qr_exists n : (2 <= n)%nat -> exists f, qr_ok n f.
Proof.
  intros N. set (X := trend_col n). assert (LX : length X = n) by (unfold X, trend_col; now rewrite map_length, seq_length).
  assert (P : 0 < INR n) by (apply lt_0_INR; lia).
  assert (DX : 0 < dot X X).
  { apply dot_pos with 1%nat; [lia|]. unfold X. rewrite trend_nth by lia. cbn [INR]. apply Rgt_not_eq. apply Rdiv_lt_0_compat; lra. }
  set (a := sqrt (dot X X)). assert (A : 0 < a) by now apply sqrt_lt_R0. assert (AA : a * a = dot X X) by (apply sqrt_sqrt; lra).
  set (p := map (fun v => / a * v) X). assert (LP : length p = n) by (unfold p; now rewrite map_length).
  assert (DP : dot p p = 1) by (unfold p; rewrite dot_scal_l, dot_scal_r, <- AA; field; lra).
  set (s := rsum n (fun k => nth k p 0)). set (u := map (fun k => 1 - s * nth k p 0) (seq 0 n)). assert (LU : length u = n) by (unfold u; now rewrite map_length, seq_length).
  assert (NU : forall k, (k < n)%nat -> nth k u 0 = 1 - s * nth k p 0) by (intros; unfold u; now rewrite nth_map_seq).
  assert (DPU : dot p u = 0).
  { unfold dot. rewrite LP. rewrite (rsum_ext _ _ (fun k => nth k p 0 - s * (nth k p 0 * nth k p 0))) by (intros; rewrite NU by assumption; ring).
    rewrite rsum_minus, rsum_scal. fold s. unfold dot in DP. rewrite LP in DP. rewrite DP. ring. }
  assert (DU : 0 < dot u u).
  { apply dot_pos with 0%nat; [lia|]. rewrite NU by lia. unfold p. rewrite (nth_map0 (fun v => / a * v)) by lia. unfold X. rewrite trend_nth by lia.
    change (INR 0) with 0. unfold Rdiv. rewrite Rmult_0_l, !Rmult_0_r. lra. }
  set (b := sqrt (dot u u)). assert (B : 0 < b) by now apply sqrt_lt_R0. assert (BB : b * b = dot u u) by (apply sqrt_sqrt; lra).
  exists {| q1 := p; q2 := map (fun v => / b * v) u; r11 := a; r12 := s; r22 := b |}. unfold qr_ok. cbn [q1 q2 r11 r12 r22].
  split; [assumption|]. split; [now rewrite map_length|]. split; [lra|]. split; [lra|]. split; [|split; [|split; [assumption|split]]].
  - intros k K. unfold p. rewrite (nth_map0 (fun v => / a * v)) by lia. fold X. field. lra.
  - intros k K. rewrite (nth_map0 (fun v => / b * v)) by lia. rewrite NU by assumption. field. lra.
  - rewrite dot_scal_r, DPU. ring.
  - rewrite dot_scal_l, dot_scal_r, <- BB. field. lra.
Qed.
Lemma no_qr_one : ~ exists f, qr_ok 1 f.
Proof.
  intros (f & L1 & _ & R1 & _ & X1 & _ & D & _). specialize (X1 O ltac:(lia)). rewrite trend_nth in X1 by lia. change (INR 0) with 0 in X1. unfold Rdiv in X1. rewrite Rmult_0_l in X1.
  apply Rmult_integral in X1 as [E|E]; [|contradiction]. unfold dot in D. rewrite L1 in D. cbn [rsum] in D. rewrite E in D. lra.
Qed.

(** ** Normalisation by the smoothed envelope *)
Lemma fold_max_ge l : forall a, a <= fold_left Rmax l a /\ forall v, In v l -> v <= fold_left Rmax l a.
Proof.
  induction l as [|x l IH]; intros a; cbn; [split; [lra|intros ? []]|]. destruct (IH (Rmax a x)) as [H1 H2]. pose proof (Rmax_l a x). pose proof (Rmax_r a x).
  split; [lra|]. intros v [<-|I]; [lra|auto].
Qed.
Lemma fold_max_in l : forall a, fold_left Rmax l a = a \/ In (fold_left Rmax l a) l.
Proof.
  induction l as [|x l IH]; intros a; cbn; [auto|]. destruct (IH (Rmax a x)) as [E|I]; [|auto]. rewrite E. unfold Rmax. destruct Rle_dec; auto.
Qed.
Lemma rmax_ge l v : In v l -> v <= rmax l.
Proof. destruct l as [|x l]; [intros []|]. cbn. destruct (fold_max_ge l x) as [H1 H2]. intros [<-|I]; [exact H1|now apply H2]. Qed.
Lemma rmax_in l : l <> [] -> In (rmax l) l.
Proof. destruct l as [|x l]; [congruence|]. intros _. unfold rmax. destruct (fold_max_in l x) as [->|I]; [now left|now right]. Qed.
Lemma rmax_scale c l : 0 <= c -> rmax (map (fun v => c * v) l) = c * rmax l.
Proof.
  intros C. destruct l as [|x l]; [cbn; ring|]. cbn. revert x. induction l as [|y l IH]; intros x; cbn; [reflexivity|].
  rewrite <- IH. f_equal. apply RmaxRmult. assumption.
Qed.
Lemma conv_ge a n i : (1 <= n)%nat -> (forall j, 0 <= nth j a 0) -> (i < length a)%nat -> nth i a 0 / INR n <= conv_at a (boxcar n) i.
Proof.
  intros N A I. unfold conv_at. rewrite box_length. set (off := Z.to_nat ((Z.of_nat n - 1) / 2)).
  assert (O : (off < n)%nat) by (subst off; pose proof (Z.div_le_upper_bound (Z.of_nat n - 1) 2 (Z.of_nat n - 1)); lia).
  set (g := fun t => _ : R). assert (G : g off = nth i a 0 / INR n).
  { unfold g. rewrite box_nth by assumption. assert (Z.of_nat i + (Z.of_nat n - 1) / 2 - Z.of_nat off = Z.of_nat i)%Z as -> by (subst off; rewrite Z2Nat.id by (apply Z.div_pos; lia); lia).
    rewrite at_in by lia. rewrite Nat2Z.id. unfold Rdiv. ring. }
  rewrite <- G. replace (g off) with (rsum n (fun t => if (t =? off)%nat then g t else 0)).
  - apply rsum_le. intros t T. destruct (t =? off)%nat; [lra|]. unfold g. apply Rmult_le_pos; [apply box_nonneg|]. unfold at_. destruct (0 <=? _)%Z; [apply A|lra].
  - rewrite (rsum_single n off); [now rewrite Nat.eqb_refl|assumption|]. intros k K D. apply Nat.eqb_neq in D. now rewrite D.
Qed.

Lemma env_eq n b : (1 <= n <= length b)%nat ->
  let sq := map (fun v => v * v) b in let b1 := map (conv_at sq (boxcar n)) (seq 0 (length b)) in
  let b3 := rev (map (conv_at (rev b1) (boxcar n)) (seq 0 (length b))) in
  td_envelope n b = Ok (map (fun v => v + rmax b3 * (1 / 1000000)) b3) /\ length b3 = length b /\
  forall i, (i < length b)%nat -> nth i b 0 * nth i b 0 / (INR n * INR n) <= nth i b3 0.
Proof.
  intros N sq b1 b3. assert (LS : length sq = length b) by (unfold sq; now rewrite map_length).
  assert (L1 : length b1 = length b) by (unfold b1; now rewrite map_length, seq_length).
  assert (P : 0 < INR n) by (apply lt_0_INR; lia).
  split; [|split].
  - unfold td_envelope. destruct (Nat.ltb_spec (length b) n); [lia|]. fold sq. rewrite conv_ok by (rewrite box_length; lia). cbn [bind]. rewrite LS. fold b1.
    rewrite conv_ok by (rewrite box_length; lia). cbn [bind]. rewrite rev_length, L1. reflexivity.
  - unfold b3. now rewrite rev_length, map_length, seq_length.
  - assert (SQ : forall j, 0 <= nth j sq 0). { intros j. unfold sq. destruct (Nat.lt_ge_cases j (length b)); [rewrite (nth_map0 (fun v => v * v)) by assumption; apply Rle_0_sqr|rewrite nth_overflow by (now rewrite map_length); lra]. }
    assert (B1 : forall j, (j < length b)%nat -> nth j sq 0 / INR n <= nth j b1 0). { intros j J. unfold b1. rewrite nth_map_seq by assumption. apply conv_ge; [lia|assumption|lia]. }
    assert (B1P : forall j, 0 <= nth j b1 0). { intros j. destruct (Nat.lt_ge_cases j (length b)) as [J|J]; [|rewrite nth_overflow by lia; lra]. eapply Rle_trans; [|now apply B1]. apply Rmult_le_pos; [apply SQ|left; now apply Rinv_0_lt_compat]. }
    intros i I. unfold b3. rewrite rev_nth' by (rewrite map_length, seq_length; assumption). rewrite map_length, seq_length. rewrite nth_map_seq by lia.
    assert (RV : forall j, 0 <= nth j (rev b1) 0). { intros j. destruct (Nat.lt_ge_cases j (length b)) as [J|J]; [rewrite rev_nth' by lia; apply B1P|rewrite nth_overflow by (rewrite rev_length; lia); lra]. }
    eapply Rle_trans; [|apply conv_ge; [lia|exact RV|rewrite rev_length; lia]]. rewrite rev_nth' by lia. rewrite L1.
    replace (length b - 1 - (length b - 1 - i))%nat with i by lia. specialize (B1 i I). unfold sq in B1. rewrite (nth_map0 (fun v => v * v)) in B1 by assumption.
    replace (nth i b 0 * nth i b 0 / (INR n * INR n)) with (nth i b 0 * nth i b 0 / INR n / INR n) by (field; lra).
    unfold Rdiv at 1 3. apply Rmult_le_compat_r; [left; now apply Rinv_0_lt_compat|assumption].
Qed.
Lemma env_ok n b e : td_envelope n b = Ok e -> (1 <= n)%nat -> length e = length b /\
  (forall i, (i < length b)%nat -> nth i b 0 * nth i b 0 / (INR n * INR n) <= nth i e 0) /\
  ((exists j, nth j b 0 <> 0) -> forall i, (i < length b)%nat -> 0 < nth i e 0).
Proof.
  intros E N1. assert (N : (1 <= n <= length b)%nat) by (unfold td_envelope in E; destruct (Nat.ltb_spec (length b) n); [discriminate|lia]).
  destruct (env_eq n b N) as (E' & L & G). rewrite E' in E. inversion E; subst e. clear E E'. set (b3 := rev _) in *.
  assert (P : 0 < INR n) by (apply lt_0_INR; lia).
  assert (Q : forall i, (i < length b)%nat -> 0 <= nth i b 0 * nth i b 0 / (INR n * INR n)). { intros. unfold Rdiv. apply Rmult_le_pos; [apply Rle_0_sqr|]. left. apply Rinv_0_lt_compat. nra. }
  assert (M : forall i, (i < length b)%nat -> nth i b3 0 <= rmax b3) by (intros i I; apply rmax_ge; apply nth_In; lia).
  assert (M0 : 0 <= rmax b3). { specialize (M O ltac:(lia)). specialize (G O ltac:(lia)). specialize (Q O ltac:(lia)). lra. }
  split; [now rewrite map_length|]. split.
  - intros i I. rewrite (nth_map0 (fun v => v + rmax b3 * (1 / 1000000))) by lia. specialize (G i I). lra.
  - intros [j J] i I. rewrite (nth_map0 (fun v => v + rmax b3 * (1 / 1000000))) by lia.
    assert (JL : (j < length b)%nat) by (destruct (Nat.lt_ge_cases j (length b)); [assumption|rewrite nth_overflow in J by assumption; lra]).
    assert (0 < nth j b 0 * nth j b 0 / (INR n * INR n)). { apply Rdiv_lt_0_compat; [|nra]. now apply Rsqr_pos_lt in J. }
    specialize (M j JL). pose proof (G j JL). specialize (G i I). specialize (Q i I). lra.
Qed.
Lemma env_zero n b : (1 <= n <= length b)%nat -> (forall j, nth j b 0 = 0) -> exists e, td_envelope n b = Ok e /\ length e = length b /\ forall i, nth i e 0 = 0.
Proof.
  intros N Z. destruct (env_eq n b N) as (E & L & _). eexists. split; [exact E|]. set (b3 := rev _) in *. split; [now rewrite map_length|].
  assert (C0 : forall a, (forall j, nth j a 0 = 0) -> forall i, conv_at a (boxcar n) i = 0). { intros a A i. unfold conv_at. apply rsum_0. intros. unfold at_. destruct (0 <=? _)%Z; rewrite ?A; ring. }
  assert (M0 : forall (f : nat -> R) m, (forall i, f i = 0) -> forall j, nth j (map f (seq 0 m)) 0 = 0).
  { intros f m F j. destruct (Nat.lt_ge_cases j m); [rewrite nth_map_seq by assumption; apply F|apply nth_overflow; now rewrite map_length, seq_length]. }
  assert (R0 : forall a : list R, (forall j, nth j a 0 = 0) -> forall j, nth j (rev a) 0 = 0).
  { intros a A j. destruct (Nat.lt_ge_cases j (length a)); [rewrite rev_nth' by assumption; apply A|apply nth_overflow; now rewrite rev_length]. }
  assert (B3 : forall j, nth j b3 0 = 0).
  { unfold b3. apply R0. apply M0. apply C0. apply R0. apply M0. apply C0. intros j. destruct (Nat.lt_ge_cases j (length b)); [rewrite (nth_map0 (fun v => v * v)) by assumption; rewrite Z; ring|apply nth_overflow; now rewrite map_length]. }
  assert (X : rmax b3 = 0). { assert (I : In (rmax b3) b3) by (apply rmax_in; intros Q; rewrite Q in L; cbn in L; lia). apply (In_nth _ _ 0) in I as (k & _ & K). rewrite <- K. apply B3. }
  intros i. destruct (Nat.lt_ge_cases i (length b3)); [|apply nth_overflow; now rewrite map_length].
  rewrite (nth_map0 (fun v => v + rmax b3 * (1 / 1000000))) by assumption. rewrite B3, X. ring.
Qed.
Lemma divide_nth x e i : (i < length x)%nat -> length e = length x ->
  nth i (td_divide x e) None = if Req_EM_T (nth i e 0) 0 then None else Some (nth i x 0 / sqrt (nth i e 0)).
Proof.
  intros I L. unfold td_divide. set (g := fun p : R * R => _). destruct (nth_error (combine x e) i) as [p|] eqn:E.
  - rewrite (nth_error_nth (map g (combine x e)) i None (x := g p)) by (now apply map_nth_error). apply nth_error_nth with (d := (0, 0)) in E.
    rewrite combine_nth in E by congruence. subst p. reflexivity.
  - apply nth_error_None in E. rewrite combine_length in E. lia.
Qed.
Lemma conv_scale c a v i : conv_at (map (fun u => c * u) a) v i = c * conv_at a v i.
Proof.
  unfold conv_at. rewrite <- rsum_scal. apply rsum_ext. intros t T. unfold at_. destruct (0 <=? _)%Z; [|ring]. set (j := Z.to_nat _).
  destruct (Nat.lt_ge_cases j (length a)); [rewrite (nth_map0 (fun u => c * u)) by assumption; ring|]. rewrite (nth_overflow a), (nth_overflow (map _ a)) by (rewrite ?map_length; assumption). ring.
Qed.
Lemma env_scale n b c : td_envelope n (map (fun v => c * v) b) = match td_envelope n b with Ok e => Ok (map (fun v => (c * c) * v) e) | Raise x => Raise x end.
Proof.
  unfold td_envelope. rewrite map_length. destruct (length b <? n)%nat; [reflexivity|].
  assert (CS : forall a v, convolve_same (map (fun u => c * c * u) a) v = match convolve_same a v with Ok r => Ok (map (fun u => c * c * u) r) | Raise x => Raise x end).
  { intros a v. unfold convolve_same. destruct v; [reflexivity|]. rewrite map_length, map_map. f_equal. apply map_ext. intros. apply conv_scale. }
  rewrite map_map. rewrite (map_ext (fun x => c * x * (c * x)) (fun x => c * c * (x * x))) by (intros; ring). rewrite <- (map_map (fun x => x * x) (fun x => c * c * x)). rewrite CS.
  destruct (convolve_same (map (fun x => x * x) b) (boxcar n)) as [b1|]; cbn [bind]; [|reflexivity]. rewrite <- map_rev, CS.
  destruct (convolve_same (rev b1) (boxcar n)) as [b2|]; cbn [bind]; [|reflexivity]. f_equal. rewrite <- map_rev, !map_map. apply map_ext. intros v.
  rewrite rmax_scale by (apply Rle_0_sqr). ring.
Qed.

Lemma divide_scale c : 0 < c -> forall x e, Forall (Rle 0) e -> td_divide (map (fun v => c * v) x) (map (fun v => c * c * v) e) = td_divide x e.
Proof.
  intros C. unfold td_divide. induction x as [|v x IH]; intros [|w e] F; cbn [map combine]; try reflexivity. inversion F; subst. rewrite IH by assumption. f_equal. cbn [fst snd].
  destruct (Req_EM_T w 0) as [Z|Z]; destruct (Req_EM_T (c * c * w) 0) as [Z2|Z2]; try reflexivity.
  - exfalso. apply Z2. rewrite Z. ring.
  - exfalso. apply Rmult_integral in Z2 as [Z2|Z2]; [nra|contradiction].
  - f_equal. rewrite sqrt_mult by nra. rewrite sqrt_square by lra. assert (0 < sqrt w) by (apply sqrt_lt_R0; lra). field. lra.
Qed.
Lemma env_nonneg n b e : td_envelope n b = Ok e -> Forall (Rle 0) e.
Proof.
  intros E. assert (N : (1 <= n)%nat). { destruct n; [|lia]. unfold td_envelope in E. destruct (length b <? 0)%nat; [discriminate|]. cbn in E. discriminate. }
  destruct (env_ok n b e E N) as (L & G & _). apply Forall_forall. intros v V. apply (In_nth _ _ 0) in V as (i & I & <-).
  eapply Rle_trans; [|apply G; lia]. assert (P : 0 < INR n) by (apply lt_0_INR; lia). unfold Rdiv. apply Rmult_le_pos; [apply Rle_0_sqr|]. left. apply Rinv_0_lt_compat. nra.
Qed.
Lemma td_spec filt len sr x y : td_normalize filt len sr x = Ok y -> (0 < sr)%Q -> length (filt x) = length x -> (exists j, nth j (filt x) 0 <> 0) ->
  length y = length x /\ forall i, (i < length x)%nat -> exists e, 0 < e /\ nth i (filt x) 0 * nth i (filt x) 0 / (INR (td_window len sr) * INR (td_window len sr)) <= e /\
    nth i y None = Some (nth i x 0 / sqrt e).
Proof.
  intros E S L J. unfold td_normalize in E. destruct (Qle_bool len 0) eqn:LE; [discriminate|].
  assert (0 < len)%Q as LP by (destruct (Qlt_le_dec 0 len) as [|H]; [assumption|apply Qle_bool_iff in H; congruence]).
  assert (W : (1 <= td_window len sr)%nat). { unfold td_window. assert (0 < Qceiling (len * sr))%Z; [|lia]. rewrite Zlt_Qlt. apply Qlt_le_trans with (len * sr)%Q; [|apply Qle_ceiling]. now apply Qmult_lt_0_compat. }
  destruct (td_envelope (td_window len sr) (filt x)) as [e|] eqn:EE; cbn [bind] in E; [|discriminate]. inversion E; subst y. clear E.
  destruct (env_ok _ _ _ EE W) as (LE2 & G & P). split; [unfold td_divide; rewrite map_length, combine_length; lia|]. intros i I. exists (nth i e 0).
  rewrite divide_nth by (assumption || congruence). pose proof (P J i ltac:(lia)). split; [assumption|]. split; [apply G; lia|]. destruct Req_EM_T; [lra|reflexivity].
Qed.
Lemma td_bound len sr x y i v : td_normalize (fun b => b) len sr x = Ok y -> (0 < sr)%Q -> (exists j, nth j x 0 <> 0) -> nth i y None = Some v ->
  Rabs v <= INR (td_window len sr).
Proof.
  intros E S J V. destruct (td_spec (fun b => b) len sr x y E S eq_refl J) as [L H].
  assert (I : (i < length x)%nat) by (destruct (Nat.lt_ge_cases i (length x)); [assumption|rewrite nth_overflow in V by lia; discriminate]).
  destruct (H i I) as (e & P & G & V'). rewrite V' in V. inversion V; subst v. clear V V'.
  set (n := INR (td_window len sr)) in *. assert (N0 : 0 <= n) by apply pos_INR. assert (SE : 0 < sqrt e) by now apply sqrt_lt_R0. assert (SS : sqrt e * sqrt e = e) by (apply sqrt_sqrt; lra).
  unfold Rdiv. rewrite Rabs_mult, (Rabs_right (/ sqrt e)) by (left; now apply Rinv_0_lt_compat).
  apply Rmult_le_reg_r with (sqrt e); [assumption|]. rewrite Rmult_assoc, Rinv_l, Rmult_1_r by lra.
  destruct (Req_EM_T n 0) as [Z|NZ].
  - exfalso. unfold td_normalize in E. destruct (Qle_bool len 0) eqn:LE; [discriminate|]. unfold td_envelope in E.
    destruct (length x <? _)%nat; [discriminate|]. destruct (td_window len sr) eqn:W; [cbn in E; discriminate|]. subst n. rewrite S_INR in Z. pose proof (pos_INR n0). lra.
  - apply Rabs_le. assert (NP : 0 < n) by lra. assert (nth i x 0 * nth i x 0 <= (n * sqrt e) * (n * sqrt e)).
    { replace ((n * sqrt e) * (n * sqrt e)) with (e * (n * n)) by (rewrite <- SS at 1; ring). apply Rmult_le_reg_r with (/ (n * n)); [apply Rinv_0_lt_compat; nra|]. rewrite (Rmult_assoc e), Rinv_r by nra. unfold Rdiv in G. lra. }
    assert (0 < n * sqrt e) by nra. split; nra.
Qed.
Lemma td_zero filt len sr x y i : td_normalize filt len sr x = Ok y -> (0 < len)%Q -> (0 < sr)%Q -> length (filt x) = length x -> (forall j, nth j (filt x) 0 = 0) -> nth i y None = None.
Proof.
  intros E LP S L Z. unfold td_normalize in E. destruct (Qle_bool len 0); [discriminate|].
  assert (W : (1 <= td_window len sr)%nat). { unfold td_window. assert (0 < Qceiling (len * sr))%Z; [|lia]. rewrite Zlt_Qlt. apply Qlt_le_trans with (len * sr)%Q; [|apply Qle_ceiling]. now apply Qmult_lt_0_compat. }
  assert (W2 : (td_window len sr <= length (filt x))%nat) by (unfold td_envelope in E; destruct (Nat.ltb_spec (length (filt x)) (td_window len sr)); [discriminate|lia]).
  destruct (env_zero (td_window len sr) (filt x) (conj W W2) Z) as (e & EE & LE & EZ). rewrite EE in E. cbn [bind] in E. inversion E; subst y.
  destruct (Nat.lt_ge_cases i (length x)); [|apply nth_overflow; unfold td_divide; rewrite map_length, combine_length; lia].
  rewrite divide_nth by (assumption || congruence). rewrite EZ. destruct Req_EM_T; [reflexivity|lra].
Qed.
Lemma td_scale filt len sr x c : 0 < c -> filt (map (fun v => c * v) x) = map (fun v => c * v) (filt x) ->
  td_normalize filt len sr (map (fun v => c * v) x) = td_normalize filt len sr x.
Proof.
  intros C F. unfold td_normalize. destruct (Qle_bool len 0); [reflexivity|]. rewrite F, env_scale.
  destruct (td_envelope (td_window len sr) (filt x)) as [e|] eqn:E; cbn [bind]; [|reflexivity]. f_equal. apply divide_scale; [assumption|]. now apply env_nonneg in E.
Qed.

(** ** Tapering the ends *)
Lemma half_nth n k : (k < 2 * n)%nat -> nth k (half_sine n) 0 = sin (INR k * (PI / INR (2 * n - 1))).
Proof. intros H. unfold half_sine. now rewrite nth_map_seq. Qed.
Lemma half_range n k : (1 <= n)%nat -> (k < 2 * n)%nat -> 0 <= INR k * (PI / INR (2 * n - 1)) <= PI.
Proof.
  intros N K. pose proof PI_RGT_0. assert (P : 0 < INR (2 * n - 1)) by (apply lt_0_INR; lia). pose proof (pos_INR k).
  assert (INR k <= INR (2 * n - 1)) by (apply le_INR; lia). unfold Rdiv. pose proof (Rinv_0_lt_compat _ P). split.
  - apply Rmult_le_pos; [assumption|]. left. now apply Rmult_lt_0_compat.
  - replace (INR k * (PI * / INR (2 * n - 1))) with (PI * (INR k * / INR (2 * n - 1))) by ring. rewrite <- (Rmult_1_r PI) at 2. apply Rmult_le_compat_l; [lra|].
    apply Rmult_le_reg_r with (INR (2 * n - 1)); [assumption|]. rewrite Rmult_assoc, Rinv_l by lra. lra.
Qed.
Lemma half_bounds n k : (1 <= n)%nat -> (k < 2 * n)%nat -> 0 <= nth k (half_sine n) 0 < 1.
Proof.
  intros N K. rewrite half_nth by assumption. pose proof (half_range n k N K) as [A B]. pose proof PI_RGT_0. split; [now apply sin_ge_0|].
  set (t := INR k * (PI / INR (2 * n - 1))) in *. rewrite <- sin_PI2. destruct (Rtotal_order t (PI / 2)) as [T|[T|T]].
  - apply sin_increasing_1; lra.
  - exfalso. unfold t in T. assert (P : 0 < INR (2 * n - 1)) by (apply lt_0_INR; lia).
    assert (E : 2 * INR k = INR (2 * n - 1)). { apply Rmult_eq_reg_r with (PI / INR (2 * n - 1)); [|apply Rgt_not_eq; now apply Rdiv_lt_0_compat]. rewrite Rmult_assoc, T. field. lra. }
    change 2 with (INR 2) in E. rewrite <- mult_INR in E. apply INR_eq in E. lia.
  - rewrite <- sin_PI_x. apply sin_increasing_1; lra.
Qed.
Lemma half_mirror n k : (1 <= n)%nat -> (k < 2 * n)%nat -> nth (2 * n - 1 - k) (half_sine n) 0 = nth k (half_sine n) 0.
Proof.
  intros N K. rewrite !half_nth by lia. rewrite minus_INR by lia. assert (P : 0 < INR (2 * n - 1)) by (apply lt_0_INR; lia).
  replace ((INR (2 * n - 1) - INR k) * (PI / INR (2 * n - 1))) with (PI - INR k * (PI / INR (2 * n - 1))) by (field; lra). apply sin_PI_x.
Qed.
Lemma half_mono n k : (S k < n)%nat -> nth k (half_sine n) 0 <= nth (S k) (half_sine n) 0.
Proof.
  intros K. rewrite !half_nth by lia. pose proof (half_range n k ltac:(lia) ltac:(lia)). pose proof (half_range n (S k) ltac:(lia) ltac:(lia)). pose proof PI_RGT_0.
  assert (P : 0 < INR (2 * n - 1)) by (apply lt_0_INR; lia). pose proof (Rdiv_lt_0_compat _ _ PI_RGT_0 P) as Q.
  assert (INR (S k) * (PI / INR (2 * n - 1)) <= PI / 2).
  { replace (PI / 2) with ((INR (2 * n - 1) / 2) * (PI / INR (2 * n - 1))) by (field; lra). apply Rmult_le_compat_r; [lra|].
    assert (2 * INR (S k) <= INR (2 * n - 1)); [|lra]. change 2 with (INR 2). rewrite <- mult_INR. apply le_INR. lia. }
  assert (INR k * (PI / INR (2 * n - 1)) <= INR (S k) * (PI / INR (2 * n - 1))) by (apply Rmult_le_compat_r; [lra|apply le_INR; lia]).
  apply sin_incr_1; lra.
Qed.
Definition taper_weight (to_dtype : R -> R) (n len i : nat) : R :=
  if (i <? n)%nat then to_dtype (nth i (half_sine n) 0) else if (len - n <=? i)%nat then to_dtype (nth (i + 2 * n - len) (half_sine n) 0) else 1.
Lemma cos_taper_ok to_dtype len n x : (0 < len)%Q -> (1 <= n)%nat -> (2 * n <= length x)%nat ->
  exists y, cos_taper to_dtype len n x = Ok y /\ length y = length x /\ forall i, (i < length x)%nat -> nth i y 0 = nth i x 0 * taper_weight to_dtype n (length x) i.
Proof.
  intros L N X. unfold cos_taper. destruct (Qle_bool len 0) eqn:E; [apply Qle_bool_iff in E; now apply Qle_not_lt in E|].
  unfold cos_taper_row. destruct (Nat.ltb_spec (length x) (n * 2)); [lia|]. destruct (Nat.eqb_spec n 0); [lia|]. eexists. split; [reflexivity|].
  split; [now rewrite map_length, seq_length|]. intros i I. rewrite nth_map_seq by assumption. reflexivity.
Qed.
Lemma weight_bounds n len i : (1 <= n)%nat -> (2 * n <= len)%nat -> (i < len)%nat ->
  0 <= taper_weight (fun v => v) n len i <= 1 /\ ((n <= i < len - n)%nat -> taper_weight (fun v => v) n len i = 1) /\
  ((i = 0 \/ i = len - 1)%nat -> taper_weight (fun v => v) n len i = 0) /\
  taper_weight (fun v => v) n len (len - 1 - i) = taper_weight (fun v => v) n len i /\
  ((S i < n)%nat -> taper_weight (fun v => v) n len i <= taper_weight (fun v => v) n len (S i)).
Proof.
  intros N L I. unfold taper_weight. split; [|split; [|split; [|split]]].
  - destruct (Nat.ltb_spec i n); [pose proof (half_bounds n i N ltac:(lia)); lra|]. destruct (Nat.leb_spec (len - n) i); [|lra]. pose proof (half_bounds n (i + 2 * n - len) N ltac:(lia)). lra.
  - intros M. destruct (Nat.ltb_spec i n); [lia|]. destruct (Nat.leb_spec (len - n) i); [lia|reflexivity].
  - assert (Z : nth 0 (half_sine n) 0 = 0) by (rewrite half_nth by lia; change (INR 0) with 0; rewrite Rmult_0_l; apply sin_0).
    intros [->| ->].
    + destruct (Nat.ltb_spec 0 n); [assumption|lia].
    + destruct (Nat.ltb_spec (len - 1) n); [replace (len - 1)%nat with (2 * n - 1 - 0)%nat by lia; now rewrite half_mirror by lia|].
      destruct (Nat.leb_spec (len - n) (len - 1)); [|lia]. replace (len - 1 + 2 * n - len)%nat with (2 * n - 1 - 0)%nat by lia. now rewrite half_mirror by lia.
  - destruct (Nat.ltb_spec i n).
    + destruct (Nat.ltb_spec (len - 1 - i) n); [lia|]. destruct (Nat.leb_spec (len - n) (len - 1 - i)); [|lia].
      replace (len - 1 - i + 2 * n - len)%nat with (2 * n - 1 - i)%nat by lia. apply half_mirror; lia.
    + destruct (Nat.leb_spec (len - n) i).
      * destruct (Nat.ltb_spec (len - 1 - i) n); [|lia]. rewrite <- half_mirror by lia. f_equal. lia.
      * destruct (Nat.ltb_spec (len - 1 - i) n); [lia|]. destruct (Nat.leb_spec (len - n) (len - 1 - i)); [lia|reflexivity].
  - intros S0. destruct (Nat.ltb_spec i n); [|lia]. destruct (Nat.ltb_spec (S i) n); [|lia]. now apply half_mono.
Qed.
Lemma int_weights to_dtype n len i : (forall v, 0 <= v < 1 -> to_dtype v = 0) -> (1 <= n)%nat -> (2 * n <= len)%nat -> (i < len)%nat -> (i < n \/ len - n <= i)%nat -> taper_weight to_dtype n len i = 0.
Proof.
  intros D N L I E. unfold taper_weight. destruct (Nat.ltb_spec i n); [apply D, half_bounds; lia|]. destruct (Nat.leb_spec (len - n) i); [apply D, half_bounds; lia|lia].
Qed.
