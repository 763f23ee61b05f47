(** Proofs about Model.TimeDomain. *)
From Coq Require Import Reals QArith Qround Lra.
From Verif Require Import Lib.Base Model.Spectral Model.TimeDomain Spec.TimeDomainSpec Proofs.SpectralFacts.
Local Open Scope R_scope.
#[local] Ltac Zify.zify_post_hook ::= Z.div_mod_to_equations.

(** ** The taper *)
Lemma box_length n : length (boxcar n) = n. Proof. unfold boxcar. now rewrite map_length, seq_length. Qed.
Lemma taper_length n : length (taper_win n) = n. Proof. unfold taper_win. now rewrite map_length, seq_length. Qed.
Lemma box_nth n t : (t < n)%nat -> nth t (boxcar n) 0 = 1 / INR n.
Proof. intros H. unfold boxcar. now rewrite nth_map_seq. Qed.
Lemma taper_nth n t : (t < n)%nat -> nth t (taper_win n) 0 = (1 - cos (2 * PI * INR t / INR n)) / INR n.
Proof.
  intros H. unfold taper_win. rewrite nth_map_seq by assumption.
  replace (INR t / INR n * 2 * PI) with (2 * PI * INR t / INR n) by (unfold Rdiv; ring). unfold Rdiv; ring.
Qed.
Lemma taper_nonneg n t : 0 <= nth t (taper_win n) 0.
Proof.
  destruct (Nat.lt_ge_cases t n) as [H|H]; [|rewrite nth_overflow; [lra|now rewrite taper_length]].
  rewrite taper_nth by assumption. destruct (COS_bound (2 * PI * INR t / INR n)). unfold Rdiv.
  apply Rmult_le_pos; [lra|]. left. apply Rinv_0_lt_compat. apply lt_0_INR. lia.
Qed.
Lemma taper_first n : nth 0 (taper_win n) 0 = 0.
Proof.
  destruct n as [|n]; [reflexivity|]. rewrite taper_nth by lia. change (INR 0) with 0. replace (2 * PI * 0 / INR (S n)) with 0 by (unfold Rdiv; ring).
  rewrite cos_0. unfold Rdiv; ring.
Qed.
Lemma sum_cos n : (2 <= n)%nat -> rsum n (fun t => cos (2 * PI * INR t / INR n)) = 0.
Proof.
  intros H. assert (P : 0 < INR n) by (apply lt_0_INR; lia). assert (P2 : 2 <= INR n) by (change 2 with (INR 2); now apply le_INR).
  destruct n as [|m]; [lia|]. rewrite rsum_S. change (INR 0) with 0. replace (2 * PI * 0 / INR (S m)) with 0 by (unfold Rdiv; ring). rewrite cos_0.
  pose proof (telescope (PI / INR (S m)) m) as T. pose proof PI_RGT_0.
  assert (S0 : 0 < sin (PI / INR (S m))).
  { apply sin_gt_0; [now apply Rdiv_lt_0_compat|]. apply Rmult_lt_reg_r with (INR (S m)); [assumption|]. unfold Rdiv. rewrite Rmult_assoc, Rinv_l by lra. nra. }
  replace ((2 * INR m + 1) * (PI / INR (S m))) with (- (PI / INR (S m)) + 2 * INR 1 * PI) in T by (rewrite S_INR in *; cbn [INR]; field; lra).
  rewrite sin_period, sin_neg in T.
  rewrite (rsum_ext m _ (fun k => cos (2 * INR (S k) * (PI / INR (S m))))).
  - nra.
  - intros k K. f_equal. unfold Rdiv. ring.
Qed.
Lemma taper_sum n : (2 <= n)%nat -> rsum n (fun t => nth t (taper_win n) 0) = 1.
Proof.
  intros H. assert (P : 0 < INR n) by (apply lt_0_INR; lia).
  rewrite (rsum_ext n _ (fun t => / INR n * (1 - cos (2 * PI * INR t / INR n)))).
  - rewrite rsum_scal, rsum_minus, rsum_const, sum_cos by assumption. field. lra.
  - intros t T. rewrite taper_nth by assumption. unfold Rdiv. ring.
Qed.
Lemma taper_sum_le n : rsum n (fun t => nth t (taper_win n) 0) <= 1.
Proof.
  destruct (Nat.lt_ge_cases n 2) as [H|H]; [|rewrite taper_sum by assumption; lra].
  assert (n = 0 \/ n = 1)%nat as [->| ->] by lia; [cbn; lra|]. cbn [rsum]. rewrite taper_first. lra.
Qed.
Lemma taper_last n : (2 <= n)%nat -> 0 < nth (n - 1) (taper_win n) 0.
Proof.
  intros H. assert (P : 0 < INR n) by (apply lt_0_INR; lia). assert (P2 : 2 <= INR n) by (change 2 with (INR 2); now apply le_INR).
  rewrite taper_nth by lia. apply Rdiv_lt_0_compat; [|assumption]. pose proof PI_RGT_0.
  rewrite minus_INR by lia. cbn [INR].
  replace (2 * PI * (INR n - 1) / INR n) with (- (2 * PI / INR n) + 2 * INR 1 * PI) by (cbn [INR]; field; lra).
  rewrite cos_period, cos_neg. assert (cos (2 * PI / INR n) < 1); [|lra].
  assert (L : 2 * PI / INR n <= PI). { apply Rmult_le_reg_r with (INR n); [assumption|]. unfold Rdiv. rewrite Rmult_assoc, Rinv_l by lra. nra. }
  assert (0 < 2 * PI / INR n) by (apply Rdiv_lt_0_compat; lra).
  rewrite <- cos_0. apply cos_decreasing_1; lra.
Qed.
(** its value *)
Lemma taper_last_eq n : (2 <= n)%nat -> nth (n - 1) (taper_win n) 0 = (1 - cos (2 * PI / INR n)) / INR n.
Proof.
  intros H. assert (P : 0 < INR n) by (apply lt_0_INR; lia). rewrite taper_nth by lia. rewrite minus_INR by lia. cbn [INR].
  replace (2 * PI * (INR n - 1) / INR n) with (- (2 * PI / INR n) + 2 * INR 1 * PI) by (cbn [INR]; field; lra).
  now rewrite cos_period, cos_neg.
Qed.

(** ** Masks *)
Lemma at_in a i : (0 <= i < Z.of_nat (length a))%Z -> at_ a i = nth (Z.to_nat i) a 0.
Proof. intros H. unfold at_. destruct (Z.leb_spec 0 i); [reflexivity|lia]. Qed.
Lemma at_out a i : (i < 0 \/ Z.of_nat (length a) <= i)%Z -> at_ a i = 0.
Proof. intros H. unfold at_. destruct (Z.leb_spec 0 i); [|reflexivity]. apply nth_overflow. lia. Qed.
Definition weights (m : list R) : Prop := forall i, 0 <= nth i m 0 <= 1.
Lemma at_weights m i : weights m -> 0 <= at_ m i <= 1.
Proof. intros W. unfold at_. destruct (0 <=? i)%Z; [apply W|lra]. Qed.
Lemma conv_length a v r : convolve_same a v = Ok r -> length r = length a.
Proof. unfold convolve_same. destruct v; intros E; inversion E. now rewrite map_length, seq_length. Qed.
Lemma conv_ok a v : (0 < length v)%nat -> convolve_same a v = Ok (map (conv_at a v) (seq 0 (length a))).
Proof. destruct v; cbn [length]; [lia|reflexivity]. Qed.
Lemma conv_bounds a v i : weights a -> (forall t, 0 <= nth t v 0) -> rsum (length v) (fun t => nth t v 0) <= 1 -> 0 <= conv_at a v i <= 1.
Proof.
  intros W P S. unfold conv_at. split.
  - apply rsum_nonneg. intros t T. apply Rmult_le_pos; [apply P|apply at_weights, W].
  - eapply Rle_trans; [|exact S]. apply rsum_le. intros t T. rewrite <- (Rmult_1_r (nth t v 0)) at 2.
    apply Rmult_le_compat_l; [apply P|apply at_weights, W].
Qed.
Lemma mask_weights a x : weights (level_mask a x).
Proof.
  intros i. unfold level_mask. destruct (Nat.lt_ge_cases i (length (filtered a x))) as [H|H].
  - rewrite (nth_indep _ 0 ((fun c => if Rlt_dec (thres a x) (Rabs c) then 0 else 1) 0)) by now rewrite map_length.
    rewrite map_nth with (f := fun c => if Rlt_dec (thres a x) (Rabs c) then 0 else 1). destruct Rlt_dec; lra.
  - rewrite nth_overflow by (now rewrite map_length). lra.
Qed.
Lemma mask_length a x : filter_ok a x -> length (level_mask a x) = length x.
Proof. intros F. unfold level_mask. now rewrite map_length. Qed.
Lemma mask_at a x i : (i < length x)%nat -> filter_ok a x -> nth i (level_mask a x) 0 = if Rlt_dec (thres a x) (Rabs (nth i (filtered a x) 0)) then 0 else 1.
Proof.
  intros H F. unfold level_mask. rewrite (nth_indep _ 0 ((fun c => if Rlt_dec (thres a x) (Rabs c) then 0 else 1) 0)) by (rewrite map_length; congruence).
  apply map_nth with (f := fun c => if Rlt_dec (thres a x) (Rabs c) then 0 else 1).
Qed.
Lemma box_sum n : (1 <= n)%nat -> rsum n (fun t => nth t (boxcar n) 0) = 1.
Proof.
  intros H. assert (0 < INR n) by (apply lt_0_INR; lia). rewrite (rsum_ext n _ (fun _ => 1 / INR n)); [|intros; now apply box_nth].
  rewrite rsum_const. field. lra.
Qed.
Lemma box_nonneg n t : 0 <= nth t (boxcar n) 0.
Proof.
  destruct (Nat.lt_ge_cases t n) as [H|H]; [|rewrite nth_overflow; [lra|now rewrite box_length]].
  rewrite box_nth by assumption. left. apply Rdiv_lt_0_compat; [lra|]. apply lt_0_INR. lia.
Qed.
(** the moving mean is 1 only where nothing is masked *)
Lemma box_one m n i : (1 <= n)%nat -> weights m -> (forall t, (t < n)%nat -> at_ m (Z.of_nat i + (Z.of_nat n - 1) / 2 - Z.of_nat t) = 1) -> conv_at m (boxcar n) i = 1.
Proof.
  intros H W A. unfold conv_at. rewrite box_length. rewrite <- (box_sum n H). apply rsum_ext. intros t T. rewrite A by assumption. ring.
Qed.
Lemma rsum_lt n f g i : (i < n)%nat -> (forall k, (k < n)%nat -> f k <= g k) -> f i < g i -> rsum n f < rsum n g.
Proof.
  induction n as [|n IH]; intros L H S; [lia|]. cbn. destruct (Nat.eq_dec i n) as [->|N].
  - assert (rsum n f <= rsum n g) by (apply rsum_le; intros; apply H; lia). lra.
  - assert (rsum n f < rsum n g) by (apply IH; [lia|intros; apply H; lia|assumption]). specialize (H n (Nat.lt_succ_diag_r n)). lra.
Qed.
Lemma box_less m n i t : (t < n)%nat -> weights m -> at_ m (Z.of_nat i + (Z.of_nat n - 1) / 2 - Z.of_nat t) = 0 -> conv_at m (boxcar n) i < 1.
Proof.
  intros H W A. rewrite <- (box_sum n) by lia. unfold conv_at. rewrite box_length. apply rsum_lt with t; [assumption| |].
  - intros k K. rewrite <- (Rmult_1_r (nth k (boxcar n) 0)) at 2. apply Rmult_le_compat_l; [apply box_nonneg|apply at_weights, W].
  - rewrite A, Rmult_0_r, box_nth by assumption. apply Rdiv_lt_0_compat; [lra|]. apply lt_0_INR. lia.
Qed.
Definition ext (m : list R) (n : nat) : list R := map (fun v => if Rlt_dec v 1 then 0 else 1) (map (conv_at m (boxcar n)) (seq 0 (length m))).
Lemma ext_length m n : length (ext m n) = length m. Proof. unfold ext. now rewrite !map_length, seq_length. Qed.
Lemma ext_nth m n i : (i < length m)%nat -> nth i (ext m n) 0 = if Rlt_dec (conv_at m (boxcar n) i) 1 then 0 else 1.
Proof. intros H. unfold ext. rewrite map_map. now rewrite nth_map_seq. Qed.
Lemma ext_weights m n : weights (ext m n).
Proof.
  intros i. destruct (Nat.lt_ge_cases i (length m)) as [H|H].
  - rewrite ext_nth by assumption. destruct Rlt_dec; lra.
  - rewrite nth_overflow by (now rewrite ext_length). lra.
Qed.
Lemma extended_ok a n m : (1 <= n)%nat -> extended a n m = Ok (if m_extend a then ext m n else m).
Proof. intros H. unfold extended. destruct (m_extend a); [|reflexivity]. rewrite conv_ok by (rewrite box_length; lia). reflexivity. Qed.

(** the factor of one sample *)
Definition wt (a : mute_args) (n : nat) (x : list R) (i : nat) : R :=
  conv_at (if m_extend a then ext (level_mask a x) n else level_mask a x) (taper_win n) i.
Lemma mute_row_ok a sr x : (1 <= mute_ntap a sr < Z.of_nat (length x))%Z -> filter_ok a x ->
  exists y, mute_row a sr x = Ok y /\ length y = length x /\ forall i, (i < length x)%nat -> nth i y 0 = nth i x 0 * wt a (Z.to_nat (mute_ntap a sr)) x i.
Proof.
  intros N F. unfold mute_row. destruct (Z.leb_spec (Z.of_nat (length x)) (mute_ntap a sr)); [lia|].
  set (n := Z.to_nat (mute_ntap a sr)). unfold mute_weights. rewrite extended_ok by lia. cbn [bind].
  rewrite conv_ok by (rewrite taper_length; lia). cbn [bind]. eexists. split; [reflexivity|].
  assert (L : length (if m_extend a then ext (level_mask a x) n else level_mask a x) = length x) by (destruct (m_extend a); rewrite ?ext_length; now apply mask_length).
  rewrite L. split; [rewrite map_length, combine_length, map_length, seq_length; lia|]. intros i I.
  rewrite (nth_indep _ 0 ((fun p => fst p * snd p) (0, 0))) by (rewrite map_length, combine_length, map_length, seq_length; lia).
  rewrite (map_nth (fun p => fst p * snd p)). rewrite combine_nth by (now rewrite map_length, seq_length). cbn [fst snd]. rewrite nth_map_seq by assumption. reflexivity.
Qed.
Lemma base_weights a n x : weights (if m_extend a then ext (level_mask a x) n else level_mask a x).
Proof. destruct (m_extend a); [apply ext_weights|apply mask_weights]. Qed.
Lemma wt_bounds a n x i : 0 <= wt a n x i <= 1.
Proof.
  unfold wt. apply conv_bounds; [apply base_weights|apply taper_nonneg|]. rewrite taper_length. apply taper_sum_le.
Qed.

(** next to an exceeding sample the extended mask is 0 *)
Lemma ext_zero a n x i j : filter_ok a x -> (i < length x)%nat -> exceeds a x i -> (j < length x)%nat ->
  (Z.of_nat j + (Z.of_nat n - 1) / 2 - (Z.of_nat n - 1) <= Z.of_nat i <= Z.of_nat j + (Z.of_nat n - 1) / 2)%Z -> (1 <= n)%nat ->
  nth j (ext (level_mask a x) n) 0 = 0.
Proof.
  intros F I E J B N. rewrite ext_nth by now rewrite mask_length. destruct Rlt_dec as [|C]; [reflexivity|]. exfalso. apply C.
  apply box_less with (t := Z.to_nat (Z.of_nat j + (Z.of_nat n - 1) / 2 - Z.of_nat i)); [lia|apply mask_weights|].
  rewrite Z2Nat.id by lia. replace (_ - _)%Z with (Z.of_nat i) by lia. rewrite at_in by (rewrite mask_length by assumption; lia). rewrite Nat2Z.id.
  rewrite mask_at by assumption. destruct Rlt_dec; [reflexivity|contradiction].
Qed.
(** hence the factor of an exceeding sample comes from a single entry of the taper *)
Lemma wt_exceeds a n x i : m_extend a = true -> filter_ok a x -> (i < length x)%nat -> exceeds a x i -> (1 <= n)%nat ->
  wt a n x i = if Nat.odd n then 0 else nth (n - 1) (taper_win n) 0 * at_ (ext (level_mask a x) n) (Z.of_nat i - Z.of_nat n / 2).
Proof.
  intros M F I E N. unfold wt. rewrite M. unfold conv_at. rewrite taper_length.
  assert (Z1 : forall t, (t < n)%nat -> (t = n - 1 -> Nat.odd n = true)%nat -> nth t (taper_win n) 0 * at_ (ext (level_mask a x) n) (Z.of_nat i + (Z.of_nat n - 1) / 2 - Z.of_nat t) = 0).
  { intros t T O. set (z := (Z.of_nat i + (Z.of_nat n - 1) / 2 - Z.of_nat t)%Z).
    destruct (Z.lt_ge_cases z 0); [rewrite at_out by lia; ring|]. destruct (Z.lt_ge_cases z (Z.of_nat (length x))); [|rewrite at_out by (rewrite ext_length, mask_length by assumption; lia); ring].
    rewrite at_in by (rewrite ext_length, mask_length by assumption; lia). rewrite (ext_zero a n x i); try assumption; try ring; try lia. subst z.
    rewrite Z2Nat.id by lia.
    assert (T2 : (t = n - 1)%nat \/ (t < n - 1)%nat) by lia. destruct T2 as [T2|T2]; [|lia].
    apply Nat.odd_spec in O; [|assumption]. destruct O as [k O]. lia. }
  destruct (Nat.odd n) eqn:O.
  - apply rsum_0. intros t T. apply Z1; auto.
  - rewrite (rsum_single n (n - 1)).
    + f_equal. f_equal. assert (Ev : Nat.even n = true) by (rewrite <- Nat.negb_odd, O; reflexivity). apply Nat.even_spec in Ev as [k Ev]. lia.
    + lia.
    + intros t T D. apply Z1; [assumption|]. intros. contradiction.
Qed.
Lemma quiet_mask a x i d j : filter_ok a x -> quiet a x i d -> (Z.of_nat i - Z.of_nat d <= j <= Z.of_nat i + Z.of_nat d)%Z -> at_ (level_mask a x) j = 1.
Proof.
  intros F (Q1 & Q2 & Q3) J. rewrite at_in by (rewrite mask_length by assumption; lia). rewrite mask_at by (assumption || lia).
  destruct Rlt_dec as [L|]; [|reflexivity]. exfalso. apply (Q3 (Z.to_nat j)); [lia|exact L].
Qed.
Lemma wt_quiet a n x i : filter_ok a x -> quiet a x i n -> (2 <= n)%nat -> wt a n x i = 1.
Proof.
  intros F Q N. unfold wt. rewrite <- (taper_sum n) by assumption. unfold conv_at. rewrite taper_length. apply rsum_ext. intros t T.
  pose proof Q as (Q1 & Q2 & Q3).
  assert (at_ (if m_extend a then ext (level_mask a x) n else level_mask a x) (Z.of_nat i + (Z.of_nat n - 1) / 2 - Z.of_nat t) = 1) as ->; [|ring].
  destruct (m_extend a).
  - set (z := (Z.of_nat i + (Z.of_nat n - 1) / 2 - Z.of_nat t)%Z). rewrite at_in by (rewrite ext_length, mask_length by assumption; lia).
    rewrite ext_nth by (rewrite mask_length by assumption; lia). rewrite box_one; [destruct Rlt_dec; lra|lia|apply mask_weights|].
    intros u U. rewrite Z2Nat.id by lia. apply (quiet_mask a x i n); [assumption|assumption|lia].
  - apply (quiet_mask a x i n); [assumption|assumption|lia].
Qed.

(** ** The whole function *)
Lemma ntap_pos a sr x y : mute_row a sr x = Ok y -> (Z.of_nat (length x) <= mute_ntap a sr)%Z \/ (1 <= mute_ntap a sr < Z.of_nat (length x))%Z.
Proof.
  unfold mute_row. destruct (Z.leb_spec (Z.of_nat (length x)) (mute_ntap a sr)); [auto|]. intros E. right. split; [|assumption].
  destruct (Z.le_gt_cases 1 (mute_ntap a sr)); [assumption|]. exfalso. replace (Z.to_nat (mute_ntap a sr)) with O in E by lia.
  unfold mute_weights, extended in E. destruct (m_extend a); cbn in E; discriminate.
Qed.
Lemma short_zero a sr x : (Z.of_nat (length x) <= mute_ntap a sr)%Z -> mute_row a sr x = Ok (map (fun _ => 0) x).
Proof. intros H. unfold mute_row. destruct (Z.leb_spec (Z.of_nat (length x)) (mute_ntap a sr)); [reflexivity|lia]. Qed.
Lemma nth_zeros {X} (x : list X) i : nth i (map (fun _ => 0) x) 0 = 0.
Proof. revert i. induction x as [|v x IH]; intros [|i]; cbn; auto. Qed.
Lemma mute_rows a sr A B : mute a sr A = Ok B -> Forall2 (fun x y => mute_row a sr x = Ok y) A B.
Proof.
  unfold mute. destruct (Qeq_bool (m_taper a) 0); [discriminate|]. revert B. induction A as [|x A IH]; cbn; intros B E; [inversion E; constructor|].
  destruct (mute_row a sr x) eqn:E1; cbn in E; [|discriminate]. destruct (mapM (mute_row a sr) A) eqn:E2; cbn in E; inversion E; subst. constructor; auto.
Qed.
Lemma Forall2_nth_error {X Y} (P : X -> Y -> Prop) l m r x y : Forall2 P l m -> nth_error l r = Some x -> nth_error m r = Some y -> P x y.
Proof. intros F. revert r. induction F as [|u v l m P1 F IH]; intros [|r]; cbn; try discriminate; [congruence|apply IH]. Qed.
Lemma mute_sample a sr A B r x y i : mute a sr A = Ok B -> nth_error A r = Some x -> nth_error B r = Some y -> filter_ok a x -> (i < length x)%nat ->
  length y = length x /\
  (((Z.of_nat (length x) <= mute_ntap a sr)%Z /\ nth i y 0 = 0) \/
   ((1 <= mute_ntap a sr < Z.of_nat (length x))%Z /\ nth i y 0 = nth i x 0 * wt a (Z.to_nat (mute_ntap a sr)) x i)).
Proof.
  intros M HA HB F I. pose proof (Forall2_nth_error _ _ _ _ _ _ (mute_rows _ _ _ _ M) HA HB) as E. cbv beta in E.
  destruct (ntap_pos _ _ _ _ E) as [S|S].
  - rewrite short_zero in E by assumption. inversion E; subst. split; [now rewrite map_length|]. left. split; [assumption|apply nth_zeros].
  - destruct (mute_row_ok a sr x S F) as (y' & E' & L & V). rewrite E' in E. inversion E; subst. auto.
Qed.

Lemma odd_ZN z : (0 <= z)%Z -> Nat.odd (Z.to_nat z) = Z.odd z.
Proof.
  intros H. rewrite <- (Z2Nat.id z) at 2 by assumption. generalize (Z.to_nat z). intros n. clear.
  destruct (Nat.odd n) eqn:O.
  - apply Nat.odd_spec in O as [k ->]. symmetry. apply Z.odd_spec. exists (Z.of_nat k). lia.
  - symmetry. rewrite <- Z.negb_even. assert (E : Nat.even n = true) by (rewrite <- Nat.negb_odd, O; reflexivity).
    apply Nat.even_spec in E as [k ->]. rewrite (proj2 (Z.even_spec _)); [reflexivity|]. exists (Z.of_nat k). lia.
Qed.
Lemma muted_odd a sr A B r x y i : mute a sr A = Ok B -> nth_error A r = Some x -> nth_error B r = Some y -> filter_ok a x -> (i < length x)%nat ->
  m_extend a = true -> exceeds a x i -> (Z.odd (mute_ntap a sr) = true \/ Z.of_nat (length x) <= mute_ntap a sr)%Z -> nth i y 0 = 0.
Proof.
  intros M HA HB F I E X O. destruct (mute_sample a sr A B r x y i M HA HB F I) as [_ [[_ Z]|[N V]]]; [assumption|].
  rewrite V, wt_exceeds; try assumption; try lia. rewrite odd_ZN by lia. destruct O as [->|O]; [ring|lia].
Qed.
Lemma muted_even a sr A B r x y i : mute a sr A = Ok B -> nth_error A r = Some x -> nth_error B r = Some y -> filter_ok a x -> (i < length x)%nat ->
  m_extend a = true -> exceeds a x i -> let n := IZR (mute_ntap a sr) in Rabs (nth i y 0) <= Rabs (nth i x 0) * ((1 - cos (2 * PI / n)) / n) \/ nth i y 0 = 0.
Proof.
  intros M HA HB F I E X n. destruct (mute_sample a sr A B r x y i M HA HB F I) as [_ [[_ Z]|[N V]]]; [now right|].
  rewrite V, wt_exceeds; try assumption; try lia. rewrite odd_ZN by lia. destruct (Z.odd (mute_ntap a sr)) eqn:O; [right; ring|]. left.
  assert (N2 : (2 <= Z.to_nat (mute_ntap a sr))%nat). { destruct (Z.eq_dec (mute_ntap a sr) 1) as [Q|Q]; [rewrite Q in O; discriminate|lia]. }
  rewrite Rabs_mult. apply Rmult_le_compat_l; [apply Rabs_pos|].
  pose proof (taper_nonneg (Z.to_nat (mute_ntap a sr)) (Z.to_nat (mute_ntap a sr) - 1)) as T. rewrite taper_last_eq in T |- * by assumption.
  assert (INR (Z.to_nat (mute_ntap a sr)) = n) as NE by (unfold n; rewrite INR_IZR_INZ, Z2Nat.id by lia; reflexivity). rewrite NE in *.
  set (v := at_ _ _). assert (0 <= v <= 1) by (apply at_weights, ext_weights). rewrite Rabs_right by (apply Rle_ge; nra). nra.
Qed.
Lemma muted_smaller a sr A B r x y i : mute a sr A = Ok B -> nth_error A r = Some x -> nth_error B r = Some y -> filter_ok a x ->
  length y = length x /\ Rabs (nth i y 0) <= Rabs (nth i x 0).
Proof.
  intros M HA HB F. destruct (Nat.lt_ge_cases i (length x)) as [I|I].
  - destruct (mute_sample a sr A B r x y i M HA HB F I) as [L [[_ Z]|[N V]]].
    + split; [assumption|]. rewrite Z, Rabs_R0. apply Rabs_pos.
    + split; [assumption|]. rewrite V, Rabs_mult. destruct (wt_bounds a (Z.to_nat (mute_ntap a sr)) x i). rewrite (Rabs_right (wt _ _ _ _)) by lra.
      pose proof (Rabs_pos (nth i x 0)). nra.
  - assert (L : length y = length x).
    { pose proof (Forall2_nth_error _ _ _ _ _ _ (mute_rows _ _ _ _ M) HA HB) as E. cbv beta in E. destruct (ntap_pos _ _ _ _ E) as [S|S].
      - rewrite short_zero in E by assumption. inversion E. now rewrite map_length.
      - destruct (mute_row_ok a sr x S F) as (y' & E' & L & V). rewrite E' in E. inversion E; subst. assumption. }
    split; [assumption|]. rewrite !nth_overflow by lia. lra.
Qed.
Lemma muted_quiet a sr A B r x y i : mute a sr A = Ok B -> nth_error A r = Some x -> nth_error B r = Some y -> filter_ok a x ->
  (2 <= mute_ntap a sr < Z.of_nat (length x))%Z -> quiet a x i (Z.to_nat (mute_ntap a sr)) -> nth i y 0 = nth i x 0.
Proof.
  intros M HA HB F N Q. assert (I : (i < length x)%nat) by (destruct Q as (_ & Q & _); lia).
  destruct (mute_sample a sr A B r x y i M HA HB F I) as [_ [[S Z]|[_ V]]]; [lia|]. rewrite V, wt_quiet; try assumption; [ring|lia].
Qed.
Lemma mute_succeeds a sr A : ~ (m_taper a == 0)%Q -> (1 <= mute_ntap a sr)%Z -> Forall (filter_ok a) A -> exists B, mute a sr A = Ok B /\ length B = length A.
Proof.
  intros T N F. unfold mute. destruct (Qeq_bool (m_taper a) 0) eqn:E; [apply Qeq_bool_eq in E; contradiction|].
  induction A as [|x A IH]; [exists []; auto|]. inversion F; subst. destruct (IH H2) as (B & EB & LB).
  assert (exists y, mute_row a sr x = Ok y) as [y Ey].
  { destruct (Z.le_gt_cases (Z.of_nat (length x)) (mute_ntap a sr)); [eexists; now apply short_zero|].
    destruct (mute_row_ok a sr x) as (y & Ey & _); [lia|assumption|eauto]. }
  cbn [mapM]. rewrite Ey. cbn [bind]. rewrite EB. cbn. eexists. split; [reflexivity|]. cbn. congruence.
Qed.
Lemma mute_short_taper a sr A x : In x A -> x <> [] -> (mute_ntap a sr <= 0)%Z -> mute a sr A = Raise ValueError.
Proof.
  intros I X N. unfold mute. destruct (Qeq_bool (m_taper a) 0); [reflexivity|].
  assert (H : forall z, z <> [] -> mute_row a sr z = Raise ValueError).
  { intros z Z. unfold mute_row. destruct (Z.leb_spec (Z.of_nat (length z)) (mute_ntap a sr)); [destruct z; [congruence|cbn [length] in *; lia]|].
    replace (Z.to_nat (mute_ntap a sr)) with O by lia. unfold mute_weights, extended. destruct (m_extend a); reflexivity. }
  assert (H2 : forall z, (exists y, mute_row a sr z = Ok y) \/ mute_row a sr z = Raise ValueError).
  { intros [|v z]; [|right; apply H; discriminate]. unfold mute_row. destruct (Z.leb_spec (Z.of_nat (@length R [])) (mute_ntap a sr)); [left; eauto|].
    replace (Z.to_nat (mute_ntap a sr)) with O by lia. unfold mute_weights, extended. destruct (m_extend a); right; reflexivity. }
  induction A as [|z A IH]; [destruct I|]. cbn [mapM]. destruct (H2 z) as [[y Ey]|Ey]; rewrite Ey; cbn [bind]; [|reflexivity].
  destruct I as [->|I]; [rewrite H in Ey by assumption; discriminate|]. rewrite IH by assumption. reflexivity.
Qed.

(** ** An exceeding sample that is not muted, for every even taper *)
Definition spike (n : nat) : list R := repeat 0 n ++ [1] ++ repeat 0 n.
Definition plain_args (taper : Q) : mute_args := {| m_taper := taper; m_filter := None; m_level := Threshold (1 / 2); m_extend := true |}.
Lemma spike_length n : length (spike n) = (2 * n + 1)%nat. Proof. unfold spike. rewrite !app_length, !repeat_length. cbn. lia. Qed.
Lemma spike_nth n i : nth i (spike n) 0 = if (i =? n)%nat then 1 else 0.
Proof.
  unfold spike. destruct (Nat.eqb_spec i n) as [->|D].
  - rewrite app_nth2; rewrite repeat_length; [|lia]. now rewrite Nat.sub_diag.
  - destruct (Nat.lt_ge_cases i n).
    + rewrite app_nth1 by (now rewrite repeat_length). apply nth_repeat.
    + rewrite app_nth2; rewrite repeat_length; [|lia]. destruct (i - n)%nat eqn:E; [lia|]. cbn. apply nth_repeat.
Qed.
Lemma qfix_Z z : qfix (inject_Z z * 1) = z.
Proof.
  unfold qfix. destruct (Qle_bool 0 (inject_Z z * 1)).
  - rewrite (Qfloor_comp _ (inject_Z z)) by ring. apply Qfloor_Z.
  - rewrite (Qceiling_comp _ (inject_Z z)) by ring. apply Qceiling_Z.
Qed.
Lemma spike_not_muted (k : nat) : (1 <= k)%nat ->
  let a := plain_args (inject_Z (Z.of_nat (2 * k))) in let x := spike (2 * k) in
  exceeds a x (2 * k) /\ exists y, mute a 1 [x] = Ok [y] /\ nth (2 * k) y 0 <> 0.
Proof.
  intros K a x. assert (X : exceeds a x (2 * k)).
  { unfold exceeds, a, thres, filtered, plain_args, x. cbn [m_level m_filter]. rewrite spike_nth, Nat.eqb_refl, Rabs_R1. lra. }
  split; [assumption|]. assert (NT : mute_ntap a 1 = Z.of_nat (2 * k)) by (unfold mute_ntap, a; cbn [m_taper plain_args]; apply qfix_Z).
  assert (F : filter_ok a x) by reflexivity.
  destruct (mute_row_ok a 1 x) as (y & E & L & V); [rewrite NT; unfold x; rewrite spike_length; lia|assumption|].
  exists y. split.
  - unfold mute. assert (Qeq_bool (m_taper a) 0 = false) as ->.
    { destruct (Qeq_bool (m_taper a) 0) eqn:Q; [|reflexivity]. apply Qeq_bool_eq in Q. unfold a in Q. cbn [m_taper plain_args] in Q. unfold Qeq in Q. cbn [Qnum Qden inject_Z] in Q. lia. }
    cbn [mapM]. rewrite E. reflexivity.
  - rewrite V by (unfold x; rewrite spike_length; lia). rewrite NT, Nat2Z.id. rewrite wt_exceeds; try assumption; try reflexivity; try (unfold x; rewrite spike_length; lia); try lia.
    assert (Nat.odd (2 * k) = false) as -> by (rewrite <- Nat.negb_even, (proj2 (Nat.even_spec _)); [reflexivity|exists k; lia]).
    unfold x. rewrite spike_nth, Nat.eqb_refl. pose proof (taper_last (2 * k) ltac:(lia)).
    assert (at_ (ext (level_mask a (spike (2 * k))) (2 * k)) (Z.of_nat (2 * k) - Z.of_nat (2 * k) / 2) = 1) as ->; [|lra].
    rewrite at_in by (rewrite ext_length, mask_length, spike_length by reflexivity; lia).
    rewrite ext_nth by (rewrite mask_length, spike_length by reflexivity; lia). rewrite box_one; [destruct Rlt_dec; lra|lia|apply mask_weights|].
    intros t T. rewrite at_in by (rewrite mask_length, spike_length by reflexivity; lia). rewrite mask_at by (reflexivity || (rewrite spike_length; lia)).
    unfold a, plain_args, filtered, thres. cbn [m_filter m_level]. rewrite spike_nth.
    match goal with |- context [(?z =? _)%nat] => destruct (Nat.eqb_spec z (2 * k)) as [Q|Q] end; [lia|]. rewrite Rabs_R0. destruct Rlt_dec; [lra|reflexivity].
Qed.
(** a taper of one sample removes everything *)
Lemma one_sample a sr A B r x y i : mute a sr A = Ok B -> nth_error A r = Some x -> nth_error B r = Some y -> filter_ok a x ->
  mute_ntap a sr = 1%Z -> nth i y 0 = 0.
Proof.
  intros M HA HB F N. destruct (Nat.lt_ge_cases i (length x)) as [I|I].
  - destruct (mute_sample a sr A B r x y i M HA HB F I) as [L [[_ Z]|[_ V]]]; [assumption|]. rewrite V, N. unfold wt, conv_at. rewrite taper_length.
    change (Z.to_nat 1) with 1%nat. cbn [rsum]. rewrite taper_first. ring.
  - destruct (muted_smaller a sr A B r x y i M HA HB F) as [L _]. apply nth_overflow. lia.
Qed.

(** ** Double precision *)
From Coq Require Import SpecFloat.
Lemma filter_rev {X} (f : X -> bool) l : filter f (rev l) = rev (filter f l).
Proof.
  induction l as [|x l IH]; cbn; [reflexivity|]. rewrite filter_app, IH. cbn. destruct (f x); cbn; [reflexivity|]. now rewrite app_nil_r.
Qed.
Lemma map_const_repeat {X Y} (f : X -> Y) y l : (forall x, In x l -> f x = y) -> map f l = repeat y (length l).
Proof. induction l as [|x l IH]; cbn; intros H; [reflexivity|]. rewrite H by auto. f_equal. apply IH. auto. Qed.
Lemma filter_shorter {X} (f : X -> bool) l : (length (filter f l) <= length l)%nat.
Proof. induction l as [|x l IH]; cbn; [lia|]. destruct (f x); cbn; lia. Qed.
Lemma float_ones_muted L i : float_extended (repeat (fof 1) L) 10 i = 0%Z.
Proof.
  unfold float_extended, float_conv_at. cbv zeta. rewrite repeat_length.
  match goal with |- context [map ?f ?l] => set (l0 := l); rewrite (map_const_repeat f (fmul (fof 1) (SFdiv 53 1024 (fof 1) (fof 10))) l0) end.
  - assert (length l0 <= 10)%nat.
    { unfold l0. rewrite filter_rev, rev_length. unfold float_box. rewrite repeat_length. eapply Nat.le_trans; [apply filter_shorter|]. rewrite seq_length. lia. }
    generalize dependent (length l0). clear. intros n H.
    do 11 (destruct n as [|n]; [vm_compute; reflexivity|]). lia.
  - intros t T. unfold l0 in T. apply filter_In in T as [T1 T2]. rewrite <- in_rev in T1. apply in_seq in T1.
    unfold float_box in *. rewrite repeat_length in *. apply andb_prop in T2 as [T2 T3]. apply Z.leb_le in T2. apply Z.ltb_lt in T3.
    set (jj := Z.to_nat _). assert (J : (jj < L)%nat) by (subst jj; lia).
    assert (R1 : forall (X : Type) (v d : X) m k, (k < m)%nat -> nth k (repeat v m) d = v).
    { clear. intros X v d m. induction m as [|m IH]; intros [|k] K; cbn; try lia; auto. apply IH. lia. }
    rewrite (R1 _ (fof 1)) by assumption. rewrite R1 by lia. reflexivity.
Qed.
