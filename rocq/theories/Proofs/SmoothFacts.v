(** Proofs about smoothing with windows (Model.Smoothing, real part). *)
From Coq Require Import Reals QArith Lra.
From Verif Require Import Lib.Base Model.Spectral Model.TimeDomain Model.Smoothing Spec.SmoothSpec Proofs.SpectralFacts Proofs.TimeDomainFacts Proofs.AmplitudeFacts.
Local Open Scope R_scope.
#[local] Ltac Zify.zify_post_hook ::= Z.div_mod_to_equations.

Lemma rsum_rev n f : rsum n f = rsum n (fun k => f (n - 1 - k)%nat).
Proof.
  revert f. induction n as [|n IH]; intros f; [reflexivity|].
  rewrite (rsum_S n (fun k => f (S n - 1 - k)%nat)). change (rsum (S n) f) with (rsum n f + f n).
  replace (S n - 1 - 0)%nat with n by lia. rewrite (IH f). rewrite (rsum_ext n (fun k => f (S n - 1 - S k)%nat) (fun k => f (n - 1 - k)%nat)); [ring|].
  intros k K. f_equal. lia.
Qed.

(** ** Windows *)
Definition W (w : window) (M : nat) : R := rsum M (win_at w M).
Lemma win_length w M : length (win w M) = M. Proof. unfold win. now rewrite map_length, seq_length. Qed.
Lemma normed_length w M : length (normed (win w M)) = M. Proof. unfold normed. now rewrite map_length, win_length. Qed.
Lemma win_nth w M t : (t < M)%nat -> nth t (win w M) 0 = win_at w M t. Proof. intros H. unfold win. now rewrite nth_map_seq. Qed.
Lemma normed_nth w M t : (t < M)%nat -> nth t (normed (win w M)) 0 = win_at w M t / W w M.
Proof.
  intros H. unfold normed. rewrite nth_map0 by now rewrite win_length. rewrite win_length, win_nth by assumption. f_equal.
  apply rsum_ext. intros k K. now apply win_nth.
Qed.
Lemma arg_bounds M t : (3 <= M)%nat -> (t < M)%nat -> let n := IZR (1 - Z.of_nat M + 2 * Z.of_nat t) in 0 < INR (M - 1) /\ - INR (M - 1) <= n <= INR (M - 1).
Proof.
  intros H T n. split; [apply lt_0_INR; lia|]. unfold n. rewrite INR_IZR_INZ, <- opp_IZR. split; apply IZR_le; lia.
Qed.
Lemma win_nonneg w M t : (3 <= M)%nat -> (t < M)%nat -> 0 <= win_at w M t.
Proof.
  intros H T. destruct (arg_bounds M t H T) as [D B]. cbv zeta in B. unfold win_at. cbv zeta. set (n := IZR (_ + _)) in *. set (d := INR (_ - _)) in *.
  destruct w; try lra.
  - pose proof (COS_bound (PI * n / d)). lra.
  - pose proof (COS_bound (PI * n / d)). lra.
  - assert (Q : n / d * d = n) by (field; lra).
    destruct (Rle_dec n 0) as [L|L]; apply Rmult_le_reg_r with d; try assumption; nra.
  - pose proof (COS_bound (PI * n / d)). replace (2 * PI * n / d) with (2 * (PI * n / d)) by (field; lra). rewrite cos_2a_cos.
    set (c := cos _) in *. nra.
Qed.
Lemma middle M : (3 <= M)%nat -> let t := ((M - 1) / 2)%nat in (t < M)%nat /\ let n := IZR (1 - Z.of_nat M + 2 * Z.of_nat t) in -1 <= n <= 0.
Proof.
  intros H t. assert (T : (t = (M - 1) / 2)%nat) by reflexivity. clearbody t. 
  assert (2 * t <= M - 1 <= 2 * t + 1)%nat by (pose proof (Nat.div_mod (M - 1) 2 ltac:(lia)); pose proof (Nat.mod_upper_bound (M - 1) 2 ltac:(lia)); lia).
  split; [lia|]. cbv zeta. split; apply IZR_le; lia.
Qed.
Lemma win_middle w M : (3 <= M)%nat -> 0 < win_at w M ((M - 1) / 2).
Proof.
  intros H. destruct (middle M H) as [T B]. cbv zeta in B. destruct (arg_bounds M _ H T) as [D _].
  assert (D2 : 2 <= INR (M - 1)) by (change 2 with (INR 2); apply le_INR; lia).
  unfold win_at. cbv zeta. set (n := IZR (_ + _)) in *. set (d := INR (_ - _)) in *.
  assert (Q : n / d * d = n) by (field; lra).
  assert (R1 : - (1 / 2) <= n / d <= 0).
  { split; [apply Rmult_le_reg_r with d; nra|]. apply Rmult_le_reg_r with d; nra. }
  assert (C : 0 <= cos (PI * n / d)).
  { pose proof PI_RGT_0. replace (PI * n / d) with (PI * (n / d)) by (field; lra). apply cos_ge_0; nra. }
  destruct w; try lra.
  - destruct (Rle_dec n 0); lra.
  - replace (2 * PI * n / d) with (2 * (PI * n / d)) by (field; lra). rewrite cos_2a_cos. set (c := cos _) in *. nra.
Qed.
Lemma W_pos w M : (3 <= M)%nat -> 0 < W w M.
Proof.
  intros H. destruct (middle M H) as [T _]. unfold W. apply Rle_lt_trans with (rsum M (fun _ => 0)).
  - rewrite rsum_const. lra.
  - apply rsum_lt with ((M - 1) / 2)%nat; [exact T| |now apply win_middle]. intros k K. now apply win_nonneg.
Qed.
Lemma win_sym w M t : (3 <= M)%nat -> (t < M)%nat -> win_at w M (M - 1 - t) = win_at w M t.
Proof.
  intros H T. unfold win_at. cbv zeta.
  replace (1 - Z.of_nat M + 2 * Z.of_nat (M - 1 - t))%Z with (- (1 - Z.of_nat M + 2 * Z.of_nat t))%Z by lia. rewrite opp_IZR.
  destruct (arg_bounds M t H T) as [D _]. set (n := IZR (_ + _)) in *. set (d := INR (_ - _)) in *.
  replace (PI * - n / d) with (- (PI * n / d)) by (field; lra). replace (2 * PI * - n / d) with (- (2 * PI * n / d)) by (field; lra).
  rewrite !cos_neg. destruct w; try reflexivity.
  destruct (Rle_dec (- n) 0), (Rle_dec n 0); try (field; lra); try lra. replace n with 0 by lra. field. lra.
Qed.
Lemma W_moment w M : (3 <= M)%nat -> rsum M (fun t => win_at w M t * INR t) = INR (M - 1) / 2 * W w M.
Proof.
  intros H. set (S := rsum M (fun t => win_at w M t * INR t)).
  assert (E : S = INR (M - 1) * W w M - S).
  { unfold S at 1. rewrite rsum_rev. unfold S, W. rewrite <- rsum_scal, <- rsum_minus. apply rsum_ext. intros k K.
    rewrite win_sym by assumption. rewrite (minus_INR (M - 1) k) by lia. ring. }
  lra.
Qed.

(** ** Smoothing *)
Lemma left_length x wl : (wl < length x)%nat -> length (left_part x wl) = (wl - 1)%nat.
Proof. intros H. unfold left_part. rewrite map_length, seq_length. lia. Qed.
Lemma right_length x wl : length (right_part x wl) = (wl - 1)%nat.
Proof. unfold right_part. now rewrite map_length, seq_length. Qed.
Lemma padded_length x wl : (wl < length x)%nat -> length (padded x wl) = (length x + 2 * (wl - 1))%nat.
Proof. intros H. unfold padded. rewrite !app_length, !map_length, left_length, right_length by assumption. lia. Qed.
Lemma padded_nth x wl p : (wl < length x)%nat -> (p < length x + 2 * (wl - 1))%nat -> nth p (padded x wl) 0 =
  if (p <? wl - 1)%nat then 2 * nth 0 x 0 - nth (wl - p) x 0
  else if (p <? wl - 1 + length x)%nat then nth (p - (wl - 1)) x 0
  else 2 * nth (length x - 1) x 0 - nth (length x - 1 - (p - (wl - 1) - length x)) x 0.
Proof.
  intros H P. unfold padded. destruct (Nat.ltb_spec p (wl - 1)).
  - rewrite app_nth1 by now rewrite map_length, left_length. rewrite nth_map0 by now rewrite left_length. unfold left_part.
    rewrite nth_map_seq by lia. f_equal. f_equal. lia.
  - rewrite app_nth2 by (rewrite map_length, left_length; lia). rewrite map_length, left_length by assumption.
    destruct (Nat.ltb_spec p (wl - 1 + length x)).
    + rewrite app_nth1 by lia. reflexivity.
    + rewrite app_nth2 by lia. rewrite nth_map0 by (rewrite right_length; lia). unfold right_part. rewrite nth_map_seq by lia. reflexivity.
Qed.
Lemma skipn_nth {A} n : forall (l : list A) i d, nth i (skipn n l) d = nth (n + i) l d.
Proof. induction n as [|n IH]; intros [|x l] i d; cbn; try reflexivity; [now destruct i|apply IH]. Qed.
Lemma firstn_nth {A} n : forall (l : list A) i d, (i < n)%nat -> nth i (firstn n l) d = nth i l d.
Proof. induction n as [|n IH]; intros [|x l] [|i] d H; cbn; try reflexivity; try lia. apply IH. lia. Qed.

Lemma smooth_run x wl w : (3 <= wl <= length x)%nat -> w <> Unknown ->
  let y := map (conv_at (padded x wl) (normed (win w wl))) (seq 0 (length (padded x wl))) in
  smooth x wl w = Ok (firstn (length y - 2 * (wl - 1)) (skipn (wl - 1) y)).
Proof.
  intros H K. cbv zeta. unfold smooth. destruct (Nat.ltb_spec (length x) wl); [lia|]. destruct (Nat.ltb_spec wl 3); [lia|].
  rewrite conv_ok by (rewrite normed_length; lia). destruct w; [reflexivity..|contradiction].
Qed.
Lemma smooth_ok x wl w : (3 <= wl < length x)%nat -> w <> Unknown -> exists y, smooth x wl w = Ok y /\ length y = length x /\
  forall i, (i < length x)%nat -> nth i y 0 = rsum wl (fun t => win_at w wl t / W w wl * nth (i + (wl - 1) + (wl - 1) / 2 - t) (padded x wl) 0).
Proof.
  intros H K. rewrite smooth_run by (assumption || lia). cbv zeta. eexists. split; [reflexivity|].
  rewrite map_length, seq_length, firstn_length, skipn_length, map_length, seq_length. rewrite padded_length by lia. split; [lia|].
  intros i I. rewrite firstn_nth by lia. rewrite skipn_nth. rewrite nth_map_seq by lia. unfold conv_at. rewrite normed_length. apply rsum_ext. intros t T.
  rewrite normed_nth by assumption. f_equal.
  assert (Dv : (2 * ((wl - 1) / 2) <= wl - 1)%nat) by (pose proof (Nat.div_mod (wl - 1) 2 ltac:(lia)); lia).
  assert (E : ((Z.of_nat wl - 1) / 2 = Z.of_nat ((wl - 1) / 2))%Z) by (rewrite Nat2Z.inj_div; f_equal; lia).
  rewrite at_in; rewrite E; [f_equal; lia|]. rewrite padded_length by lia. lia.
Qed.
Lemma half_le wl : ((wl - 1) / 2 <= wl - 1)%nat. Proof. apply Nat.div_le_upper_bound; lia. Qed.
Lemma smooth_inside x wl w y i : (3 <= wl < length x)%nat -> w <> Unknown -> smooth x wl w = Ok y -> inside x wl i ->
  nth i y 0 = rsum wl (fun t => win_at w wl t / W w wl * nth (i + (wl - 1) / 2 - t) x 0).
Proof.
  intros H K E [I1 I2]. destruct (smooth_ok x wl w H K) as (y' & E' & L & N). rewrite E in E'. injection E' as <-.
  rewrite N by lia. apply rsum_ext. intros t T. f_equal. rewrite padded_nth by (lia || (pose proof (half_le wl); lia)).
  destruct (Nat.ltb_spec (i + (wl - 1) + (wl - 1) / 2 - t) (wl - 1)); [lia|].
  destruct (Nat.ltb_spec (i + (wl - 1) + (wl - 1) / 2 - t) (wl - 1 + length x)); [|lia]. f_equal. lia.
Qed.
Lemma weights_one w wl : (3 <= wl)%nat -> rsum wl (fun t => win_at w wl t / W w wl) = 1.
Proof. intros H. pose proof (W_pos w wl H). unfold Rdiv. rewrite rsum_scal_r. change (rsum wl _) with (W w wl). field. lra. Qed.
Lemma smooth_const x wl w y c : (3 <= wl < length x)%nat -> w <> Unknown -> smooth x wl w = Ok y -> (forall i, (i < length x)%nat -> nth i x 0 = c) -> y = x.
Proof.
  intros H K E C. destruct (smooth_ok x wl w H K) as (y' & E' & L & N). rewrite E in E'. injection E' as <-.
  apply (nth_ext _ _ 0 0); [exact L|]. intros i I. rewrite L in I. rewrite N, C by assumption.
  rewrite (rsum_ext wl _ (fun t => win_at w wl t / W w wl * c)); [rewrite rsum_scal_r, weights_one by lia; ring|].
  intros t T. f_equal. pose proof (half_le wl). rewrite padded_nth by lia.
  repeat match goal with |- context [(?a <? ?b)%nat] => destruct (Nat.ltb_spec a b) end; rewrite !C by lia; ring.
Qed.
Lemma weight_nonneg w wl t : (3 <= wl)%nat -> (t < wl)%nat -> 0 <= win_at w wl t / W w wl.
Proof. intros H T. apply Rmult_le_pos; [now apply win_nonneg|]. left. now apply Rinv_0_lt_compat, W_pos. Qed.
Lemma smooth_bounds x wl w y i lo hi : (3 <= wl < length x)%nat -> w <> Unknown -> smooth x wl w = Ok y -> inside x wl i ->
  (forall k, (i + (wl - 1) / 2 - (wl - 1) <= k <= i + (wl - 1) / 2)%nat -> lo <= nth k x 0 <= hi) -> lo <= nth i y 0 <= hi.
Proof.
  intros H K E I B. rewrite (smooth_inside x wl w y i H K E I). pose proof (weights_one w wl ltac:(lia)) as O.
  assert (S : forall c, rsum wl (fun t => win_at w wl t / W w wl * c) = c) by (intros c; rewrite rsum_scal_r, O; ring).
  rewrite <- (S lo), <- (S hi).
  split; apply rsum_le; intros t T; (apply Rmult_le_compat_l; [apply weight_nonneg; lia|]); rewrite ?S; apply B; destruct I; lia.
Qed.
Lemma smooth_line x wl w y i a b : (3 <= wl < length x)%nat -> w <> Unknown -> smooth x wl w = Ok y -> inside x wl i ->
  (forall k, (k < length x)%nat -> nth k x 0 = a + b * INR k) ->
  nth i y 0 = a + b * (INR i + (INR ((wl - 1) / 2) - INR (wl - 1) / 2)).
Proof.
  intros H K E I L. rewrite (smooth_inside x wl w y i H K E I). pose proof (weights_one w wl ltac:(lia)) as O.
  pose proof (W_moment w wl ltac:(lia)) as M. pose proof (W_pos w wl ltac:(lia)) as P.
  rewrite (rsum_ext wl _ (fun t => win_at w wl t / W w wl * (a + b * (INR i + INR ((wl - 1) / 2))) - win_at w wl t * INR t * (b / W w wl))).
  - rewrite rsum_minus, !rsum_scal_r, O, M. field. lra.
  - intros t T. destruct I. rewrite L by lia. rewrite minus_INR, plus_INR by lia. field. lra.
Qed.
Lemma smooth_edge n y : (3 < n)%nat -> smooth (map INR (seq 0 n)) 3 Flat = Ok y -> nth 0 y 0 = - (1 / 3).
Proof.
  intros H E. assert (L : length (map INR (seq 0 n)) = n) by now rewrite map_length, seq_length.
  destruct (smooth_ok (map INR (seq 0 n)) 3 Flat) as (y' & E' & _ & N); [rewrite L; lia|discriminate|]. rewrite E in E'. injection E' as <-.
  rewrite N by lia. change (W Flat 3) with (0 + 1 + 1 + 1). cbn [rsum]. change (win_at Flat 3 0) with 1. change (win_at Flat 3 1) with 1. change (win_at Flat 3 2) with 1.
  change ((3 - 1) / 2)%nat with 1%nat. change (0 + (3 - 1) + 1 - 0)%nat with 3%nat. change (0 + (3 - 1) + 1 - 1)%nat with 2%nat. change (0 + (3 - 1) + 1 - 2)%nat with 1%nat.
  rewrite !padded_nth by (rewrite L; lia). rewrite L.
  change (1 <? 3 - 1)%nat with true. change (2 <? 3 - 1)%nat with false. change (3 <? 3 - 1)%nat with false. cbv iota.
  destruct (Nat.ltb_spec 2 (3 - 1 + n)); [|lia]. destruct (Nat.ltb_spec 3 (3 - 1 + n)); [|lia].
  change (3 - (3 - 1))%nat with 1%nat. change (2 - (3 - 1))%nat with 0%nat. change (3 - 1)%nat with 2%nat.
  rewrite !nth_map_seq by lia. change (INR 0) with 0. change (INR 1) with 1. change (INR 2) with (1 + 1). field.
Qed.
Lemma smooth_gap x wl y j c : (3 <= wl < length x)%nat -> smooth_vector x wl Flat = Ok y -> inside (nan_to_num x) wl j ->
  (forall k, (k < length x)%nat -> nth k x None = if (k =? j)%nat then None else Some c) -> nth j y 0 = c * (1 - 1 / INR wl).
Proof.
  intros H E I C. unfold smooth_vector in E. assert (L : length (nan_to_num x) = length x) by apply map_length.
  rewrite (smooth_inside (nan_to_num x) wl Flat y j) by (try assumption; try discriminate; lia).
  assert (HW : W Flat wl = INR wl) by (unfold W; rewrite (rsum_ext wl _ (fun _ => 1)) by reflexivity; rewrite rsum_const; ring).
  assert (P : 0 < INR wl) by (apply lt_0_INR; lia). pose proof (half_le wl).
  assert (N : forall k, (k < length x)%nat -> nth k (nan_to_num x) 0 = if (k =? j)%nat then 0 else c).
  { intros k K. set (f := fun o : option R => match o with Some v => v | None => 0 end).
    transitivity (f (nth k x None)); [exact (map_nth f x None k)|]. rewrite C by assumption. now destruct (k =? j)%nat. }
  rewrite (rsum_ext wl _ (fun t => (c - (if (t =? (wl - 1) / 2)%nat then c else 0)) * (1 / INR wl))).
  - rewrite rsum_scal_r, rsum_minus, rsum_const. rewrite (rsum_single wl ((wl - 1) / 2)); [|lia|].
    + rewrite Nat.eqb_refl. field. lra.
    + intros k K D. now apply Nat.eqb_neq in D as ->.
  - intros t T. destruct I. rewrite N by lia. rewrite HW. change (win_at Flat wl t) with 1.
    destruct (Nat.eqb_spec (j + (wl - 1) / 2 - t) j), (Nat.eqb_spec t ((wl - 1) / 2)); try lia; field; lra.
Qed.
Lemma smooth_equal x w : (3 <= length x)%nat -> w <> Unknown -> exists y, smooth x (length x) w = Ok y /\ length y = (length x - 1)%nat.
Proof.
  intros H K. rewrite smooth_run by (assumption || lia). cbv zeta. eexists. split; [reflexivity|].
  rewrite firstn_length, skipn_length, map_length, seq_length. unfold padded. rewrite !app_length, !map_length, right_length. unfold left_part. rewrite map_length, seq_length. lia.
Qed.
Lemma lines_equal m w x : In x m -> (3 <= length x)%nat -> (forall z, In z m -> length z = length x) -> smooth_lines m (length x) w = Raise ValueError.
Proof.
  intros I H A. unfold smooth_lines. destruct m as [|z m]; [destruct I|]. cbn [mapM].
  assert (L : length (nan_to_num z) = length x) by (unfold nan_to_num; rewrite map_length; apply A; now left).
  assert (D : w = Unknown \/ w <> Unknown) by (destruct w; auto; right; discriminate).
  destruct D as [->|K].
  - unfold smooth. rewrite L. destruct (Nat.ltb_spec (length x) (length x)); [lia|]. destruct (Nat.ltb_spec (length x) 3); [lia|]. reflexivity.
  - destruct (smooth_equal (nan_to_num z) w) as (y & E & Ly); [lia|assumption|]. rewrite L in *. rewrite E. cbn [bind]. unfold assign_row. rewrite L.
    destruct (Nat.eqb_spec (length y) (length x)); [lia|reflexivity].
Qed.
Lemma lines_ok m wl w n : (forall x, In x m -> length x = n) -> (wl < n)%nat -> w <> Unknown -> exists r, smooth_lines m wl w = Ok r /\ length r = length m /\
  forall x, In x r -> length x = n.
Proof.
  intros A H K. unfold smooth_lines. induction m as [|z m IH].
  - exists []. repeat split. intros x [].
  - destruct IH as (r & E & L & B); [intros; apply A; now right|].
    assert (Lz : length (nan_to_num z) = n) by (unfold nan_to_num; rewrite map_length; apply A; now left).
    assert (S : exists y, smooth (nan_to_num z) wl w = Ok y /\ length y = n).
    { destruct (Nat.lt_ge_cases wl 3).
      - exists (nan_to_num z). split; [|exact Lz]. unfold smooth. rewrite Lz. destruct (Nat.ltb_spec n wl); [lia|]. destruct (Nat.ltb_spec wl 3); [reflexivity|lia].
      - destruct (smooth_ok (nan_to_num z) wl w) as (y & Ey & Ly & _); [lia|assumption|]. exists y. split; [exact Ey|congruence]. }
    destruct S as (y & Ey & Ly). exists (y :: r). cbn [mapM]. rewrite Ey. cbn [bind].
    assert (AR : assign_row (nan_to_num z) y = Ok y) by (unfold assign_row; now rewrite Lz, Ly, Nat.eqb_refl). rewrite AR. cbn [bind]. rewrite E. cbn [bind].
    split; [reflexivity|]. split; [cbn; lia|]. intros x [<-|I]; auto.
Qed.
