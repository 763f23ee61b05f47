(** Facts about sensitivity kernels, variances and covariances of the spatial inversion. *)
From Coq Require Import Reals Lra.
From Verif Require Import Lib.Base Model.Spectral Model.Kernel Spec.KernelSpec Proofs.SpectralFacts Proofs.SmoothFacts.
Local Open Scope R_scope.

Lemma ltb_iff x y : ltb x y = true <-> x < y.
Proof. unfold ltb. destruct (Rlt_dec x y); split; intros; try easy. Qed.
Lemma leb_iff x y : leb x y = true <-> x <= y.
Proof. unfold leb. destruct (Rle_dec x y); split; intros; try easy. Qed.
Lemma eqb_iff x y : eqb x y = true <-> x = y.
Proof. unfold eqb. destruct (Req_EM_T x y); split; intros; try easy. Qed.
Lemma ltb_false x y : ltb x y = false <-> y <= x.
Proof. unfold ltb. destruct (Rlt_dec x y); split; intros; try easy; lra. Qed.
Lemma leb_false x y : leb x y = false <-> y < x.
Proof. unfold leb. destruct (Rle_dec x y); split; intros; try easy; lra. Qed.
Lemma eqb_false x y : eqb x y = false <-> x <> y.
Proof. unfold eqb. destruct (Req_EM_T x y); split; intros; try easy. Qed.

Lemma rarange_nodup stop step : 0 < step -> NoDup (rarange stop step).
Proof.
  intros H. unfold rarange. set (n := Z.to_nat _). clearbody n. assert (I : forall a b : nat, INR a * step = INR b * step -> a = b).
  { intros a b E. apply INR_eq. nra. }
  generalize (seq_NoDup n 0). induction (seq 0 n) as [|a l IH]; intros N; simpl; [constructor|]. inversion N; subst. constructor; [|auto].
  rewrite in_map_iff. intros [b [E B]]. apply I in E. now subst.
Qed.
Lemma nodup_app {A} (a b : list A) : NoDup a -> NoDup b -> (forall x, In x a -> ~ In x b) -> NoDup (a ++ b).
Proof.
  induction 1 as [|x a N H IH]; simpl; intros B D; [assumption|]. constructor; [|apply IH; [assumption|intros y Y; apply D; now right]].
  rewrite in_app_iff. intros [C|C]; [easy|]. apply (D x); [now left|assumption].
Qed.
Lemma rmesh_nodup xs ys : NoDup xs -> NoDup ys -> NoDup (rmesh xs ys).
Proof.
  intros X. induction 1 as [|y ys N H IH]; simpl; [constructor|]. apply nodup_app; [|assumption|].
  - clear - X. induction X as [|x xs N H IH]; simpl; [constructor|]. constructor; [|assumption]. rewrite in_map_iff. intros [x' [E I]]. congruence.
  - intros [a b] I1 I2. apply in_map_iff in I1. destruct I1 as [x [E _]]. injection E as <- <-. apply in_flat_map in I2. destruct I2 as [y' [Y I2]]. apply in_map_iff in I2. destruct I2 as [x' [E' _]].
    injection E' as _ <-. contradiction.
Qed.
Lemma cells_distinct g i j : 0 < g_res g -> (i < length (cells g))%nat -> (j < length (cells g))%nat -> i <> j -> nth i (cells g) (0, 0) <> nth j (cells g) (0, 0).
Proof.
  intros R I J N E. apply N. eapply (proj1 (NoDup_nth _ _)); eauto. apply rmesh_nodup; now apply rarange_nodup.
Qed.

(** ** Variance of the data *)
Definition factor (bandwidth tw0 tw1 freq_c : R) : R := sqrt (6 * sqrt (PI / 2) * (1 / bandwidth) / ((2 * PI * freq_c) ^ 2 * (tw1 ^ 3 - tw0 ^ 3))).
Lemma cube_pos a b : 0 <= a -> a < b -> 0 < b ^ 3 - a ^ 3.
Proof. intros. replace (b ^ 3 - a ^ 3) with ((b - a) * (b * b + b * a + a * a)) by ring. apply Rmult_lt_0_compat; [lra|]. assert (0 < b) by lra. nra. Qed.
Lemma factor_pos bw tw0 tw1 fc : 0 <= tw0 -> tw0 < tw1 -> 0 < bw -> 0 < fc -> 0 < factor bw tw0 tw1 fc.
Proof.
  intros A B C D. pose proof PI_RGT_0. apply sqrt_lt_R0. apply Rdiv_lt_0_compat.
  - apply Rmult_lt_0_compat; [apply Rmult_lt_0_compat; [lra|apply sqrt_lt_R0; lra]|apply Rdiv_lt_0_compat; lra].
  - apply Rmult_lt_0_compat; [apply pow_lt; nra|]. now apply cube_pos.
Qed.
Lemma variance_eq c bw tw0 tw1 fc : 0 <= tw0 -> tw0 < tw1 -> 0 < bw -> 0 < fc ->
  data_variance c bw tw0 tw1 fc = Ok (sqrt (1 - c ^ 2) / (2 * c) * factor bw tw0 tw1 fc).
Proof.
  intros A B C D. unfold data_variance. rewrite (proj2 (ltb_false tw0 0)), (proj2 (ltb_false tw1 0)), (proj2 (leb_false tw1 tw0)), (proj2 (leb_false bw 0)), (proj2 (leb_false fc 0)) by lra. reflexivity.
Qed.
Lemma variance_fails c bw tw0 tw1 fc : (exists s, data_variance c bw tw0 tw1 fc = Ok s) <-> 0 <= tw0 < tw1 /\ 0 < bw /\ 0 < fc.
Proof.
  split.
  - unfold data_variance. intros [s H]. destruct (ltb tw0 0) eqn:E1; [discriminate|]. destruct (ltb tw1 0) eqn:E2; [discriminate|]. simpl in H. destruct (leb tw1 tw0) eqn:E3; [discriminate|]. destruct (leb bw 0) eqn:E4; [discriminate|].
    destruct (leb fc 0) eqn:E5; [discriminate|]. apply ltb_false in E1, E2. apply leb_false in E3, E4, E5. lra.
  - intros [[A B] [C D]]. eexists. now apply variance_eq.
Qed.
Lemma ratio_pos c : 0 < c < 1 -> 0 < sqrt (1 - c ^ 2) / (2 * c).
Proof. intros H. apply Rdiv_lt_0_compat; [apply sqrt_lt_R0; nra|lra]. Qed.
Lemma variance_pos c bw tw0 tw1 fc s : 0 < c < 1 -> data_variance c bw tw0 tw1 fc = Ok s -> 0 < s.
Proof.
  intros H E. assert (X : exists s, data_variance c bw tw0 tw1 fc = Ok s) by eauto. apply variance_fails in X. destruct X as [[A B] [C D]]. rewrite variance_eq in E by assumption.
  assert (s = sqrt (1 - c ^ 2) / (2 * c) * factor bw tw0 tw1 fc) by congruence. subst. apply Rmult_lt_0_compat; [now apply ratio_pos|now apply factor_pos].
Qed.
Lemma variance_decreasing c c' bw tw0 tw1 fc s s' : 0 < c -> c < c' -> c' <= 1 -> data_variance c bw tw0 tw1 fc = Ok s -> data_variance c' bw tw0 tw1 fc = Ok s' -> s' < s.
Proof.
  intros H1 H2 H3 E E'. assert (X : exists s, data_variance c bw tw0 tw1 fc = Ok s) by eauto. apply variance_fails in X. destruct X as [[A B] [C D]]. rewrite variance_eq in E, E' by assumption.
  assert (s = sqrt (1 - c ^ 2) / (2 * c) * factor bw tw0 tw1 fc) by congruence. assert (s' = sqrt (1 - c' ^ 2) / (2 * c') * factor bw tw0 tw1 fc) by congruence. subst.
  apply Rmult_lt_compat_r; [now apply factor_pos|]. assert (Q : sqrt (1 - c' ^ 2) < sqrt (1 - c ^ 2)) by (apply sqrt_lt_1_alt; nra). pose proof (sqrt_pos (1 - c' ^ 2)).
  unfold Rdiv. apply Rle_lt_trans with (sqrt (1 - c' ^ 2) * / (2 * c)).
  - apply Rmult_le_compat_l; [assumption|]. apply Rinv_le_contravar; lra.
  - apply Rmult_lt_compat_r; [apply Rinv_0_lt_compat; lra|assumption].
Qed.
(** a longer window or a wider band makes the estimate more certain *)
Lemma cubes a b c d : 0 <= c -> c <= a -> a < b -> b <= d -> b ^ 3 - a ^ 3 <= d ^ 3 - c ^ 3.
Proof. intros. assert (c ^ 3 <= a ^ 3) by (apply pow_incr; lra). assert (b ^ 3 <= d ^ 3) by (apply pow_incr; lra). lra. Qed.
Lemma variance_window c bw bw' tw0 tw1 tw0' tw1' fc s s' : 0 < c <= 1 -> tw0' <= tw0 -> tw1 <= tw1' -> bw <= bw' ->
  data_variance c bw tw0 tw1 fc = Ok s -> data_variance c bw' tw0' tw1' fc = Ok s' -> s' <= s.
Proof.
  intros H H1 H2 H3 E E'. assert (X : exists s, data_variance c bw tw0 tw1 fc = Ok s) by eauto. apply variance_fails in X. destruct X as [[A B] [C D]].
  assert (X : exists s, data_variance c bw' tw0' tw1' fc = Ok s) by eauto. apply variance_fails in X. destruct X as [[A' B'] [C' D']]. rewrite variance_eq in E, E' by assumption.
  assert (s = sqrt (1 - c ^ 2) / (2 * c) * factor bw tw0 tw1 fc) by congruence. assert (s' = sqrt (1 - c ^ 2) / (2 * c) * factor bw' tw0' tw1' fc) by congruence. subst.
  apply Rmult_le_compat_l; [apply Rmult_le_pos; [apply sqrt_pos|apply Rlt_le, Rinv_0_lt_compat; lra]|]. apply sqrt_le_1_alt. pose proof PI_RGT_0. assert (P : 0 < sqrt (PI / 2)) by (apply sqrt_lt_R0; lra).
  unfold Rdiv. pose proof (cube_pos _ _ A B). pose proof (cube_pos _ _ A' B'). assert (0 < (2 * PI * fc) ^ 2) by (apply pow_lt; nra).
  apply Rmult_le_compat.
  - apply Rmult_le_pos; [nra|]. rewrite Rmult_1_l. apply Rlt_le, Rinv_0_lt_compat. assumption.
  - apply Rlt_le, Rinv_0_lt_compat. nra.
  - apply Rmult_le_compat_l; [nra|]. rewrite !Rmult_1_l. apply Rinv_le_contravar; lra.
  - apply Rinv_le_contravar; [nra|]. apply Rmult_le_compat_l; [lra|]. apply cubes; lra.
Qed.

(** ** Probabilities *)
Definition prob (dist t vel mf atol : R) : R :=
  (if leb (Rabs (dist - vel * t)) (atol + / 100000 * Rabs (vel * t)) then (if eqb dist 0 then 1 else exp (- vel * t / mf) / (2 * PI * dist)) else 0) +
  (if ltb 0 (vel * t - dist - atol) then exp ((sqrt ((vel * t) ^ 2 - dist ^ 2) - vel * t) / mf) / (2 * PI * mf * vel * t * sqrt (1 - dist ^ 2 / (vel * t) ^ 2)) else 0).
Lemma probability_ok d t vel mf atol : 0 <= d -> - atol / vel <= t -> probability d t vel mf atol = Ok (prob d t vel mf atol).
Proof. intros D T. unfold probability. rewrite (proj2 (ltb_false d 0)), (proj2 (ltb_false t _)) by assumption. reflexivity. Qed.
Lemma probability_fails d t vel mf atol : t < - atol / vel -> probability d t vel mf atol = Raise ValueError.
Proof. intros T. unfold probability. rewrite (proj2 (ltb_iff t _)) by assumption. now destruct (ltb d 0). Qed.
Lemma prob_nonneg d t vel mf atol : 0 <= d -> 0 < vel -> 0 < mf -> 0 <= atol -> 0 <= prob d t vel mf atol.
Proof.
  intros D V M A. unfold prob. pose proof PI_RGT_0. apply Rplus_le_le_0_compat.
  - destruct (leb _ _); [|lra]. destruct (eqb d 0) eqn:E; [lra|]. apply eqb_false in E. apply Rlt_le, Rdiv_lt_0_compat; [apply exp_pos|]. assert (0 < d) by lra. assert (0 < PI * d) by now apply Rmult_lt_0_compat. lra.
  - destruct (ltb _ _) eqn:E; [|lra]. apply ltb_iff in E. assert (X : 0 < vel * t) by lra. apply Rlt_le, Rdiv_lt_0_compat; [apply exp_pos|].
    assert (S : 0 < sqrt (1 - d ^ 2 / (vel * t) ^ 2)).
    { apply sqrt_lt_R0. assert (d ^ 2 / (vel * t) ^ 2 < 1); [|lra]. apply (Rmult_lt_reg_r ((vel * t) ^ 2)); [apply pow_lt; assumption|]. unfold Rdiv. rewrite Rmult_assoc, Rinv_l, Rmult_1_r, Rmult_1_l by (apply pow_nonzero; lra). assert (d < vel * t) by lra. set (X0 := vel * t) in *. simpl. rewrite !Rmult_1_r. apply Rmult_le_0_lt_compat; lra. }
    replace (2 * PI * mf * vel * t * sqrt (1 - d ^ 2 / (vel * t) ^ 2)) with (2 * PI * mf * (vel * t) * sqrt (1 - d ^ 2 / (vel * t) ^ 2)) by ring. apply Rmult_lt_0_compat; [|assumption]. apply Rmult_lt_0_compat; [|assumption]. assert (0 < PI * mf) by now apply Rmult_lt_0_compat. lra.
Qed.
Lemma prob_reach d t vel mf atol : 0 <= atol -> prob d t vel mf atol <> 0 -> d <= vel * t + atol + / 100000 * Rabs (vel * t).
Proof.
  intros A. unfold prob. destruct (leb _ _) eqn:E1.
  - apply leb_iff in E1. intros _. assert (Rabs (d - vel * t) >= d - vel * t) by apply Rle_ge, Rle_abs. lra.
  - destruct (ltb _ _) eqn:E2; [|lra]. apply ltb_iff in E2. intros _. pose proof (Rabs_pos (vel * t)). lra.
Qed.
Lemma edist_nonneg p q : 0 <= edist p q.
Proof. apply sqrt_pos. Qed.

(** ** Times *)
Lemma rceil_spec x n : rceil x = n <-> IZR n - 1 < x <= IZR n.
Proof.
  unfold rceil. destruct (base_Int_part (- x)) as [A B]. split.
  - intros <-. rewrite opp_IZR. lra.
  - intros [C D]. assert (E : (- n <= Int_part (- x))%Z /\ (Int_part (- x) <= - n)%Z); [|lia]. split; apply Z.lt_succ_r, lt_IZR; rewrite succ_IZR, ?opp_IZR; lra.
Qed.
Lemma rceil_bound x : IZR (rceil x) - 1 < x <= IZR (rceil x).
Proof. now apply rceil_spec. Qed.
Lemma rceil_S x : rceil (x + 1) = (rceil x + 1)%Z.
Proof. apply rceil_spec. rewrite plus_IZR. pose proof (rceil_bound x). lra. Qed.
Lemma rceil_nonneg x : 0 <= x -> (0 <= rceil x)%Z.
Proof. intros H. pose proof (rceil_bound x). apply le_IZR. lra. Qed.
(** number of steps after time zero *)
Definition last_step (t dt : R) : nat := Z.to_nat (rceil (t / dt)).
Lemma times t dt : 0 < dt -> 0 <= t -> rarange (t + dt) dt = map (fun k => INR k * dt) (seq 0 (S (last_step t dt))).
Proof.
  intros D T. unfold rarange, last_step. do 3 f_equal. replace ((t + dt) / dt) with (t / dt + 1) by (field; lra). rewrite rceil_S.
  assert (0 <= rceil (t / dt))%Z by (apply rceil_nonneg, Rmult_le_pos; [assumption|apply Rlt_le, Rinv_0_lt_compat; assumption]). lia.
Qed.
Lemma last_bound t dt : 0 < dt -> 0 <= t -> t <= INR (last_step t dt) * dt < t + dt.
Proof.
  intros D T. unfold last_step. assert (P : 0 <= t / dt) by (apply Rmult_le_pos; [assumption|apply Rlt_le, Rinv_0_lt_compat; assumption]).
  rewrite INR_IZR_INZ, Z2Nat.id by now apply rceil_nonneg. pose proof (rceil_bound (t / dt)) as [A B]. set (c := IZR (rceil (t / dt))) in *.
  assert (E : t = t / dt * dt) by (field; lra). nra.
Qed.
(** the last time is half a step after the end of the window or earlier *)
Definition fits (t dt : R) : Prop := INR (last_step t dt) * dt - t <= dt / 2.
Lemma fits_multiple n dt : 0 < dt -> last_step (INR n * dt) dt = n.
Proof.
  intros D. unfold last_step. replace (INR n * dt / dt) with (INR n) by (field; lra). replace (rceil (INR n)) with (Z.of_nat n); [now rewrite Nat2Z.id|]. symmetry. apply rceil_spec. rewrite <- INR_IZR_INZ. lra.
Qed.
Lemma trapz_cons dt a b l : trapz dt (a :: b :: l) = dt * (a + b) / 2 + trapz dt (b :: l).
Proof. reflexivity. Qed.
Lemma trapz_seq dt (f : nat -> R) n m : trapz dt (map f (seq m (S n))) = rsum n (fun k => dt * (f (m + k)%nat + f (m + S k)%nat) / 2).
Proof.
  revert m. induction n as [|n IH]; intros m; [reflexivity|]. change (map f (seq m (S (S n)))) with (f m :: f (S m) :: map f (seq (S (S m)) n)). rewrite trapz_cons.
  change (f (S m) :: map f (seq (S (S m)) n)) with (map f (seq (S m) (S n))). rewrite IH, rsum_S. rewrite Nat.add_0_r, Nat.add_1_r. f_equal. apply rsum_ext. intros k _. replace (m + S k)%nat with (S m + k)%nat by lia. replace (m + S (S k))%nat with (S m + S k)%nat by lia. reflexivity.
Qed.
Lemma trapz_nonneg dt l : 0 <= dt -> Forall (fun v => 0 <= v) l -> 0 <= trapz dt l.
Proof.
  intros D. induction 1 as [|a l A F IH]; [unfold trapz; simpl; lra|]. destruct l as [|b l]; [unfold trapz; simpl; lra|]. rewrite trapz_cons. inversion F; subst. assert (0 <= dt * (a + b)) by (apply Rmult_le_pos; lra). lra.
Qed.
Lemma trapz_zero dt l : Forall (fun v => v = 0) l -> trapz dt l = 0.
Proof. induction 1 as [|a l A F IH]; [reflexivity|]. destruct l as [|b l]; [reflexivity|]. rewrite trapz_cons, IH. inversion F; subst. lra. Qed.
Lemma trapz_rev dt (f : nat -> R) n : trapz dt (map f (seq 0 (S n))) = trapz dt (map (fun k => f (n - k)%nat) (seq 0 (S n))).
Proof.
  rewrite !trapz_seq. rewrite rsum_rev. apply rsum_ext. intros k K. simpl. replace (n - k)%nat with (S (n - 1 - k)) by lia. replace (n - S k)%nat with (n - 1 - k)%nat by lia. lra.
Qed.

(** ** Kernels *)
Section KernelFacts.
  Variables (s1 s2 : R * R) (x y : list R) (t dt vel mf : R).
  Hypothesis DT : 0 < dt.
  Hypothesis VEL : 0 < vel.
  Hypothesis MF : 0 < mf.
  Hypothesis T0 : 0 <= t.
  Hypothesis UX : uneven x = Ok false.
  Hypothesis UY : uneven y = Ok false.
  Let atol := vel * dt / 2.
  Lemma tol : - atol / vel = - (dt / 2).
  Proof. unfold atol. field. lra. Qed.
  Lemma atol_nonneg : 0 <= atol.
  Proof. unfold atol. assert (0 < vel * dt) by nra. lra. Qed.
  Definition energy12 : R := prob (edist s1 s2) t vel mf atol.
  Definition product (c : R * R) (k : nat) : R := prob (edist c s1) (INR k * dt) vel mf atol * prob (edist c s2) (t - INR k * dt) vel mf atol.
  Definition cell_value (c : R * R) : R := trapz dt (map (product c) (seq 0 (S (last_step t dt)))) / energy12.
  Lemma products_ok c : fits t dt ->
    mapM (fun tt => do p <- probability (edist c s1) tt vel mf atol; do q <- probability (edist c s2) (t - tt) vel mf atol; Ok (p * q)) (rarange (t + dt) dt) = Ok (map (product c) (seq 0 (S (last_step t dt)))).
  Proof.
    intros F. rewrite times by assumption. set (n := last_step t dt) in *. assert (H : forall k, In k (seq 0 (S n)) -> INR k * dt <= INR n * dt).
    { intros k K. apply in_seq in K. apply Rmult_le_compat_r; [lra|]. apply le_INR. lia. }
    unfold fits in F. fold n in F. induction (seq 0 (S n)) as [|k l IH]; [reflexivity|]. simpl.
    assert (K : INR k * dt <= INR n * dt) by (apply H; now left). pose proof (pos_INR k). assert (0 <= INR k * dt) by nra.
    rewrite (probability_ok _ (INR k * dt)); [|apply edist_nonneg|rewrite tol; lra]. simpl. rewrite (probability_ok _ (t - INR k * dt)); [|apply edist_nonneg|rewrite tol; lra]. simpl. rewrite IH; [reflexivity|]. intros k' K'. apply H. now right.
  Qed.
  Lemma kernel_eq : sensitivity_kernel s1 s2 x y t dt vel mf =
    if eqb energy12 0 then Ok (map (fun _ => 0) (rmesh x y))
    else mapM (fun c => do ps <- mapM (fun tt => do p <- probability (edist c s1) tt vel mf atol; do q <- probability (edist c s2) (t - tt) vel mf atol; Ok (p * q)) (rarange (t + dt) dt); Ok (trapz dt ps / energy12)) (rmesh x y).
  Proof.
    unfold sensitivity_kernel. rewrite (proj2 (leb_false dt 0)) by assumption. rewrite UX. simpl. rewrite UY. simpl. fold atol. rewrite (probability_ok _ t); [|apply edist_nonneg|rewrite tol; lra]. reflexivity.
  Qed.
  Lemma kernel_ok : fits t dt -> sensitivity_kernel s1 s2 x y t dt vel mf = Ok (map (fun c => if eqb energy12 0 then 0 else cell_value c) (rmesh x y)).
  Proof.
    intros F. rewrite kernel_eq. destruct (eqb energy12 0); [reflexivity|]. induction (rmesh x y) as [|c l IH]; [reflexivity|]. simpl. rewrite products_ok by assumption. simpl. rewrite IH. reflexivity.
  Qed.
  Lemma kernel_fails : ~ fits t dt -> energy12 <> 0 -> rmesh x y <> [] -> sensitivity_kernel s1 s2 x y t dt vel mf = Raise ValueError.
  Proof.
    intros F E N. rewrite kernel_eq. rewrite (proj2 (eqb_false _ _) E). destruct (rmesh x y) as [|c l]; [easy|]. simpl.
    assert (Q : forall l0, (forall k, In k l0 -> 0 <= INR k * dt) -> In (last_step t dt) l0 -> mapM (fun tt => do p <- probability (edist c s1) tt vel mf atol; do q <- probability (edist c s2) (t - tt) vel mf atol; Ok (p * q)) (map (fun k => INR k * dt) l0) = Raise ValueError).
    { intros l0. induction l0 as [|k l0 IH]; intros P K; [destruct K|destruct K as [K|K]].
      - subst k. simpl. assert (0 <= INR (last_step t dt) * dt) by (apply P; now left). rewrite (probability_ok _ (INR _ * dt)); [|apply edist_nonneg|rewrite tol; lra]. simpl. rewrite probability_fails; [reflexivity|]. rewrite tol. unfold fits in F. lra.
      - simpl. assert (0 <= INR k * dt) by (apply P; now left). rewrite (probability_ok _ (INR _ * dt)); [|apply edist_nonneg|rewrite tol; lra]. simpl.
        destruct (Rlt_dec (t - INR k * dt) (- atol / vel)) as [L|L]; [now rewrite probability_fails|]. rewrite probability_ok; [|apply edist_nonneg|lra]. simpl. rewrite IH; [reflexivity| |assumption]. intros k' K'. apply P. now right. }
    rewrite times by assumption. rewrite Q; [reflexivity| |apply in_seq; lia]. intros k _. pose proof (pos_INR k). nra.
  Qed.
  Lemma product_nonneg c k : 0 <= product c k.
  Proof. apply Rmult_le_pos; apply prob_nonneg; auto using edist_nonneg, atol_nonneg. Qed.
  Lemma value_nonneg c : 0 <= (if eqb energy12 0 then 0 else cell_value c).
  Proof.
    destruct (eqb energy12 0) eqn:E; [lra|]. apply eqb_false in E. assert (0 <= energy12) by (apply prob_nonneg; auto using edist_nonneg, atol_nonneg).
    apply Rmult_le_pos; [|apply Rlt_le, Rinv_0_lt_compat; lra]. apply trapz_nonneg; [lra|]. apply Forall_forall. intros v V. apply in_map_iff in V. destruct V as [k [<- _]]. apply product_nonneg.
  Qed.
  Lemma value_reach c : fits t dt -> (if eqb energy12 0 then 0 else cell_value c) <> 0 ->
    edist c s1 + edist c s2 <= vel * t + vel * dt + / 100000 * (vel * (t + dt)).
  Proof.
    intros F. destruct (eqb energy12 0); [lra|]. intros N. apply Rnot_lt_le. intros L. apply N. unfold cell_value. rewrite trapz_zero; [lra|]. apply Forall_forall. intros v V. apply in_map_iff in V. destruct V as [k [<- K]]. apply in_seq in K.
    unfold product. destruct (Req_dec (prob (edist c s1) (INR k * dt) vel mf atol) 0) as [->|N1]; [lra|]. destruct (Req_dec (prob (edist c s2) (t - INR k * dt) vel mf atol) 0) as [->|N2]; [lra|]. exfalso.
    apply prob_reach in N1; [|apply atol_nonneg]. apply prob_reach in N2; [|apply atol_nonneg].
    pose proof (pos_INR k). assert (0 <= INR k * dt) by nra. assert (INR k * dt <= INR (last_step t dt) * dt) by (apply Rmult_le_compat_r; [lra|apply le_INR; lia]). unfold fits in F.
    assert (A : Rabs (vel * (INR k * dt)) = vel * (INR k * dt)) by (apply Rabs_pos_eq; nra).
    assert (B : Rabs (vel * (t - INR k * dt)) <= vel * (t - INR k * dt) + vel * dt).
    { unfold Rabs. destruct (Rcase_abs _); nra. }
    rewrite A in N1. assert (C : atol + atol = vel * dt) by (unfold atol; field). set (a := vel * (INR k * dt)) in *. replace (vel * (t - INR k * dt)) with (vel * t - a) in * by (unfold a; ring). 
    replace (vel * (t + dt)) with (vel * t + vel * dt) in L by ring. lra.
  Qed.
End KernelFacts.
Lemma edist_sym' p q : edist p q = edist q p.
Proof. unfold edist. f_equal. ring. Qed.
Lemma kernel_swap s1 s2 x y n dt vel mf : 0 < dt -> 0 < vel -> 0 < mf -> uneven x = Ok false -> uneven y = Ok false ->
  sensitivity_kernel s1 s2 x y (INR n * dt) dt vel mf = sensitivity_kernel s2 s1 x y (INR n * dt) dt vel mf.
Proof.
  intros D V M UX UY. pose proof (pos_INR n). assert (T : 0 <= INR n * dt) by nra. assert (F : fits (INR n * dt) dt) by (unfold fits; rewrite fits_multiple by assumption; lra).
  rewrite !kernel_ok by assumption. f_equal. apply map_ext. intros c. assert (E : energy12 s2 s1 (INR n * dt) dt vel mf = energy12 s1 s2 (INR n * dt) dt vel mf) by (unfold energy12; now rewrite edist_sym'). rewrite E. destruct (eqb _ 0); [reflexivity|].
  unfold cell_value. rewrite E. f_equal. rewrite fits_multiple by assumption. rewrite trapz_rev. f_equal. apply map_ext_in. intros k K. apply in_seq in K. unfold product. rewrite minus_INR by lia.
  replace ((INR n - INR k) * dt) with (INR n * dt - INR k * dt) by ring. replace (INR n * dt - (INR n * dt - INR k * dt)) with (INR k * dt) by ring. ring.
Qed.

(** ** Grids *)
Lemma diffs_seq step n m : diffs (map (fun k => INR k * step) (seq m (S n))) = map (fun k => INR (S k) * step - INR k * step) (seq m n).
Proof.
  revert m. induction n as [|n IH]; intros m; [reflexivity|]. change (seq m (S (S n))) with (m :: seq (S m) (S n)). change (seq m (S n)) with (m :: seq (S m) n). rewrite !map_cons, <- IH. reflexivity.
Qed.
Lemma axis_even stop step : 0 < step -> step < stop -> uneven (rarange stop step) = Ok false.
Proof.
  intros S L. unfold rarange. assert (Q : (2 <= rceil (stop / step))%Z).
  { pose proof (rceil_bound (stop / step)). assert (1 < stop / step). { apply (Rmult_lt_reg_r step); [assumption|]. unfold Rdiv. rewrite Rmult_assoc, Rinv_l by lra. lra. } assert (1 < rceil (stop / step))%Z by (apply lt_IZR; lra). lia. }
  destruct (Z.to_nat (rceil (stop / step))) as [|[|n]] eqn:E; [lia|lia|]. unfold uneven. pose proof (diffs_seq step (Datatypes.S n) 0) as D. 
  change (map (fun k : nat => INR k * step) (seq 0 (Datatypes.S (Datatypes.S n)))) with (INR 0 * step :: INR 1 * step :: map (fun k : nat => INR k * step) (seq 2 n)) in *. rewrite D. f_equal.
  destruct (existsb _ _) eqn:X; [|reflexivity]. apply existsb_exists in X. destruct X as [d [D1 D2]]. apply in_map_iff in D1. destruct D1 as [k [<- _]]. apply negb_true_iff, eqb_false in D2. exfalso. apply D2. rewrite S_INR. simpl. ring.
Qed.
Lemma axis_one step : 0 < step -> rarange (0 + step) step = [0].
Proof.
  intros S. unfold rarange. replace ((0 + step) / step) with 1 by (field; lra). replace (rceil 1) with 1%Z; [simpl; f_equal; ring|]. symmetry. apply rceil_spec. lra.
Qed.
Lemma row_ok g t p : good_grid g -> 0 < t -> fits t (g_dt g) ->
  exists k, kernel_row g t p = Ok k /\ length k = length (cells g) /\ forall i, (i < length k)%nat -> 0 <= nth i k 0 /\
    (nth i k 0 <> 0 -> edist (nth i (cells g) (0, 0)) (fst p) + edist (nth i (cells g) (0, 0)) (snd p) <= g_vel g * t + g_vel g * g_dt g + / 100000 * (g_vel g * (t + g_dt g))).
Proof.
  intros [R [X [Y [D [V M]]]]] T F. unfold kernel_row. rewrite kernel_ok; try assumption; [|lra|apply axis_even; lra|apply axis_even; lra]. simpl. eexists. split; [reflexivity|]. rewrite !map_length. split; [reflexivity|].
  fold (cells g). intros i I. rewrite map_map. set (f := fun c => g_res g ^ 2 / t * (if eqb (energy12 (fst p) (snd p) t (g_dt g) (g_vel g) (g_mf g)) 0 then 0 else cell_value (fst p) (snd p) t (g_dt g) (g_vel g) (g_mf g) c)).
  rewrite (nth_indep _ 0 (f (0, 0))) by now rewrite map_length. rewrite map_nth. set (c := nth i (cells g) (0, 0)). unfold f.
  assert (P : 0 < g_res g ^ 2 / t) by (apply Rdiv_lt_0_compat; [apply pow_lt|]; assumption). pose proof (value_nonneg (fst p) (snd p) t (g_dt g) (g_vel g) (g_mf g) D V M c) as N. split; [apply Rmult_le_pos; lra|].
  intros Z. apply (value_reach (fst p) (snd p) t (g_dt g) (g_vel g) (g_mf g)); try assumption. intros Q. apply Z. rewrite Q. ring.
Qed.
Lemma rows_ok g t ps : good_grid g -> 0 < t -> fits t (g_dt g) -> exists ks, mapM (kernel_row g t) ps = Ok ks /\ length ks = length ps.
Proof.
  intros G T F. induction ps as [|p ps [ks [E L]]]; [exists []; now split|]. destruct (row_ok g t p G T F) as [k [K _]]. exists (k :: ks). simpl. rewrite K, E. simpl. now rewrite L.
Qed.
Lemma row_swap g n s1 s2 : good_grid g -> kernel_row g (INR n * g_dt g) (s1, s2) = kernel_row g (INR n * g_dt g) (s2, s1).
Proof. intros [R [X [Y [D [V M]]]]]. unfold kernel_row. simpl. rewrite kernel_swap; try assumption; [reflexivity|apply axis_even; lra|apply axis_even; lra]. Qed.
Lemma cells_nonempty g : good_grid g -> cells g <> [].
Proof.
  intros [R [X [Y [D [V M]]]]]. assert (A : uneven (xaxis g) = Ok false) by (apply axis_even; lra). assert (B : uneven (yaxis g) = Ok false) by (apply axis_even; lra). unfold cells, rmesh. destruct (xaxis g) as [|x xs]; [discriminate|]. destruct (yaxis g) as [|y ys]; [discriminate|]. discriminate.
Qed.
Lemma row_fails g t p : good_grid g -> 0 < t -> ~ fits t (g_dt g) -> prob (edist (fst p) (snd p)) t (g_vel g) (g_mf g) (g_vel g * g_dt g / 2) <> 0 -> kernel_row g t p = Raise ValueError.
Proof.
  intros G T F E. pose proof (cells_nonempty g G) as C. destruct G as [R [X [Y [D [V M]]]]]. unfold kernel_row. rewrite kernel_fails; try assumption; [reflexivity|lra|apply axis_even; lra|apply axis_even; lra].
Qed.

Lemma fits_iff t dt : 0 < dt -> 0 <= t -> (fits t dt <-> step_fits t dt).
Proof.
  intros D T. pose proof (last_bound t dt D T) as B. unfold fits, step_fits. split.
  - intros F. exists (last_step t dt). lra.
  - intros [n [A C]]. assert (L : (last_step t dt <= n)%nat).
    { destruct (le_lt_dec (last_step t dt) n) as [L|L]; [assumption|]. assert (INR n + 1 <= INR (last_step t dt)) by (rewrite <- S_INR; apply le_INR; lia). nra. }
    apply le_INR in L. nra.
Qed.
