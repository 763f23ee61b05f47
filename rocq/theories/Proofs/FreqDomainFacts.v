(** Proofs about Model.FreqDomain. *)
From Coq Require Import Reals Lra.
From Verif Require Import Lib.Base Model.MpiMatrix Model.Spectral Model.TimeDomain Proofs.SpectralFacts Model.FreqDomain.
Local Open Scope R_scope.

Lemma abs_zero b : cabs b = 0 <-> b = c0.
Proof.
  unfold cabs, abs2, c0. destruct b as [x y]. cbn [fst snd]. split.
  - intros H. apply sqrt_eq_0 in H; [|nra]. f_equal; nra.
  - intros [= -> ->]. rewrite Rmult_0_l, Rplus_0_l. apply sqrt_0.
Qed.
Lemma abs_nonneg b : 0 <= cabs b. Proof. apply sqrt_pos. Qed.
Lemma abs_div b m : 0 < m -> cabs (cdiv b m) = cabs b / m.
Proof.
  intros M. unfold cabs, cdiv, abs2. cbn [fst snd]. replace (fst b / m * (fst b / m) + snd b / m * (snd b / m)) with ((fst b * fst b + snd b * snd b) * (/ m * / m)) by (field; lra).
  rewrite sqrt_mult; [|nra|]; [|left; apply Rmult_lt_0_compat; now apply Rinv_0_lt_compat]. rewrite sqrt_square; [reflexivity|]. left. now apply Rinv_0_lt_compat.
Qed.
Lemma all_some_map {X Y} (f : X -> option Y) (g : X -> Y) l : (forall x, In x l -> f x = Some (g x)) -> all_some (map f l) = Some (map g l).
Proof. induction l as [|x l IH]; intros H; cbn; [reflexivity|]. rewrite H by now left. rewrite IH by (intros; apply H; now right). reflexivity. Qed.
Lemma all_some_none {X Y} (f : X -> option Y) l x : In x l -> f x = None -> all_some (map f l) = None.
Proof.
  induction l as [|y l IH]; [intros []|]. intros [->|I] E; cbn; [now rewrite E|]. rewrite IH by assumption. destruct (f y); reflexivity.
Qed.
Lemma dc_nth row k : nth k (zero_dc c0 row) c0 = if (k =? 0)%nat then c0 else nth k row c0.
Proof. destruct row as [|b row]; [destruct k; reflexivity|]. destruct k; reflexivity. Qed.
Lemma dc_length row : length (zero_dc c0 row) = length row. Proof. destruct row; reflexivity. Qed.

Definition unit_row (row : list cplx) : list cplx := map (fun b => cdiv b (cabs b)) row.
Lemma whiten_nonzero B : (forall row b, In row B -> In b row -> b <> c0) -> whiten B = map (fun row => zero_dc c0 (unit_row row)) B.
Proof.
  intros H. unfold whiten, spectral_whitening, whiten_rows.
  rewrite (all_some_map _ unit_row).
  - now rewrite map_map.
  - intros row I. unfold unit_row. apply all_some_map. intros b J. unfold div_by. destruct Req_EM_T as [E|]; [|reflexivity]. apply abs_zero in E. exfalso. now apply (H row b).
Qed.
Lemma whiten_zero B row : In row B -> In c0 row -> whiten B = map (zero_dc c0) B.
Proof.
  intros I J. unfold whiten, spectral_whitening, whiten_rows. rewrite (all_some_none _ B row I); [reflexivity|].
  apply (all_some_none _ row c0 J). unfold div_by. destruct Req_EM_T as [|E]; [reflexivity|]. exfalso. apply E. now apply abs_zero.
Qed.
Lemma nth_map_c (f : cplx -> cplx) l i : (i < length l)%nat -> nth i (map f l) c0 = f (nth i l c0).
Proof. intros H. rewrite (nth_indep _ c0 (f c0)) by now rewrite map_length. apply map_nth. Qed.
Lemma whiten_shape B : length (whiten B) = length B /\ forall r row, nth_error B r = Some row -> exists w, nth_error (whiten B) r = Some w /\ length w = length row /\ nth 0 w c0 = c0.
Proof.
  unfold whiten, spectral_whitening. destruct (whiten_rows (fun b => div_by b (cabs b)) B) as [B'|] eqn:E.
  - assert (F : Forall2 (fun row row' => length row' = length row) B B').
    { unfold whiten_rows in E. revert B' E. induction B as [|row B IH]; cbn; intros B' E; [inversion E; constructor|].
      destruct (all_some (map _ row)) as [row'|] eqn:E1; [|discriminate]. destruct (all_some (map _ B)) as [Bs|] eqn:E2; [|discriminate]. inversion E; subst. constructor; [|now apply IH].
      clear -E1. revert row' E1. induction row as [|b row IH]; cbn; intros row' E; [inversion E; reflexivity|]. destruct (div_by b (cabs b)); [|discriminate].
      destruct (all_some (map _ row)) as [bs|]; [|discriminate]. inversion E; subst. cbn. f_equal. now apply IH. }
    rewrite map_length. split; [symmetry; clear E; induction F; cbn; congruence|]. intros r row R. clear E. revert r R. induction F as [|u v l m H F IH]; intros [|r] R; cbn in R |- *; try discriminate.
    + inversion R; subst. eexists. split; [reflexivity|]. rewrite dc_length, dc_nth. auto.
    + now apply IH.
  - rewrite map_length. split; [reflexivity|]. intros r row R. exists (zero_dc c0 row). split; [now apply map_nth_error|]. rewrite dc_length, dc_nth. auto.
Qed.
(** every frequency but the first has amplitude 1 and the phase it had *)
Lemma whiten_unit B r row w k : (forall row b, In row B -> In b row -> b <> c0) -> nth_error B r = Some row -> nth_error (whiten B) r = Some w -> (1 <= k < length row)%nat ->
  cabs (nth k w c0) = 1 /\ nth k row c0 = (cabs (nth k row c0) * fst (nth k w c0), cabs (nth k row c0) * snd (nth k w c0)).
Proof.
  intros H R W K. rewrite whiten_nonzero in W by assumption. rewrite (map_nth_error _ _ _ R) in W. inversion W; subst w. rewrite dc_nth. destruct (Nat.eqb_spec k 0); [lia|].
  unfold unit_row. rewrite (nth_map_c (fun b => cdiv b (cabs b))) by lia. set (b := nth k row c0). assert (N : b <> c0) by (apply (H row); [now apply nth_error_In in R|apply nth_In; lia]).
  assert (P : 0 < cabs b). { pose proof (abs_nonneg b). destruct (Req_EM_T (cabs b) 0) as [E|E]; [apply abs_zero in E; contradiction|lra]. }
  split; [rewrite abs_div by assumption; field; lra|]. unfold cdiv. cbn [fst snd]. rewrite (surjective_pairing b) at 1. f_equal; field; lra.
Qed.
Lemma whiten_kept B r row z w k : In z B -> In c0 z -> nth_error B r = Some row -> nth_error (whiten B) r = Some w -> (1 <= k)%nat -> nth k w c0 = nth k row c0.
Proof.
  intros I J R W K. rewrite (whiten_zero B z I J) in W. rewrite (map_nth_error _ _ _ R) in W. inversion W; subst w. rewrite dc_nth. destruct (Nat.eqb_spec k 0); [lia|reflexivity].
Qed.

(** ** Joint normalisation of three traces *)
Lemma combine_map_same {X Y} (g : X -> Y) (l : list X) : combine l (map g l) = map (fun x => (x, g x)) l.
Proof. induction l; cbn; congruence. Qed.
Lemma joint_one a b c : length b = length a -> length c = length a -> (forall k, (k < length a)%nat -> nth k a c0 <> c0 \/ nth k b c0 <> c0 \/ nth k c c0 <> c0) ->
  exists a' b' c', whiten_joint [a; b; c] = Ok [a'; b'; c'] /\
    forall k, (1 <= k < length a)%nat -> let m := (cabs (nth k a c0) + cabs (nth k b c0) + cabs (nth k c c0)) / 3 in 0 < m /\
      nth k a' c0 = cdiv (nth k a c0) m /\ nth k b' c0 = cdiv (nth k b c0) m /\ nth k c' c0 = cdiv (nth k c c0) m /\
      (cabs (nth k a' c0) + cabs (nth k b' c0) + cabs (nth k c' c0)) / 3 = 1.
Proof.
  intros LB LC N. set (m := fun k => (cabs (nth k a c0) + cabs (nth k b c0) + cabs (nth k c c0)) / 3).
  assert (MP : forall k, (k < length a)%nat -> 0 < m k).
  { intros k K. unfold m. pose proof (abs_nonneg (nth k a c0)). pose proof (abs_nonneg (nth k b c0)). pose proof (abs_nonneg (nth k c c0)).
    assert (~ (cabs (nth k a c0) = 0 /\ cabs (nth k b c0) = 0 /\ cabs (nth k c c0) = 0)). { rewrite !abs_zero. intros (H2 & H3 & H4). destruct (N k K) as [?|[?|?]]; contradiction. }
    destruct (Req_EM_T (cabs (nth k a c0)) 0); [|lra]. destruct (Req_EM_T (cabs (nth k b c0)) 0); [|lra]. destruct (Req_EM_T (cabs (nth k c c0)) 0); [exfalso; auto|lra]. }
  assert (D : forall row, length row = length a -> all_some (map (fun q => div_by (fst q) (snd q)) (combine row (mean3 a b c))) = Some (map (fun k => cdiv (nth k row c0) (m k)) (seq 0 (length a)))).
  { intros row L. assert (combine row (mean3 a b c) = map (fun k => (nth k row c0, m k)) (seq 0 (length a))) as ->.
    { unfold mean3. rewrite <- (combine_map_same m) || idtac. replace row with (map (fun k => nth k row c0) (seq 0 (length a))) at 1.
      - generalize (seq 0 (length a)). intros s. induction s as [|k s IH]; cbn; [reflexivity|]. now rewrite IH.
      - apply (list_eq_nth c0); [rewrite map_length, seq_length; congruence|]. intros i I. rewrite map_length, seq_length in I. now rewrite nth_map_seq. }
    rewrite map_map. cbn [fst snd]. apply all_some_map. intros k K. apply in_seq in K. unfold div_by. destruct Req_EM_T as [E|]; [|reflexivity]. specialize (MP k ltac:(lia)). lra. }
  unfold whiten_joint. change (length [a; b; c] mod 3 =? 0)%nat with true. cbv iota. unfold divide_rows. cbn [joint_abs combine map all_some fst snd].
  rewrite !D by congruence. cbn [map]. do 3 eexists. split; [reflexivity|]. intros k K. fold (m k). pose proof (MP k ltac:(lia)).
  rewrite !dc_nth. destruct (Nat.eqb_spec k 0); [lia|]. rewrite !nth_map_seq by lia.
  split; [assumption|]. split; [reflexivity|]. split; [reflexivity|]. split; [reflexivity|]. rewrite !abs_div by assumption.
  assert (E : cabs (nth k a c0) + cabs (nth k b c0) + cabs (nth k c c0) = 3 * m k) by (unfold m; field).
  replace ((cabs (nth k a c0) / m k + cabs (nth k b c0) / m k + cabs (nth k c c0) / m k) / 3) with ((cabs (nth k a c0) + cabs (nth k b c0) + cabs (nth k c c0)) / m k / 3) by (field; lra).
  rewrite E. field. lra.
Qed.

(** ** Transforming there and back *)
Definition impulse (n : nat) : list R := 1 :: repeat 0 (n - 1).
Lemma impulse_nth n j : nth j (impulse n) 0 = if (j =? 0)%nat then 1 else 0.
Proof. destruct j; cbn; [reflexivity|]. apply nth_repeat. Qed.
Lemma impulse_dft n k : (1 <= n)%nat -> dft (impulse n) k = (1, 0).
Proof.
  intros N. assert (L : length (impulse n) = n) by (unfold impulse; cbn; rewrite repeat_length; lia). unfold dft. rewrite L.
  assert (O : forall g : nat -> R, rsum n (fun j => nth j (impulse n) 0 * g j) = g O).
  { intros g. rewrite (rsum_single n 0); [rewrite impulse_nth; cbn [Nat.eqb]; ring|lia|]. intros j J D. rewrite impulse_nth. destruct (Nat.eqb_spec j 0); [lia|ring]. }
  rewrite !O.
  unfold angle. change (INR 0) with 0. replace (2 * PI * INR k * 0 / INR n) with 0 by (unfold Rdiv; ring). rewrite cos_0, sin_0. f_equal; ring.
Qed.
Lemma irfft_rfft h x : (1 <= h)%nat -> length x = (2 * h)%nat -> irfft (rfft x) = x.
Proof.
  intros H L. assert (LR : length (rfft x) = S h) by (rewrite rfft_length, L; rewrite Nat.mul_comm, Nat.div_mul by lia; lia).
  assert (LI : length (impulse (2 * h)) = (2 * h)%nat) by (unfold impulse; cbn; rewrite repeat_length; lia).
  assert (C : cross (2 * h) 0 0 (rfft (impulse (2 * h))) (rfft x) = rfft x).
  { apply (list_eq_nth c0); [rewrite cross_length, !rfft_length, LI, L; reflexivity|]. intros k K. rewrite cross_length, rfft_length, LI in K.
    unfold cross. rewrite nth_map_seq by (rewrite rfft_length, LI; exact K). unfold rfft at 1. rewrite nth_map_seq by (rewrite LI; exact K). rewrite impulse_dft by lia.
    replace (INR k * 0 / INR (2 * h) * 0 * 2 * PI) with 0 by (unfold Rdiv; ring). unfold cmul, cconj, cexp. rewrite cos_0, sin_0. cbn [fst snd].
    destruct (nth k (rfft x) c0) as [u v]. cbn [fst snd]. f_equal; ring. }
  apply (list_eq_nth 0); [rewrite irfft_length; lia|]. intros i I. rewrite irfft_length in I. unfold irfft. rewrite nth_map_seq by assumption.
  rewrite <- C. rewrite (irfft_circ h _ _ 0 0 0) by (try assumption; cbn; ring). unfold circ. rewrite (rsum_single (2 * h) 0).
  - rewrite impulse_nth. cbn [Nat.eqb]. rewrite Rmult_1_l. f_equal. rewrite Z.mod_small by lia. lia.
  - lia.
  - intros k K D. rewrite impulse_nth. destruct (Nat.eqb_spec k 0); [lia|ring].
Qed.
Lemma fd_sign_even h x : (1 <= h)%nat -> length x = (2 * h)%nat -> fd_sign_bit (rfft x) = rfft (sign_bit_row x).
Proof. intros H L. unfold fd_sign_bit. now rewrite (irfft_rfft h). Qed.
Lemma fd_sign_odd h : (1 <= h)%nat -> let x := repeat 1 (2 * h + 1) in fd_sign_bit (rfft x) <> rfft (sign_bit_row x).
Proof.
  intros H x E. assert (LX : length x = (2 * h + 1)%nat) by (unfold x; apply repeat_length).
  assert (LR : length (rfft x) = S h). { rewrite rfft_length, LX. assert ((2 * h + 1) / 2 = h)%nat as -> by (symmetry; apply Nat.div_unique with 1%nat; lia). lia. }
  apply (f_equal (fun l => fst (nth 0 l c0))) in E. unfold fd_sign_bit in E. unfold rfft in E at 1 3. rewrite !nth_map_seq in E by lia.
  assert (D0 : forall y, fst (dft y 0) = rsum (length y) (fun j => nth j y 0)).
  { intros y. unfold dft. cbn [fst]. apply rsum_ext. intros j J. unfold angle. change (INR 0) with 0. replace (2 * PI * 0 * INR j / INR (length y)) with 0 by (unfold Rdiv; ring). rewrite cos_0. ring. }
  rewrite !D0 in E. unfold sign_bit_row in E. rewrite !map_length, irfft_length, LR, LX in E.
  assert (S1 : rsum (2 * h + 1) (fun j => nth j (map sign x) 0) = INR (2 * h + 1)).
  { rewrite (rsum_ext _ _ (fun _ => 1)); [rewrite rsum_const; ring|]. intros j J. rewrite (nth_indep _ 0 (sign 0)) by (rewrite map_length; lia). rewrite map_nth.
    assert (nth j x 0 = 1) as ->. { unfold x. clear -J. revert j J. generalize (2 * h + 1)%nat. induction n as [|n IH]; intros [|j] J; cbn; try lia; auto. apply IH. lia. }
    unfold sign. destruct Rlt_dec; [lra|]. destruct Rlt_dec; lra. }
  rewrite S1 in E.
  assert (S2 : rsum (2 * (S h - 1)) (fun j => nth j (map sign (irfft (rfft x))) 0) <= INR (2 * h)).
  { replace (2 * (S h - 1))%nat with (2 * h)%nat by lia. rewrite <- (Rmult_1_r (INR (2 * h))), <- rsum_const. apply rsum_le. intros j J. 
    destruct (Nat.lt_ge_cases j (length (irfft (rfft x)))).
    - rewrite (nth_indep _ 0 (sign 0)) by (rewrite map_length; lia). rewrite map_nth. unfold sign. destruct Rlt_dec; [lra|]. destruct Rlt_dec; lra.
    - rewrite nth_overflow by (rewrite map_length; lia). lra. }
  rewrite E in S2. rewrite plus_INR in S2. change (INR 1) with 1 in S2. lra.
Qed.
