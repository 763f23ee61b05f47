From Coq Require Import Reals QArith Qround Qreals Lra Lia.
From Verif Require Import Lib.Base Model.Spectral Model.TimeDomain Model.CorrStream Model.LagMatrix Model.Amplitude
  Spec.AmplitudeSpec Spec.DecaySpec Proofs.SpectralFacts Proofs.ClipFacts Proofs.EnvelopeFacts.
Local Open Scope R_scope.

(** ** the least squares line *)
Lemma mean_sum y : (0 < length y)%nat -> rsum (length y) (fun t => nth t y 0 - mean y) = 0.
Proof. intros L. rewrite rsum_minus, rsum_const. unfold mean. field. apply not_0_INR. lia. Qed.
Lemma mean_times n : (0 < n)%nat -> rsum n (fun t => INR t - mean (map INR (seq 0 n))) = 0.
Proof.
  intros L. pose proof (mean_sum (map INR (seq 0 n))) as M. rewrite map_length, seq_length in M. rewrite <- M by assumption.
  apply rsum_ext. intros k K. rewrite nth_map_seq by assumption. reflexivity.
Qed.
Lemma spread_pos n : (2 <= n)%nat -> 0 < rsum n (fun t => (INR t - mean (map INR (seq 0 n))) * (INR t - mean (map INR (seq 0 n)))).
Proof.
  intros N. set (m := mean _). destruct n as [|[|n]]; try lia. rewrite !rsum_S.
  assert (0 <= rsum n (fun k => (INR (S (S k)) - m) * (INR (S (S k)) - m))) by (apply rsum_nonneg; intros; apply Rle_0_sqr).
  change (INR 0) with 0. change (INR 1) with 1. pose proof (Rle_0_sqr (m - / 2)) as S. unfold Rsqr in S. lra.
Qed.
Lemma line_optimal y a b : (2 <= length y)%nat ->
  rsum (length y) (fun t => (nth t y 0 - (snd (line y) + fst (line y) * INR t)) * (nth t y 0 - (snd (line y) + fst (line y) * INR t)))
  <= rsum (length y) (fun t => (nth t y 0 - (a + b * INR t)) * (nth t y 0 - (a + b * INR t))).
Proof.
  intros L. unfold line. cbn [fst snd]. set (n := length y) in *. set (tm := mean (map INR (seq 0 n))). set (ym := mean y).
  set (D := rsum n (fun t => (INR t - tm) * (INR t - tm))). set (P := rsum n (fun t => (INR t - tm) * (nth t y 0 - ym))). set (K := P / D).
  assert (Dp : 0 < D) by (apply spread_pos; assumption).
  assert (T0 : rsum n (fun t => INR t - tm) = 0) by (apply mean_times; lia).
  assert (Y0 : rsum n (fun t => nth t y 0 - ym) = 0) by (apply mean_sum; lia).
  set (V := rsum n (fun t => (nth t y 0 - ym) * (nth t y 0 - ym))).
  assert (G : forall al be, rsum n (fun t => (nth t y 0 - (al + be * INR t)) * (nth t y 0 - (al + be * INR t))) = V - 2 * be * P + be * be * D + INR n * ((ym - be * tm - al) * (ym - be * tm - al))).
  { intros al be. set (g := ym - be * tm - al).
    rewrite (rsum_ext n _ (fun t => (nth t y 0 - ym) * (nth t y 0 - ym) + (- 2 * be) * ((INR t - tm) * (nth t y 0 - ym)) + (be * be) * ((INR t - tm) * (INR t - tm)) + (2 * g) * (nth t y 0 - ym) + (- 2 * be * g) * (INR t - tm) + g * g)).
    2:{ intros t _. unfold g. ring. }
    rewrite !rsum_plus, !rsum_scal, T0, Y0, rsum_const. fold V P D. ring. }
  rewrite !G. replace (ym - K * tm - (ym - K * tm)) with 0 by ring.
  assert (0 <= INR n * ((ym - b * tm - a) * (ym - b * tm - a))) by (apply Rmult_le_pos; [apply pos_INR|apply Rle_0_sqr]).
  assert (E : V - 2 * b * P + b * b * D - (V - 2 * K * P + K * K * D) = D * Rsqr (b - K)) by (unfold K, Rsqr; field; lra).
  assert (0 <= D * Rsqr (b - K)) by (apply Rmult_le_pos; [lra|apply Rle_0_sqr]). lra.
Qed.
Lemma rsum_zero_sq n f : rsum n (fun t => f t * f t) <= 0 -> forall t, (t < n)%nat -> f t = 0.
Proof.
  intros H t T. pose proof (rsum_le n (fun k => if (k =? t)%nat then f t * f t else 0) (fun k => f k * f k)) as R.
  rewrite (rsum_single n t) in R; [|assumption|intros k _ K; now rewrite (proj2 (Nat.eqb_neq k t) K)]. rewrite Nat.eqb_refl in R.
  specialize (R ltac:(intros k _; destruct (Nat.eqb_spec k t) as [->|]; [lra|apply Rle_0_sqr])).
  pose proof (Rle_0_sqr (f t)) as R2. unfold Rsqr in R2. apply Rsqr_0_uniq. unfold Rsqr. lra.
Qed.
Lemma line_exact y a b : (2 <= length y)%nat -> (forall t, (t < length y)%nat -> nth t y 0 = a + b * INR t) -> line y = (b, a).
Proof.
  intros L H. pose proof (line_optimal y a b L) as O.
  assert (Z : rsum (length y) (fun t => (nth t y 0 - (a + b * INR t)) * (nth t y 0 - (a + b * INR t))) = 0).
  { apply rsum_0. intros k K. rewrite (H k K). ring. }
  rewrite Z in O. pose proof (rsum_zero_sq _ (fun t => nth t y 0 - (snd (line y) + fst (line y) * INR t)) O) as Q.
  pose proof (Q 0%nat ltac:(lia)) as Q0. pose proof (Q 1%nat ltac:(lia)) as Q1. cbv beta in Q0, Q1. rewrite (H 0%nat) in Q0 by lia. rewrite (H 1%nat) in Q1 by lia.
  change (INR 0) with 0 in *. change (INR 1) with 1 in *. rewrite (surjective_pairing (line y)). f_equal; lra.
Qed.

(** ** the average envelope *)
Lemma complete_none row : complete row = None -> envelope_row row = map (fun _ => None) row.
Proof. intros E. unfold envelope_row. now rewrite E. Qed.
Lemma nth_none {X} (row : list X) j : nth j (map (fun _ => @None R) row) None = None.
Proof. destruct (Nat.lt_ge_cases j (length row)); [|apply nth_overflow; now rewrite map_length]. revert j H. induction row as [|a r IH]; intros [|j] H; cbn in *; try reflexivity. apply IH. lia. Qed.
Lemma nth_some (e : list R) j : (j < length e)%nat -> nth j (map Some e) None = Some (nth j e 0).
Proof. revert j. induction e as [|a r IH]; intros [|j] H; cbn in *; try lia; [reflexivity|]. apply IH. lia. Qed.
Lemma mirror_none (row : list val) c n t : (c < n)%nat -> (t < Nat.max (c + 1) (n - c))%nat ->
  nth t (rmirror_row (c + 1) (n - c) (map (fun _ => None) row)) None = None.
Proof.
  intros C T. unfold rmirror_row. rewrite nth_map_seq by assumption. rewrite !nth_none.
  destruct (Nat.ltb_spec t (n - c)), (Nat.ltb_spec t (c + 1)); try lia; cbn [vadd]; destruct (_ <? Nat.min _ _)%nat; reflexivity.
Qed.
Lemma mirror_some (e : list R) c n t : length e = n -> (c < n)%nat -> (t < Nat.max (c + 1) (n - c))%nat ->
  nth t (rmirror_row (c + 1) (n - c) (map Some e)) None = Some (folded c e t).
Proof.
  intros L C T. unfold rmirror_row. rewrite nth_map_seq by assumption. unfold folded.
  replace (c + 1 - 1 + t)%nat with (c + t)%nat by lia. replace (c + 1 - 1 - t)%nat with (c - t)%nat by lia.
  destruct (Nat.ltb_spec t (n - c)) as [A|A], (Nat.ltb_spec t (c + 1)) as [B|B]; try lia.
  - rewrite !nth_some by lia. rewrite (nth_error_nth' e 0) by lia. rewrite (proj2 (Nat.leb_le t c)) by lia. rewrite (nth_error_nth' e 0) by lia.
    rewrite (proj2 (Nat.ltb_lt t _)) by lia. reflexivity.
  - rewrite nth_some by lia. rewrite (nth_error_nth' e 0) by lia. rewrite (proj2 (Nat.leb_gt t c)) by lia. rewrite (proj2 (Nat.ltb_ge t _)) by lia. reflexivity.
  - rewrite nth_some by lia. rewrite (proj2 (nth_error_None e (c + t))) by lia. rewrite (proj2 (Nat.leb_le t c)) by lia. rewrite (nth_error_nth' e 0) by lia.
    rewrite (proj2 (Nat.ltb_ge t (Nat.min _ _))) by lia. cbn [vadd]. f_equal. lra.
Qed.
Lemma folded_zero e t : (t < length e)%nat -> folded 0 e t = nth t e 0.
Proof.
  intros T. unfold folded. cbn [Nat.add]. rewrite (nth_error_nth' e 0) by assumption. destruct t as [|t].
  - cbn [Nat.leb Nat.sub]. rewrite (nth_error_nth' e 0) by assumption. field.
  - reflexivity.
Qed.
Lemma present_rows (F : list val -> val) (g : list R -> R) data :
  (forall row, In row data -> F row = option_map g (complete row)) -> present (map F data) = map g (complete_rows data).
Proof.
  induction data as [|row r IH]; intros H; [reflexivity|]. cbn. rewrite (H row (or_introl eq_refl)). specialize (IH (fun x I => H x (or_intror I))).
  destruct (complete row); cbn; now rewrite IH.
Qed.
Lemma complete_map_some {X} (f : X -> val) (g : X -> R) l : (forall x, In x l -> f x = Some (g x)) -> complete (map f l) = Some (map g l).
Proof. intros H. apply complete_spec. rewrite map_map. apply map_ext_in. exact H. Qed.
Lemma complete_length row x : complete row = Some x -> length x = length row.
Proof. intros E. apply complete_spec in E as ->. now rewrite map_length. Qed.

Section Decay.
  Variables (h : hdr) (c : nat) (data : rmatrix).
  Let n := h_npts h.
  Hypotheses (SR : (0 < h_sr h)%Q) (LAG : (- (h_lag h * h_sr h) == inject_Z (Z.of_nat c))%Q) (C : (c < n - 1)%nat)
    (RECT : rectangular n data) (ONE : complete_rows data <> []).
  Lemma some_row : exists row r, data = row :: r. Proof. destruct data as [|row r]; [cbn in ONE; congruence|]. now exists row, r. Qed.
  Lemma env_ok : envelope data = Ok (map envelope_row data).
  Proof.
    unfold envelope. replace (existsb _ _) with false; [reflexivity|]. symmetry. apply not_true_iff_false. intros E. apply existsb_exists in E as (row & I & E).
    apply Nat.eqb_eq in E. rewrite (RECT row I) in E. lia.
  Qed.
  Lemma zero_c : Q2R (- h_lag h * h_sr h) = INR c.
  Proof. rewrite INR_IZR_INZ. rewrite (Qeq_eqR _ (inject_Z (Z.of_nat c))); [unfold Q2R; cbn; field|]. rewrite <- LAG. ring. Qed.
  Lemma end_positive : (0 < end_lag h)%Q.
  Proof.
    unfold end_lag. fold n. rewrite (proj2 (Nat.eqb_neq n 0)) by lia.
    assert (E : (h_lag h == - inject_Z (Z.of_nat c) / h_sr h)%Q). { rewrite <- LAG. field. Lqa.lra. }
    rewrite E. setoid_replace (- inject_Z (Z.of_nat c) / h_sr h + inject_Z (Z.of_nat (n - 1)) / h_sr h)%Q with ((inject_Z (Z.of_nat (n - 1) - Z.of_nat c)) / h_sr h)%Q.
    2:{ unfold Z.sub. rewrite inject_Z_plus, inject_Z_opp. field. Lqa.lra. }
    apply Qlt_shift_div_l; [assumption|]. rewrite Qmult_0_l. rewrite <- (Zlt_Qlt 0). lia.
  Qed.
  Lemma mirrored : exists env, rmirror (map envelope_row data) h = Ok (env, distances c n) /\
    (match env with [] => 0%nat | row :: _ => length row end) = distances c n /\
    (forall t, (t < distances c n)%nat -> nanmean (column env t) = Some (mean_envelope c data t)).
  Proof.
    assert (NM : forall env, (exists F, env = map F data /\ forall t, (t < distances c n)%nat -> forall row, In row data -> nth t (F row) None = option_map (fun x => folded c (envelope_samples x) t) (complete row)) ->
      forall t, (t < distances c n)%nat -> nanmean (column env t) = Some (mean_envelope c data t)).
    { intros env (F & -> & H) t T. unfold nanmean, column. rewrite map_map. rewrite (present_rows _ (fun x => folded c (envelope_samples x) t)) by (intros row I; now apply H).
      unfold mean_envelope. destruct (complete_rows data) as [|x r] eqn:E; [congruence|]. reflexivity. }
    unfold rmirror. destruct (Nat.eq_dec c 0) as [Z|Z].
    - rewrite (proj2 (Qle_bool_iff _ 0)) by (rewrite LAG, Z; cbn; discriminate).
      assert (D : distances c n = n) by (unfold distances; lia).
      exists (map envelope_row data). rewrite D. split; [reflexivity|]. split.
      + destruct some_row as (row & r & ->). cbn [map]. unfold envelope_row. destruct (complete row) as [x|] eqn:E.
        * rewrite map_length, envelope_length. rewrite (complete_length _ _ E). apply RECT. now left.
        * rewrite map_length. apply RECT. now left.
      + rewrite <- D. apply NM. exists envelope_row. split; [reflexivity|]. intros t T row I. unfold envelope_row. destruct (complete row) as [x|] eqn:E; cbn [option_map].
        * assert (length x = n) by (rewrite (complete_length _ _ E); now apply RECT). rewrite nth_some by (rewrite envelope_length; lia). rewrite Z, folded_zero; [reflexivity|rewrite envelope_length; lia].
        * apply nth_none.
    - destruct (Qle_bool (- (h_lag h * h_sr h)) 0) eqn:B.
      { exfalso. apply Qle_bool_iff in B. rewrite LAG in B. rewrite <- (Zle_Qle _ 0) in B. lia. }
      destruct (Qle_bool (end_lag h) 0) eqn:B'. { exfalso. apply Qle_bool_iff in B'. pose proof end_positive. Lqa.lra. }
      assert (FL : Qfloor (- (h_lag h * h_sr h)) = Z.of_nat c) by (rewrite LAG; apply Qfloor_Z).
      rewrite FL, Nat2Z.id. rewrite (Qeq_eq_bool _ _ (Qeq_sym _ _ LAG)). cbn [negb]. fold n.
      replace (n - (c + 1) + 1)%nat with (n - c)%nat by lia. fold (distances c n).
      exists (map (rmirror_row (c + 1) (n - c)) (map envelope_row data)). split; [reflexivity|]. split.
      + destruct some_row as (row & r & ->). cbn [map]. unfold rmirror_row. now rewrite map_length, seq_length.
      + apply NM. exists (fun row => rmirror_row (c + 1) (n - c) (envelope_row row)). split; [now rewrite map_map|]. intros t T row I. unfold envelope_row. destruct (complete row) as [x|] eqn:E; cbn [option_map].
        * assert (length x = n) by (rewrite (complete_length _ _ E); now apply RECT). apply mirror_some; [rewrite envelope_length; lia|lia|assumption].
        * apply mirror_none; [lia|assumption].
  Qed.
  Lemma decay_line : (forall t, (t < distances c n)%nat -> 0 < mean_envelope c data t) ->
    let f := line (map (fun t => ln (mean_envelope c data t)) (seq 0 (distances c n))) in
    exists out, correct_decay n data h = Ok out /\
      (forall i j, sample_at out i j = option_map (fun v => option_map (fun x => x / (exp (snd f) * exp (fst f * Rabs (INR j - INR c)))) v) (sample_at data i j)).
  Proof.
    intros P f. destruct mirrored as (env & E & W & M). unfold correct_decay. rewrite env_ok. cbn [bind]. rewrite E. cbn [bind]. rewrite W.
    assert (PF : polyfit (distances c n) (map (fun j => vlog (nanmean (column env j))) (seq 0 (distances c n))) = Ok (Some f)).
    { unfold polyfit. rewrite map_length, seq_length, Nat.eqb_refl. assert (2 <= distances c n)%nat by (unfold distances; lia).
      rewrite (proj2 (Nat.eqb_neq (distances c n) 0)), (proj2 (Nat.eqb_neq (distances c n) 1)) by lia. cbn [negb orb].
      rewrite (complete_map_some _ (fun t => ln (mean_envelope c data t))); [reflexivity|]. intros t T. apply in_seq in T. rewrite M by lia. unfold vlog.
      destruct (Rlt_dec 0 (mean_envelope c data t)) as [|Q]; [reflexivity|]. destruct Q. apply P. lia. }
    rewrite PF. cbn [bind]. fold n. rewrite Nat.eqb_refl. cbn [negb]. eexists. split; [reflexivity|]. intros i j. unfold sample_at. rewrite nth_error_map.
    destruct (nth_error data i) as [row|] eqn:R; [|reflexivity]. cbn [option_map]. pose proof (RECT row (nth_error_In _ _ R)) as L. rewrite nth_error_map.
    destruct (nth_error row j) as [v|] eqn:J.
    - assert (Hj : (j < n)%nat) by (rewrite <- L; apply nth_error_Some; congruence). rewrite (nth_error_nth' _ 0%nat) by (rewrite seq_length; lia). rewrite seq_nth by lia. cbn [Nat.add option_map].
      rewrite (nth_error_nth _ _ None J). unfold model_decay. rewrite (surjective_pairing f), zero_c. cbn [fst snd]. destruct v; reflexivity.
    - apply nth_error_None in J. rewrite (proj2 (nth_error_None (seq 0 n) j)) by (rewrite seq_length; lia). reflexivity.
  Qed.
  Lemma decay_fit : (forall t, (t < distances c n)%nat -> 0 < mean_envelope c data t) ->
    exists out a K, 0 < a /\ correct_decay n data h = Ok out /\
      (forall i j, sample_at out i j = option_map (fun v => option_map (fun x => x / (a * exp (K * Rabs (INR j - INR c)))) v) (sample_at data i j)) /\
      (forall a' K', 0 < a' -> misfit c n data a K <= misfit c n data a' K').
  Proof.
    intros P. destruct (decay_line P) as (out & E & S). set (y := map (fun t => ln (mean_envelope c data t)) (seq 0 (distances c n))) in *.
    exists out, (exp (snd (line y))), (fst (line y)). split; [apply exp_pos|]. split; [exact E|]. split; [exact S|]. intros a' K' _.
    assert (Ly : length y = distances c n) by (unfold y; now rewrite map_length, seq_length).
    pose proof (line_optimal y (ln a') K' ltac:(rewrite Ly; unfold distances; lia)) as O. rewrite Ly in O. unfold misfit. rewrite ln_exp.
    assert (G : forall al be, rsum (distances c n) (fun t => (nth t y 0 - (al + be * INR t)) * (nth t y 0 - (al + be * INR t))) = rsum (distances c n) (fun t => (ln (mean_envelope c data t) - (al + be * INR t)) * (ln (mean_envelope c data t) - (al + be * INR t)))).
    { intros al be. apply rsum_ext. intros t T. unfold y. now rewrite nth_map_seq by assumption. }
    rewrite !G in O. exact O.
  Qed.
  Lemma decay_exact a K : 0 < a -> (forall t, (t < distances c n)%nat -> mean_envelope c data t = a * exp (K * INR t)) ->
    exists out, correct_decay n data h = Ok out /\
      (forall i j, sample_at out i j = option_map (fun v => option_map (fun x => x / (a * exp (K * Rabs (INR j - INR c)))) v) (sample_at data i j)).
  Proof.
    intros A H. destruct (decay_line) as (out & E & S).
    { intros t T. rewrite H by assumption. apply Rmult_lt_0_compat; [assumption|apply exp_pos]. }
    exists out. split; [exact E|]. rewrite (line_exact _ (ln a) K) in S.
    - cbn [fst snd] in S. rewrite exp_ln in S by assumption. exact S.
    - rewrite map_length, seq_length. unfold distances. lia.
    - rewrite map_length, seq_length. intros t T. rewrite nth_map_seq by assumption. rewrite H by assumption. rewrite ln_mult by (try assumption; apply exp_pos). now rewrite ln_exp.
  Qed.
End Decay.

(** ** every row with the same decay *)
Lemma mean_map_scale (l : list R) k : mean (map (fun v => v * k) l) = mean l * k.
Proof.
  unfold mean. rewrite map_length. replace (rsum (length l) (fun j => nth j (map (fun v => v * k) l) 0)) with (rsum (length l) (fun j => nth j l 0) * k).
  - unfold Rdiv. ring.
  - rewrite <- rsum_scal_r. apply rsum_ext. intros j _. replace 0 with (0 * k) at 2 by ring. symmetry. apply (map_nth (fun v => v * k)).
Qed.
Lemma mean_pos (l : list R) : l <> [] -> (forall a, In a l -> 0 < a) -> 0 < mean l.
Proof.
  intros N H. unfold mean. assert (L : (0 < length l)%nat) by (destruct l; cbn; [congruence|lia]).
  apply Rmult_lt_0_compat; [|apply Rinv_0_lt_compat, lt_0_INR; lia].
  assert (G : forall m, (m <= length l)%nat -> 0 <= rsum m (fun j => nth j l 0)).
  { intros m M. apply rsum_nonneg. intros k K. left. apply H. apply nth_In. lia. }
  destruct (length l) as [|m] eqn:E; [lia|]. cbn [rsum]. specialize (G m ltac:(lia)). assert (0 < nth m l 0) by (apply H, nth_In; lia). lra.
Qed.
Lemma folded_decay c n x a K t : length x = n -> (c < n)%nat -> decays_like n (INR c) a K x -> (t < distances c n)%nat -> folded c (envelope_samples x) t = a * exp (K * INR t).
Proof.
  intros L C D T. unfold distances in T. unfold folded. set (e := envelope_samples x) in *. assert (Le : length e = n) by (unfold e; now rewrite envelope_length).
  assert (P : (c + t < n)%nat -> nth (c + t) e 0 = a * exp (K * INR t)).
  { intros H. rewrite D by assumption. do 3 f_equal. rewrite plus_INR. replace (INR c + INR t - INR c) with (INR t) by ring. apply Rabs_pos_eq, pos_INR. }
  assert (M : (t <= c)%nat -> nth (c - t) e 0 = a * exp (K * INR t)).
  { intros H. rewrite D by lia. do 3 f_equal. rewrite minus_INR by assumption. replace (INR c - INR t - INR c) with (- INR t) by ring. rewrite Rabs_Ropp. apply Rabs_pos_eq, pos_INR. }
  destruct (Nat.leb_spec t c) as [A|A].
  - rewrite (nth_error_nth' e 0 (n := c - t)) by lia. rewrite M by assumption.
    destruct (Nat.lt_ge_cases (c + t) n) as [B|B]; [rewrite (nth_error_nth' e 0) by lia; rewrite P by assumption; field|].
    rewrite (proj2 (nth_error_None e (c + t))) by lia. reflexivity.
  - rewrite (nth_error_nth' e 0) by lia. apply P. lia.
Qed.
Lemma complete_rows_length n data x : rectangular n data -> In x (complete_rows data) -> length x = n.
Proof.
  induction data as [|row r IH]; intros R I; [destruct I|]. cbn in I. destruct (complete row) as [y|] eqn:E.
  - destruct I as [<-|I]; [rewrite (complete_length _ _ E); apply R; now left|]. apply IH; [|assumption]. intros q Q. apply R. now right.
  - apply IH; [|assumption]. intros q Q. apply R. now right.
Qed.
Lemma decay_rows h c data K amps : (0 < h_sr h)%Q -> (- (h_lag h * h_sr h) == inject_Z (Z.of_nat c))%Q -> (c < h_npts h - 1)%nat ->
  rectangular (h_npts h) data -> complete_rows data <> [] -> (forall a, In a amps -> 0 < a) ->
  Forall2 (fun x a => decays_like (h_npts h) (INR c) a K x) (complete_rows data) amps ->
  exists out, correct_decay (h_npts h) data h = Ok out /\
    (forall i j, sample_at out i j = option_map (fun v => option_map (fun x => x / (mean amps * exp (K * Rabs (INR j - INR c)))) v) (sample_at data i j)).
Proof.
  intros SR LAG C RECT ONE PA F. assert (NE : amps <> []) by (intros ->; inversion F; congruence).
  apply decay_exact; try assumption; [now apply mean_pos|]. intros t T. unfold mean_envelope.
  replace (map (fun x => folded c (envelope_samples x) t) (complete_rows data)) with (map (fun a => a * exp (K * INR t)) amps); [apply mean_map_scale|].
  assert (LL : forall x, In x (complete_rows data) -> length x = h_npts h) by (intros; eapply complete_rows_length; eauto). clear -F LL C T.
  induction F as [|x a l m D F IH]; [reflexivity|]. cbn [map]. rewrite IH by (intros y I; apply LL; now right). f_equal.
  rewrite (folded_decay c (h_npts h) x a K t); [reflexivity|apply LL; now left|lia|assumption|assumption].
Qed.

(** ** matrices with lags of one sign: the envelopes are not folded *)
Definition plain_envelope (data : rmatrix) (i : nat) : R := mean (map (fun x => nth i (envelope_samples x) 0) (complete_rows data)).
Lemma decay_plain h data b K : (2 <= h_npts h)%nat -> rectangular (h_npts h) data -> complete_rows data <> [] -> 0 < b ->
  ((- (h_lag h * h_sr h) <= 0)%Q \/ (end_lag h <= 0)%Q) ->
  (forall i, (i < h_npts h)%nat -> plain_envelope data i = b * exp (K * INR i)) ->
  exists out, correct_decay (h_npts h) data h = Ok out /\
    (forall i j, sample_at out i j = option_map (fun v => option_map (fun x => x / (b * exp (K * Rabs (INR j - Q2R (- h_lag h * h_sr h))))) v) (sample_at data i j)).
Proof.
  intros N RECT ONE B S H. set (n := h_npts h) in *. unfold correct_decay. rewrite (env_ok h 0 data); [|fold n; lia|exact RECT]. cbn [bind].
  assert (E : rmirror (map envelope_row data) h = Ok (map envelope_row data, n)).
  { unfold rmirror. fold n. destruct S as [S|S]; apply Qle_bool_iff in S; rewrite S; [reflexivity|]. destruct (Qle_bool (- (h_lag h * h_sr h)) 0); reflexivity. }
  rewrite E. cbn [bind]. destruct data as [|row0 r0] eqn:DD; [cbn in ONE; congruence|]. rewrite <- DD in *.
  assert (W : match map envelope_row data with [] => 0%nat | row :: _ => length row end = n).
  { rewrite DD. cbn [map]. unfold envelope_row. assert (length row0 = n) by (apply RECT; rewrite DD; now left).
    destruct (complete row0) as [x|] eqn:C0; rewrite map_length; [rewrite envelope_length, (complete_length _ _ C0)|]; assumption. }
  rewrite W.
  assert (M : forall t, (t < n)%nat -> nanmean (column (map envelope_row data) t) = Some (plain_envelope data t)).
  { intros t T. unfold nanmean, column. rewrite map_map. rewrite (present_rows _ (fun x => nth t (envelope_samples x) 0)).
    - unfold plain_envelope. destruct (complete_rows data); [congruence|reflexivity].
    - intros row I. unfold envelope_row. destruct (complete row) as [x|] eqn:C0; cbn [option_map]; [|apply nth_none].
      apply nth_some. rewrite envelope_length, (complete_length _ _ C0), (RECT row I). assumption. }
  assert (PF : polyfit n (map (fun j => vlog (nanmean (column (map envelope_row data) j))) (seq 0 n)) = Ok (Some (K, ln b))).
  { unfold polyfit. rewrite map_length, seq_length, Nat.eqb_refl. rewrite (proj2 (Nat.eqb_neq n 0)), (proj2 (Nat.eqb_neq n 1)) by lia. cbn [negb orb].
    rewrite (complete_map_some _ (fun t => ln (plain_envelope data t))).
    - cbn [option_map]. rewrite (line_exact _ (ln b) K); [reflexivity|rewrite map_length, seq_length; lia|]. rewrite map_length, seq_length. intros t T.
      rewrite nth_map_seq by assumption. rewrite H by assumption. rewrite ln_mult by (try assumption; apply exp_pos). now rewrite ln_exp.
    - intros t T. apply in_seq in T. rewrite M by lia. unfold vlog. destruct (Rlt_dec 0 (plain_envelope data t)) as [|Q]; [reflexivity|]. destruct Q. rewrite H by lia.
      apply Rmult_lt_0_compat; [assumption|apply exp_pos]. }
  rewrite PF. cbn [bind]. fold n. rewrite Nat.eqb_refl. cbn [negb]. eexists. split; [reflexivity|]. intros i j. unfold sample_at. rewrite nth_error_map.
  destruct (nth_error data i) as [row|] eqn:R; [|reflexivity]. cbn [option_map]. pose proof (RECT row (nth_error_In _ _ R)) as L. rewrite nth_error_map.
  destruct (nth_error row j) as [v|] eqn:J.
  - assert (Hj : (j < n)%nat) by (rewrite <- L; apply nth_error_Some; congruence). rewrite (nth_error_nth' _ 0%nat) by (rewrite seq_length; lia). rewrite seq_nth by lia. cbn [Nat.add option_map].
    rewrite (nth_error_nth _ _ None J). unfold model_decay. rewrite exp_ln by assumption. destruct v; reflexivity.
  - apply nth_error_None in J. rewrite (proj2 (nth_error_None (seq 0 n) j)) by (rewrite seq_length; lia). reflexivity.
Qed.
Lemma plain_rows n z data K amps : rectangular n data -> Forall2 (fun x a => decays_like n z a K x) (complete_rows data) amps ->
  forall i, (i < n)%nat -> plain_envelope data i = mean amps * exp (K * Rabs (INR i - z)).
Proof.
  intros RECT F i I. unfold plain_envelope. rewrite <- mean_map_scale. f_equal.
  induction F as [|x a l m D F IH]; [reflexivity|]. cbn [map]. rewrite IH. f_equal. now apply D.
Qed.
(** only negative lags: sample c, at or behind the end, is lag zero *)
Lemma decay_acausal h c data K amps : (0 < h_sr h)%Q -> (- (h_lag h * h_sr h) == inject_Z (Z.of_nat c))%Q -> (2 <= h_npts h)%nat -> (h_npts h - 1 <= c)%nat ->
  rectangular (h_npts h) data -> complete_rows data <> [] -> (forall a, In a amps -> 0 < a) ->
  Forall2 (fun x a => decays_like (h_npts h) (INR c) a K x) (complete_rows data) amps ->
  exists out, correct_decay (h_npts h) data h = Ok out /\
    (forall i j, sample_at out i j = option_map (fun v => option_map (fun x => x * exp (K * Rabs (INR j - INR c)) / (mean amps * exp (K * INR c))) v) (sample_at data i j)).
Proof.
  intros SR LAG N C RECT ONE PA F. assert (NE : amps <> []) by (intros ->; inversion F; congruence).
  assert (EL : (end_lag h <= 0)%Q).
  { unfold end_lag. rewrite (proj2 (Nat.eqb_neq (h_npts h) 0)) by lia.
    assert (E : (h_lag h == - inject_Z (Z.of_nat c) / h_sr h)%Q). { rewrite <- LAG. field. Lqa.lra. }
    rewrite E. setoid_replace (- inject_Z (Z.of_nat c) / h_sr h + inject_Z (Z.of_nat (h_npts h - 1)) / h_sr h)%Q with ((inject_Z (Z.of_nat (h_npts h - 1) - Z.of_nat c)) / h_sr h)%Q.
    2:{ unfold Z.sub. rewrite inject_Z_plus, inject_Z_opp. field. Lqa.lra. }
    apply Qle_shift_div_r; [assumption|]. rewrite Qmult_0_l. rewrite <- (Zle_Qle _ 0). lia. }
  destruct (decay_plain h data (mean amps * exp (K * INR c)) (- K) N RECT ONE) as (out & E & S).
  - apply Rmult_lt_0_compat; [now apply mean_pos|apply exp_pos].
  - now right.
  - intros i I. rewrite (plain_rows (h_npts h) (INR c) data K amps) by assumption. rewrite Rmult_assoc, <- exp_plus. do 2 f_equal.
    rewrite Rabs_left1; [ring|]. assert (INR i <= INR c) by (apply le_INR; lia). lra.
  - exists out. split; [exact E|]. intros i j. rewrite S. destruct (sample_at data i j) as [[v|]|]; cbn [option_map]; try reflexivity. do 2 f_equal.
    rewrite (Qeq_eqR (- h_lag h * h_sr h) (inject_Z (Z.of_nat c))) by (rewrite <- LAG; ring).
    replace (Q2R (inject_Z (Z.of_nat c))) with (INR c) by (rewrite INR_IZR_INZ; unfold Q2R; cbn; field).
    replace (- K * Rabs (INR j - INR c)) with (- (K * Rabs (INR j - INR c))) by ring. rewrite exp_Ropp. pose proof (exp_pos (K * Rabs (INR j - INR c))). pose proof (exp_pos (K * INR c)). assert (mean amps <> 0) by (pose proof (mean_pos amps NE PA); lra). field. repeat split; lra.
Qed.
(** only positive lags: lag zero is s samples before the first one *)
Lemma decay_causal h s data K amps : (0 < h_sr h)%Q -> (h_lag h * h_sr h == inject_Z (Z.of_nat s))%Q -> (2 <= h_npts h)%nat ->
  rectangular (h_npts h) data -> complete_rows data <> [] -> (forall a, In a amps -> 0 < a) ->
  Forall2 (fun x a => decays_like (h_npts h) (- INR s) a K x) (complete_rows data) amps ->
  exists out, correct_decay (h_npts h) data h = Ok out /\
    (forall i j, sample_at out i j = option_map (fun v => option_map (fun x => x / (mean amps * exp (K * (INR j + INR s))) / exp (K * INR s)) v) (sample_at data i j)).
Proof.
  intros SR LAG N RECT ONE PA F. assert (NE : amps <> []) by (intros ->; inversion F; congruence).
  assert (AB : forall i : nat, Rabs (INR i - - INR s) = INR i + INR s).
  { intros i. replace (INR i - - INR s) with (INR i + INR s) by ring. apply Rabs_pos_eq. pose proof (pos_INR i). pose proof (pos_INR s). lra. }
  destruct (decay_plain h data (mean amps * exp (K * INR s)) K N RECT ONE) as (out & E & S).
  - apply Rmult_lt_0_compat; [now apply mean_pos|apply exp_pos].
  - left. rewrite LAG. assert (0 <= inject_Z (Z.of_nat s))%Q by (rewrite <- (Zle_Qle 0); lia). Lqa.lra.
  - intros i I. rewrite (plain_rows (h_npts h) (- INR s) data K amps) by assumption. rewrite AB, Rmult_assoc, <- exp_plus. do 2 f_equal. ring.
  - exists out. split; [exact E|]. intros i j. rewrite S. destruct (sample_at data i j) as [[v|]|]; cbn [option_map]; try reflexivity. do 2 f_equal.
    rewrite (Qeq_eqR (- h_lag h * h_sr h) (- inject_Z (Z.of_nat s))) by (rewrite <- LAG; ring). rewrite Q2R_opp.
    replace (Q2R (inject_Z (Z.of_nat s))) with (INR s) by (rewrite INR_IZR_INZ; unfold Q2R; cbn; field). rewrite AB.
    pose proof (exp_pos (K * (INR j + INR s))). pose proof (exp_pos (K * INR s)). assert (mean amps <> 0) by (pose proof (mean_pos amps NE PA); lra). field. repeat split; lra.
Qed.
Lemma decay_half h data : (0 < - (h_lag h * h_sr h))%Q -> (0 < end_lag h)%Q -> (forall z, ~ (- (h_lag h * h_sr h) == inject_Z z)%Q) ->
  (forall row, In row data -> row <> []) -> correct_decay (h_npts h) data h = Raise TypeError.
Proof.
  intros A B Z R. unfold correct_decay. assert (E : envelope data = Ok (map envelope_row data)).
  { unfold envelope. replace (existsb _ _) with false; [reflexivity|]. symmetry. apply not_true_iff_false. intros E. apply existsb_exists in E as (row & I & E).
    apply Nat.eqb_eq in E. apply (R row I). now destruct row. }
  rewrite E. cbn [bind]. unfold rmirror. destruct (Qle_bool _ 0) eqn:Q1. { apply Qle_bool_iff in Q1. Lqa.lra. }
  destruct (Qle_bool (end_lag h) 0) eqn:Q2. { apply Qle_bool_iff in Q2. Lqa.lra. }
  destruct (Qeq_bool _ _) eqn:Q3; [|reflexivity]. apply Qeq_bool_eq in Q3. exfalso. eapply Z. symmetry. exact Q3.
Qed.
