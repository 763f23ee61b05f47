(** Velocity changes that are known are found. *)
From Coq Require Import Reals QArith Qround Qreals Qfield Lra Lia.
From Verif Require Import Lib.Base Model.LagMatrix Model.Similarity Model.TimeDomain Model.Shift Model.MultiRef Model.Reference Model.VelocityChange.
From Verif Require Import Spec.LagSpec Spec.ShiftSpec Spec.VelocityChangeSpec.
From Verif Require Import Proofs.SpectralFacts Proofs.AmplitudeFacts Proofs.SimilarityFacts Proofs.ShiftFacts Proofs.CorrectFacts Proofs.ExtractFacts Proofs.CombineFacts Proofs.VelocityChangeFacts.
Local Open Scope R_scope.

Lemma option_R_dec (a b : option R) : {a = b} + {a <> b}.
Proof. destruct a as [x|], b as [y|]; [destruct (Req_EM_T x y) as [->|N]; [now left|right; congruence]|right|right|left]; congruence. Qed.

Lemma best_match_total strvec sims : sims <> [] -> length strvec = length sims -> exists r, best_match strvec sims = Ok r.
Proof.
  intros NE L. destruct (in_dec option_R_dec None sims) as [I|N].
  - exists (None, None). now apply best_match_nan.
  - destruct (best_match_spec strvec sims NE L) as (i & c & v & E & _); [|now exists (Some c, Some v)].
    intros x X ->. contradiction.
Qed.

Lemma nan_some l : nan_to_num (map Some l) = l.
Proof. unfold nan_to_num. rewrite map_map. apply map_id. Qed.

Lemma windowed_length s h b e x : length (windowed s h b e x) = h_npts h.
Proof. unfold windowed. now rewrite map_length, seq_length. Qed.

Lemma mapM_const {A B} (f : A -> result B) y l : (forall x, In x l -> f x = Ok y) -> mapM f l = Ok (repeat y (length l)).
Proof. induction l as [|x l IH]; intros H; [reflexivity|]. cbn. rewrite (H x) by now left. cbn. rewrite IH; [reflexivity|]. intros; apply H; now right. Qed.

Lemma around_error x : Rabs (IZR (around x) - x) <= 1 / 2.
Proof.
  unfold around. destruct (base_Int_part x) as [A B]. set (f := Int_part x) in *.
  destruct (Rlt_dec (x - IZR f) (1 / 2)); [|destruct (Rlt_dec (1 / 2) (x - IZR f)); [|destruct (Z.even f)]]; rewrite ?plus_IZR;
    apply Rabs_le; lra.
Qed.

Lemma nth_repeat_below {A} (v d : A) n k : (k < n)%nat -> nth k (repeat v n) d = v.
Proof. revert k. induction n as [|n IH]; intros [|k] K; cbn; try lia; [reflexivity|]. apply IH. lia. Qed.
Lemma same_mean (o : option R) N : (0 < N)%nat -> Reference.masked_mean (repeat o N) = o.
Proof.
  intros NP. unfold Reference.masked_mean. destruct o as [v|].
  - assert (E : existing (repeat (Some v) N) = repeat v N) by (clear; induction N as [|N IH]; [reflexivity|]; change (v :: existing (repeat (Some v) N) = v :: repeat v N); now rewrite IH).
    rewrite E. destruct N as [|N]; [lia|]. cbn [repeat]. f_equal. change (v :: repeat v N) with (repeat v (S N)). unfold mean. rewrite repeat_length.
    rewrite (rsum_ext (S N) _ (fun _ => v)) by (intros k K; apply nth_repeat_below; exact K).
    rewrite rsum_const. field. apply not_0_INR. lia.
  - assert (E : existing (repeat None N) = []) by (clear; induction N as [|N IH]; [reflexivity|exact IH]). now rewrite E.
Qed.
Lemma mean_of_equal x N : (0 < N)%nat -> mean_trace (repeat (map Some x) N) = map Some x.
Proof.
  intros NP. unfold mean_trace. assert (W : width (repeat (map Some x) N) = length x) by (destruct N; [lia|cbn; apply map_length]).
  rewrite W. transitivity (map (fun k => nth k (map Some x) None) (seq 0 (length x))).
  2:{ rewrite <- (map_length Some x). symmetry. apply list_as_map. }
  apply map_ext_in. intros k _.
  unfold column. replace (map (fun row => nth k row None) (repeat (map Some x) N)) with (repeat (nth k (map Some x) None) N).
  2:{ clear. induction N as [|N IH]; [reflexivity|]. cbn [repeat map]. now rewrite IH. }
  apply same_mean. exact NP.
Qed.

(** a trace with a sample in the window is not silent there *)
Lemma audible s h M b e row k : h_npts h = (2 * M + 1)%nat -> (k < 2 * M + 1)%nat ->
  in_window s b e (h_lag h + inject_Z (Z.of_nat k) / h_sr h) = true -> nth k row 0 <> 0 ->
  Similarity.dot (windowed s h b e row) (windowed s h b e row) <> 0.
Proof.
  intros NP K W X. unfold windowed. rewrite NP, dot_map. replace (2 * M + 1)%nat with (k + (1 + (2 * M - k)))%nat by lia.
  rewrite !seq_app, !total_app. cbn [Nat.add seq]. assert (P : forall l, 0 <= total (fun k => (if in_window s b e (h_lag h + inject_Z (Z.of_nat k) / h_sr h) then nth k row 0 else 0) *
     (if in_window s b e (h_lag h + inject_Z (Z.of_nat k) / h_sr h) then nth k row 0 else 0)) l).
  { intros l. rewrite <- dot_map. apply dot_nonneg. }
  pose proof (P (seq 0 k)) as A. pose proof (P (seq (k + 1) (2 * M - k))) as B.
  assert (C : 0 < total (fun k => (if in_window s b e (h_lag h + inject_Z (Z.of_nat k) / h_sr h) then nth k row 0 else 0) *
     (if in_window s b e (h_lag h + inject_Z (Z.of_nat k) / h_sr h) then nth k row 0 else 0)) [k]).
  { unfold total. cbn [map fold_right]. rewrite W. pose proof (Rsqr_pos_lt _ X) as Y. unfold Rsqr in Y. lra. }
  lra.
Qed.

(** traces with similarity 1 *)
Lemma dot_combination t a b : length a = length b ->
  Similarity.dot (map (fun p => fst p - t * snd p) (combine b a)) (map (fun p => fst p - t * snd p) (combine b a)) =
  Similarity.dot b b - 2 * t * Similarity.dot a b + t * t * Similarity.dot a a.
Proof.
  unfold Similarity.dot. revert b. induction a as [|x a IH]; destruct b as [|y b]; intros L; try discriminate; cbn; [lra|].
  rewrite IH by (now injection L). ring.
Qed.
Lemma dot_zero a : Similarity.dot a a = 0 -> forall k, nth k a 0 = 0.
Proof.
  induction a as [|x a IH]; intros Z [|k]; try reflexivity; unfold Similarity.dot in Z; cbn in Z; fold (Similarity.dot a a) in Z;
    pose proof (dot_nonneg a) as P; pose proof (Rle_0_sqr x) as Q; unfold Rsqr in Q.
  - cbn. unfold Similarity.dot in *. assert (X : x * x = 0) by lra. apply Rmult_integral in X. tauto.
  - cbn. apply IH. unfold Similarity.dot in *. lra.
Qed.
Lemma combine_at k a b t : length a = length b -> nth k b 0 - t * nth k a 0 = nth k (map (fun p => fst p - t * snd p) (combine b a)) 0.
Proof.
  revert a b. induction k as [|k IH]; intros [|x a] [|y b] L; try discriminate; cbn; try ring. apply IH. now injection L.
Qed.
Lemma similarity_one a b : length a = length b -> similarity a b = Some 1 -> exists t, 0 < t /\ forall k, nth k b 0 = t * nth k a 0.
Proof.
  intros L. unfold similarity. set (A := Similarity.dot a a). set (B := Similarity.dot b b). set (den := sqrt (A * B)).
  destruct (Req_EM_T den 0) as [|NZ]; [discriminate|]. intros [= E].
  pose proof (dot_nonneg a : 0 <= A) as PA. pose proof (dot_nonneg b : 0 <= B) as PB.
  assert (PP : A * B <> 0) by (intros Z; apply NZ; unfold den; rewrite Z; apply sqrt_0).
  assert (A0 : 0 < A) by (destruct PA as [|<-]; [assumption|]; rewrite Rmult_0_l in PP; congruence).
  assert (B0 : 0 < B) by (destruct PB as [|<-]; [assumption|]; rewrite Rmult_0_r in PP; congruence).
  assert (AB : Similarity.dot a b = den) by (apply (f_equal (fun z => z * den)) in E; unfold Rdiv in E; rewrite Rmult_assoc, Rinv_l, Rmult_1_r, Rmult_1_l in E by exact NZ; exact E).
  assert (DD : den * den = A * B) by (unfold den; apply sqrt_sqrt; apply Rmult_le_pos; lra).
  assert (D0 : 0 < den) by (pose proof (sqrt_pos (A * B)); unfold den in *; lra).
  exists (den / A). split; [now apply Rdiv_lt_0_compat|].
  assert (Z : Similarity.dot (map (fun p => fst p - den / A * snd p) (combine b a)) (map (fun p => fst p - den / A * snd p) (combine b a)) = 0).
  { rewrite (dot_combination _ a b L). fold A B. rewrite AB. replace (B - 2 * (den / A) * den + den / A * (den / A) * A) with (B - den * den / A) by (field; lra).
    rewrite DD. field. lra. }
  intros k. pose proof (dot_zero _ Z k) as X.
  rewrite <- (combine_at k a b (den / A) L) in X. lra.
Qed.

Section WithSpline.
  Variable sp : list R -> R -> R.
  Variable gap_row : list (option R) -> option R -> list (option R).
  Variable extract : bulk -> result (list (option R)).

  Lemma measure_total c h b e p rows ref : (0 < c_steps c)%nat -> exists res, measure sp c h b e p rows ref = Ok res /\ length res = length rows.
  Proof.
    intros ST. pose proof (tested_nonempty c ST) as TN. unfold measure.
    destruct (mapM_total (fun row => best_match (tested c) (map (likeness sp (c_sides c) h b e p (nan_to_num ref) (nan_to_num row)) (tested c))) rows) as (res & E).
    { intros row _. apply best_match_total; [|now rewrite map_length]. intros X. now apply map_eq_nil in X. }
    exists res. split; [exact E|]. now apply mapM_same_length in E.
  Qed.

  (** the best match of a trace that is like the reference stretched by [v] *)
  Lemma best_of c h b e p ref row v : In v (tested c) -> likeness sp (c_sides c) h b e p ref row v = Some 1 ->
    (forall u, In u (tested c) -> Similarity.dot (windowed (c_sides c) h b e (stretched_ref sp p ref u)) (windowed (c_sides c) h b e (stretched_ref sp p ref u)) <> 0) ->
    exists w, best_match (tested c) (map (likeness sp (c_sides c) h b e p ref row) (tested c)) = Ok (Some 1, Some w) /\
      In w (tested c) /\ likeness sp (c_sides c) h b e p ref row w = Some 1.
  Proof.
    intros IV ONE AUD. set (f := likeness sp (c_sides c) h b e p ref row) in *.
    assert (ROW : Similarity.dot (windowed (c_sides c) h b e row) (windowed (c_sides c) h b e row) <> 0).
    { intros Z. unfold f, likeness in ONE. rewrite similarity_silent in ONE by now left. discriminate. }
    destruct (best_match_spec (tested c) (map f (tested c))) as (i & x & w & E & N & T & MX).
    - intros X. apply map_eq_nil in X. rewrite X in IV. contradiction.
    - now rewrite map_length.
    - intros y Y. apply in_map_iff in Y as (u & <- & U). unfold f, likeness.
      destruct (similarity_defined _ _ ROW (AUD u U)) as (z & ->). discriminate.
    - assert (G : 1 <= x) by (apply MX; apply in_map_iff; exists v; auto).
      rewrite nth_error_map, T in N. cbn in N. injection N as FW.
      assert (U : x <= 1).
      { unfold f, likeness in FW. apply similarity_bounded in FW; [lra|]. now rewrite !windowed_length. }
      assert (x = 1) by lra. subst x. exists w. split; [exact E|]. split; [|exact FW]. now apply nth_error_In in T.
  Qed.

  (** ** a reference given by the user *)
  Lemma entry_values (res : list (option R * option R)) k : length res <> 1%nat -> entry (squeeze (map snd res)) k = nth_error (map snd res) k.
  Proof. intros L. unfold squeeze. destruct res as [|a [|b r]]; cbn in *; try reflexivity. congruence. Qed.

  Lemma correct_ok cb res : length res = length (b_rows cb) -> length res <> 1%nat ->
    exists rows, correct sp gap_row cb res = Ok (mkB (b_hdr cb) rows) /\ length rows = length (b_rows cb) /\
      forall k row x v, nth_error (b_rows cb) k = Some row -> nth_error res k = Some (x, v) -> nth_error rows k = Some (correct_row sp gap_row (b_hdr cb) row v).
  Proof.
    intros L L1. unfold correct. destruct (for_rows_ok (correct_row sp gap_row (b_hdr cb)) (entry (squeeze (map snd res))) (b_rows cb) 0) as (rows & -> & LR & H).
    { intros k K. rewrite Nat.add_0_l, entry_values by exact L1. apply nth_error_Some. rewrite map_length. lia. }
    exists rows. split; [reflexivity|]. split; [exact LR|]. intros k row x v R V. apply H; [exact R|].
    rewrite Nat.add_0_l, entry_values by exact L1. rewrite nth_error_map, V. reflexivity.
  Qed.

  Lemma custom_once c M b e r cb : length (b_rows cb) <> 1%nat ->
    two_pass sp gap_row extract c M b e (Some r) cb = measure sp c (b_hdr cb) b e (INR M) (b_rows cb) r.
  Proof.
    intros L. unfold two_pass. cbn [bind]. destruct (measure sp c (b_hdr cb) b e (INR M) (b_rows cb) r) as [res|x] eqn:E; [|reflexivity].
    cbn [bind]. assert (LR : length res = length (b_rows cb)) by (unfold measure in E; now apply mapM_same_length in E).
    destruct (correct_ok cb res LR ltac:(congruence)) as (rows & -> & _). reflexivity.
  Qed.

  Lemma in_window_far s h M b e B E k : two_sided h M -> (b * h_sr h == inject_Z B)%Q -> (e * h_sr h == inject_Z (Z.of_nat E))%Q -> (0 <= B)%Z ->
    in_window s b e (h_lag h + inject_Z (Z.of_nat k) / h_sr h) = true -> (Z.abs (Z.of_nat k - Z.of_nat M) < Z.of_nat E)%Z.
  Proof.
    intros T HB HE B0 W. rewrite (in_window_int s h M b e B (Z.of_nat E) k T HB HE) in W. unfold window_at in W.
    destruct s; rewrite ?orb_true_iff, ?andb_true_iff, ?Z.leb_le, ?Z.ltb_lt in W; lia.
  Qed.

  Lemma stays M E k v : (Z.abs (Z.of_nat k - Z.of_nat M) < Z.of_nat E)%Z -> INR E * exp (- v) <= INR M ->
    0 <= INR M + (INR k - INR M) * exp (- v) <= INR (2 * M + 1 - 1).
  Proof.
    intros A S. replace (2 * M + 1 - 1)%nat with (M + M)%nat by lia. rewrite plus_INR. pose proof (exp_pos (- v)) as X.
    assert (AB : - INR E <= INR k - INR M <= INR E) by (rewrite !INR_IZR_INZ, <- minus_IZR, <- opp_IZR; split; apply IZR_le; lia).
    assert (L : - INR E * exp (- v) <= (INR k - INR M) * exp (- v)) by (apply Rmult_le_compat_r; lra).
    assert (U : (INR k - INR M) * exp (- v) <= INR E * exp (- v)) by (apply Rmult_le_compat_r; lra). lra.
  Qed.

  Lemma like_itself s h M b e B E f v : two_sided h M -> (b * h_sr h == inject_Z B)%Q -> (e * h_sr h == inject_Z (Z.of_nat E))%Q -> (0 <= B)%Z ->
    reproduced sp (2 * M + 1) f -> INR E * exp (- v) <= INR M ->
    Similarity.dot (windowed s h b e (stretched_ref sp (INR M) (sampled (2 * M + 1) f) v)) (windowed s h b e (stretched_ref sp (INR M) (sampled (2 * M + 1) f) v)) <> 0 ->
    likeness sp s h b e (INR M) (sampled (2 * M + 1) f) (sampled (2 * M + 1) (stretched (INR M) v f)) v = Some 1.
  Proof.
    intros T HB HE B0 RP ST EN. unfold likeness.
    assert (X : windowed s h b e (sampled (2 * M + 1) (stretched (INR M) v f)) = windowed s h b e (stretched_ref sp (INR M) (sampled (2 * M + 1) f) v)).
    { unfold windowed. apply map_ext_in. intros k K. apply in_seq in K. pose proof T as (_ & N & _).
      destruct (in_window s b e (h_lag h + inject_Z (Z.of_nat k) / h_sr h)) eqn:W; [|reflexivity].
      pose proof (in_window_far _ _ _ _ _ _ _ _ T HB HE B0 W) as A. pose proof (stays M E k v A ST) as I.
      assert (KN : (k < 2 * M + 1)%nat) by lia.
      unfold stretched_ref. rewrite sampled_length, (nth_map_seq _ _ _ _ KN). rewrite (proj2 (inside_spec _ _) I). unfold stretch_at.
      rewrite RP by exact I. unfold sampled. now rewrite (nth_map_seq _ _ _ _ KN). }
    rewrite X. now apply similarity_self.
  Qed.

  Theorem recovered c lts g cb M B E b e f i v :
    c_sides c <> Single -> (0 < c_steps c)%nat -> two_sided (b_hdr cb) M ->
    whole cb M -> length (b_rows cb) <> 1%nat -> (forall row v, length (gap_row row v) = length row) ->
    (lts <= end_lag (b_hdr cb))%Q -> window c lts g = Ok (b, e) ->
    (b * h_sr (b_hdr cb) == inject_Z B)%Q -> (e * h_sr (b_hdr cb) == inject_Z (Z.of_nat E))%Q -> (0 <= B < Z.of_nat E)%Z -> (10 <= E)%nat ->
    reproduced sp (2 * M + 1) f -> In v (tested c) -> INR E * exp (- v) <= INR M ->
    (forall u, In u (tested c) ->
       let x := windowed (c_sides c) (b_hdr cb) b e (stretched_ref sp (INR M) (sampled (2 * M + 1) f) u) in Similarity.dot x x <> 0) ->
    nth_error (b_rows cb) i = Some (map Some (sampled (2 * M + 1) (stretched (INR M) v f))) ->
    exists res w, velocity_change sp gap_row extract c lts g (Some (map Some (sampled (2 * M + 1) f))) cb = Ok res /\
      length res = length (b_rows cb) /\ nth_error res i = Some (Some 1, Some w) /\ In w (tested c) /\
      ((forall u, In u (tested c) ->
          likeness sp (c_sides c) (b_hdr cb) b e (INR M) (sampled (2 * M + 1) f) (sampled (2 * M + 1) (stretched (INR M) v f)) u = Some 1 -> u = v) ->
       w = v).
  Proof.
    intros S1 ST TH LR L1 LG LT W HB HE BE E10 RP IV STAY AUD ROW.
    rewrite (measured_twice sp gap_row extract c lts g _ cb M B E b e S1 ST TH LR LG) ; try assumption; [| |discriminate].
    2:{ intros r [= <-]. now rewrite map_length, sampled_length. }
    rewrite custom_once by exact L1. destruct (measure_total c (b_hdr cb) b e (INR M) (b_rows cb) (map Some (sampled (2 * M + 1) f)) ST) as (res & E1 & LRES).
    exists res. destruct (mapM_at _ _ _ _ _ E1 ROW) as (y & Y & BM). rewrite !nan_some in BM.
    destruct (best_of c (b_hdr cb) b e (INR M) (sampled (2 * M + 1) f) (sampled (2 * M + 1) (stretched (INR M) v f)) v IV) as (w & BW & IW & LW).
    - apply (like_itself _ _ _ _ _ B E); try assumption; [lia|]. now apply AUD.
    - exact AUD.
    - exists w. split; [exact E1|]. split; [exact LRES|]. rewrite BW in BM. injection BM as <-. split; [exact Y|]. split; [exact IW|].
      intros U. now apply U.
  Qed.

  (** ** nothing changes *)
  Lemma zero_tested c : (3 <= c_steps c)%nat -> Nat.even (c_steps c) = false -> In 0 (tested c).
  Proof.
    intros S3 OD. unfold tested. apply in_map_iff. set (n := c_steps c) in *. set (r := c_range c).
    assert (exists k, n = 2 * k + 1)%nat as (k & K).
    { rewrite <- Nat.negb_odd in OD. apply negb_false_iff, Nat.odd_spec in OD. exact OD. }
    assert (LN : linspace (- r) r n = map (fun i => - r + inject_Z (Z.of_nat i) * ((r - - r) / inject_Z (Z.of_nat n - 1)))%Q (seq 0 n))
      by (unfold linspace; destruct n as [|[|n']]; [reflexivity|lia|reflexivity]).
    rewrite LN. exists (- r + inject_Z (Z.of_nat k) * ((r - - r) / inject_Z (Z.of_nat n - 1)))%Q. split.
    - rewrite <- RMicromega.Q2R_0. apply Qeq_eqR. replace (Z.of_nat n - 1)%Z with (2 * Z.of_nat k)%Z by lia. rewrite inject_Z_mult.
      assert (NZ : ~ (inject_Z (Z.of_nat k) == 0)%Q) by (intros X; apply (inject_Z_injective (Z.of_nat k) 0) in X; lia).
      field. exact NZ.
    - apply (in_map (fun i => - r + inject_Z (Z.of_nat i) * ((r - - r) / inject_Z (Z.of_nat n - 1)))%Q). apply in_seq. lia.
  Qed.

  Lemma repeat_nth {A} (x y : A) n k : nth_error (repeat x n) k = Some y -> y = x.
  Proof. revert k. induction n as [|n IH]; intros [|k] E; cbn in *; try discriminate; [congruence|]. eapply IH; eauto. Qed.

  Lemma all_equal {A} (x : A) l : (forall y, In y l -> y = x) -> l = repeat x (length l).
  Proof. induction l as [|y l IH]; intros H; [reflexivity|]. cbn. rewrite (H y) by now left. f_equal. apply IH. intros; apply H; now right. Qed.

  Theorem unchanged c lts g cb M B E b e x N :
    c_sides c <> Single -> (3 <= c_steps c)%nat -> Nat.even (c_steps c) = false -> two_sided (b_hdr cb) M ->
    length x = (2 * M + 1)%nat -> (2 <= N)%nat -> b_rows cb = repeat (map Some x) N ->
    (forall row v, length (gap_row row v) = length row) -> extracts extract cb M ->
    (forall bk, b_hdr bk = b_hdr cb -> b_rows bk = repeat (map Some x) N -> extract bk = Ok (map Some x)) ->
    (lts <= end_lag (b_hdr cb))%Q -> window c lts g = Ok (b, e) ->
    (b * h_sr (b_hdr cb) == inject_Z B)%Q -> (e * h_sr (b_hdr cb) == inject_Z (Z.of_nat E))%Q -> (0 <= B < Z.of_nat E)%Z -> (10 <= E)%nat ->
    through_samples sp ->
    (forall u, In u (tested c) ->
       let y := windowed (c_sides c) (b_hdr cb) b e (stretched_ref sp (INR M) x u) in Similarity.dot y y <> 0) ->
    (forall u, In u (tested c) -> likeness sp (c_sides c) (b_hdr cb) b e (INR M) x x u = Some 1 -> u = 0) ->
    velocity_change sp gap_row extract c lts g None cb = Ok (repeat (Some 1, Some 0) N).
  Proof.
    intros S1 S3 OD TH LX N2 ROWS LG LE EX LT W HB HE BE E10 TS AUD UNI.
    assert (LR : whole cb M).
    { intros row I. rewrite ROWS in I. apply repeat_spec in I. subst row. now rewrite map_length. }
    rewrite (measured_twice sp gap_row extract c lts g None cb M B E b e S1 ltac:(lia) TH LR LG) ; try assumption; [|discriminate|auto].
    assert (Z0 : stretched_ref sp (INR M) x 0 = x) by exact (stretch_zero_row sp (INR M) x TS).
    assert (I0 : In 0 (tested c)) by now apply zero_tested.
    assert (ONE : likeness sp (c_sides c) (b_hdr cb) b e (INR M) x x 0 = Some 1).
    { unfold likeness. rewrite Z0. apply similarity_self. pose proof (AUD 0 I0) as A. cbv zeta in A. now rewrite Z0 in A. }
    destruct (best_of c (b_hdr cb) b e (INR M) x x 0 I0 ONE AUD) as (w & BW & IW & LW).
    apply (UNI w IW) in LW. subst w.
    assert (MS : measure sp c (b_hdr cb) b e (INR M) (b_rows cb) (map Some x) = Ok (repeat (Some 1, Some 0) N)).
    { unfold measure. rewrite ROWS. clear -BW. induction N as [|N IH]; [reflexivity|]. cbn [repeat mapM]. rewrite !nan_some, BW. cbn [bind].
      rewrite nan_some in IH. rewrite IH. reflexivity. }
    unfold two_pass. rewrite (EX cb eq_refl ROWS). cbn [bind]. rewrite MS. cbn [bind].
    destruct (correct_ok cb (repeat (Some 1, Some 0) N)) as (rows & -> & LROWS & CR).
    { now rewrite ROWS, !repeat_length. } { rewrite repeat_length. lia. }
    cbn [bind]. rewrite EX; [cbn [bind]; exact MS|reflexivity|]. cbn [b_rows].
    assert (LN : length rows = N) by (rewrite LROWS, ROWS; apply repeat_length).
    rewrite <- LN. apply all_equal. intros y Y. apply In_nth_error in Y as (k & Y).
    assert (K : (k < N)%nat) by (rewrite <- LN; apply nth_error_Some; congruence).
    rewrite (CR k (map Some x) (Some 1) (Some 0)) in Y.
    - injection Y as <-. unfold correct_row. rewrite all_samples_some. rewrite Ropp_0. f_equal. now apply stretch_zero_row.
    - rewrite ROWS. now apply nth_error_repeat.
    - now apply nth_error_repeat.
  Qed.

  (** ** one side of matrices with two *)
  Lemma piece_central B E M row : (E <= M)%nat -> piece B E 0 (nan_to_num (central M E None row)) = piece B E (M - E) (nan_to_num row).
  Proof.
    intros L. unfold piece. rewrite nan_central. apply map_ext_in. intros k K. apply in_seq in K.
    destruct ((B <=? k)%nat && (k <? E)%nat); [|reflexivity]. unfold central. rewrite nth_map_seq by lia. reflexivity.
  Qed.

  Lemma mapM_best_total (f : list (option R) -> R -> option R) c rows : (0 < c_steps c)%nat ->
    exists res, mapM (fun row => best_match (tested c) (map (f row) (tested c))) rows = Ok res /\ length res = length rows.
  Proof.
    intros ST. pose proof (tested_nonempty c ST) as TN.
    destruct (mapM_total (fun row => best_match (tested c) (map (f row) (tested c))) rows) as (res & E).
    { intros row _. apply best_match_total; [|now rewrite map_length]. intros X. now apply map_eq_nil in X. }
    exists res. split; [exact E|]. now apply mapM_same_length in E.
  Qed.

  Theorem single_side c lts g r cb M B E b e :
    c_sides c = Single -> (0 < c_steps c)%nat -> two_sided (b_hdr cb) M ->
    whole cb M -> length (b_rows cb) <> 1%nat -> length r = (2 * M + 1)%nat ->
    (lts <= end_lag (b_hdr cb))%Q -> window c lts g = Ok (b, e) ->
    (b * h_sr (b_hdr cb) == inject_Z (Z.of_nat B))%Q -> (e * h_sr (b_hdr cb) == inject_Z (Z.of_nat E))%Q -> (B < E)%nat -> (10 <= E)%nat ->
    velocity_change sp gap_row extract c lts g (Some r) cb =
    mapM (fun row => best_match (tested c) (map (fun v => similarity (piece B E (M - E) (nan_to_num row)) (piece B E M (stretched_ref sp 0 (nan_to_num r) v))) (tested c)))
      (b_rows cb).
  Proof.
    intros S1 ST TH LR L1 LF LT W HB HE BE E10. unfold velocity_change. rewrite W. cbn [bind].
    pose proof (end_inside _ M E lts e TH HE (window_end _ _ _ _ _ W) LT) as EM. pose proof TH as (P & _). pose proof (sr_nonzero _ P) as NZ.
    rewrite (trim_window (b_hdr cb) M E e None (b_rows cb) TH EM HE LR). cbn [h_npts h_sr].
    destruct (Nat.leb_spec (2 * E + 1) 20) as [X|_]; [lia|]. cbn [bind].
    set (h := mkH (- e) (h_sr (b_hdr cb)) (2 * E + 1) (h_start (b_hdr cb)) (h_end (b_hdr cb))).
    assert (Th : two_sided h E).
    { split; [exact P|]. split; [reflexivity|]. cbn. rewrite (opp_int _ _ _ HE). now rewrite inject_Z_opp. }
    rewrite (stretch_single sp c h (b_hdr cb) M E B b e E _ r S1 ST TH eq_refl); try assumption.
    2:{ exact (proj2 (half_length h E Th)). }
    2:{ cbn. rewrite <- HE. ring. }
    2:{ cbn. lia. }
    2:{ intros row I. apply in_map_iff in I as (row' & <- & _). rewrite central_length. lia. }
    match goal with |- context [mapM ?f ?l] => destruct (mapM_best_total (fun row v => similarity (piece B E E (nan_to_num row)) (piece B E M (stretched_ref sp 0 (nan_to_num r) v))) c l ST) as (res & E1 & LRES) end.
    rewrite E1. cbn [bind fst snd]. rewrite map_length in LRES.
    destruct (correct_ok cb res LRES ltac:(congruence)) as (rows & -> & _). cbn [bind].
    rewrite (stretch_single sp c (mkH 0 (h_sr (b_hdr cb)) (E + 1) (h_start h) (h_end h)) (b_hdr cb) M E B b e 0 _ r S1 ST TH eq_refl); try assumption.
    - rewrite mapM_of_map.
      rewrite (mapM_ext_in _ (fun row => best_match (tested c) (map (fun v => similarity (piece B E (M - E) (nan_to_num row)) (piece B E M (stretched_ref sp 0 (nan_to_num r) v))) (tested c)))).
      + match goal with |- (do s <- (do res <- ?m; _); _) = _ => destruct m; reflexivity end.
      + intros row _. now rewrite piece_central.
    - unfold end_lag. cbn [h_npts h_lag h_sr]. destruct (Nat.eqb_spec (E + 1) 0); [lia|]. replace (E + 1 - 1)%nat with E by lia. field. exact NZ.
    - cbn. ring.
    - cbn. lia.
    - intros row I. apply in_map_iff in I as (row' & <- & _). rewrite central_length. lia.
  Qed.

  (** Nothing is measured with traces that are silent at negative lags, whatever happens at positive lags. *)
  Lemma piece_silent B E p row : (forall k, (k < E)%nat -> nth (p + k) row 0 = 0) -> Similarity.dot (piece B E p row) (piece B E p row) = 0.
  Proof.
    intros H. unfold piece. rewrite dot_map. apply total_zero. intros k _.
    destruct ((B <=? k)%nat && (k <? E)%nat) eqn:C; [|ring]. apply andb_prop in C as [_ C]. apply Nat.ltb_lt in C. rewrite H by exact C. ring.
  Qed.

  Theorem single_nothing c lts g r cb M B E b e :
    c_sides c = Single -> (0 < c_steps c)%nat -> two_sided (b_hdr cb) M ->
    whole cb M -> length (b_rows cb) <> 1%nat -> length r = (2 * M + 1)%nat ->
    (lts <= end_lag (b_hdr cb))%Q -> window c lts g = Ok (b, e) ->
    (b * h_sr (b_hdr cb) == inject_Z (Z.of_nat B))%Q -> (e * h_sr (b_hdr cb) == inject_Z (Z.of_nat E))%Q -> (B < E)%nat -> (10 <= E)%nat ->
    (forall row k, In row (b_rows cb) -> (k < M)%nat -> nth k row None = Some 0) ->
    velocity_change sp gap_row extract c lts g (Some r) cb = Ok (repeat (None, None) (length (b_rows cb))).
  Proof.
    intros S1 ST TH LR L1 LF LT W HB HE BE E10 SIL.
    pose proof (end_inside _ M E lts e TH HE (window_end _ _ _ _ _ W) LT) as EM.
    rewrite (single_side c lts g r cb M B E b e); try assumption.
    pose proof (tested_nonempty c ST) as TN.
    assert (H : forall row, In row (b_rows cb) -> best_match (tested c) (map (fun v => similarity (piece B E (M - E) (nan_to_num row)) (piece B E M (stretched_ref sp 0 (nan_to_num r) v))) (tested c)) = Ok (None, None)).
    { intros row I. apply best_match_nan; [now rewrite map_length|]. destruct (tested c) as [|v t]; [congruence|]. left.
      apply similarity_silent. left. apply piece_silent. intros k K. unfold nan_to_num.
      rewrite (map_nth (fun x : option R => match x with Some v => v | None => 0 end) row None). now rewrite (SIL row) by (try exact I; lia). }
    now apply mapM_const.
  Qed.

  (** ** one date *)
  Lemma single_date c lts g r cb M B E b e row :
    c_sides c <> Single -> (0 < c_steps c)%nat -> two_sided (b_hdr cb) M -> b_rows cb = [row] -> length row = (2 * M + 1)%nat -> length r = (2 * M + 1)%nat ->
    (forall row v, length (gap_row row v) = length row) ->
    (lts <= end_lag (b_hdr cb))%Q -> window c lts g = Ok (b, e) ->
    (b * h_sr (b_hdr cb) == inject_Z B)%Q -> (e * h_sr (b_hdr cb) == inject_Z (Z.of_nat E))%Q -> (0 <= B < Z.of_nat E)%Z -> (10 <= E)%nat ->
    velocity_change sp gap_row extract c lts g (Some r) cb = Raise IndexError.
  Proof.
    intros S1 ST TH ROWS LR LF LG LT W HB HE BE E10.
    rewrite (measured_twice sp gap_row extract c lts g _ cb M B E b e S1 ST TH); try assumption.
    - unfold two_pass. cbn [bind]. destruct (measure_total c (b_hdr cb) b e (INR M) (b_rows cb) r ST) as (res & -> & L). cbn [bind].
      rewrite ROWS in L. destruct res as [|x [|y l]]; try discriminate. unfold correct. rewrite ROWS. reflexivity.
    - intros row' I. rewrite ROWS in I. destruct I as [<-|[]]. exact LR.
    - now intros r' [= <-].
    - discriminate.
  Qed.
End WithSpline.
