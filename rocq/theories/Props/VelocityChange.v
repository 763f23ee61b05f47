(** C104: the velocity changes measured on a matrix of correlations.  C105: what the options for them are documented to do. *)
From Coq Require Import Reals QArith Qround Qreals Qfield Lra Lia.
From Verif Require Import Lib.Base Model.LagMatrix Model.Similarity Model.TimeDomain Model.Shift Model.MultiRef Model.Reference Model.VelocityChange.
From Verif Require Import Spec.LagSpec Spec.ShiftSpec Spec.VelocityChangeSpec.
From Verif Require Import Proofs.SpectralFacts Proofs.SimilarityFacts Proofs.ShiftFacts Proofs.CorrectFacts Proofs.VelocityChangeFacts Proofs.RecoverFacts Proofs.CombineFacts Props.Shift.
From Verif Require Proofs.AmplitudeFacts.
Local Open Scope R_scope.

(** ** C104 *)
(** The window starts at the configured lag, delayed by the travel time between the stations rounded to whole seconds if that is
    wanted, and is accepted exactly if it ends within the saved lags. *)
Theorem C104_window : forall c lts len, c_len c = Some len ->
  (forall g, c_tt c = false -> forall b, b = c_start c ->
     (window c lts g = Ok (b, b + len)%Q <-> (b + len <= lts)%Q) /\ ((lts < b + len)%Q -> exists x, window c lts g = Raise x)) /\
  (forall g, c_tt c = true -> c_vel c <> 0 -> exists t : Z,
     Rabs (IZR t - sqrt (g_dist g ^ 2 + ((g_stel g - g_evel g) / 1000) ^ 2) / c_vel c) <= 1 / 2 /\
     forall b, b = (c_start c + inject_Z t)%Q ->
     (window c lts (Some g) = Ok (b, b + len)%Q <-> (b + len <= lts)%Q) /\ ((lts < b + len)%Q -> window c lts (Some g) = Raise ValueError)).
Proof.
  intros c lts len L. split.
  - intros g T b ->. unfold window, begin. rewrite T, L. destruct (Qle_bool (c_start c + len) lts) eqn:Q.
    + apply Qle_bool_iff in Q. split; [tauto|]. intros X. exfalso. now apply (Qlt_not_le _ _ X).
    + split; [|eauto]. split; [discriminate|]. intros X. apply Qle_bool_iff in X. congruence.
  - intros g T V. exists (travel_time g (c_vel c)). split.
    + unfold travel_time. change (sqrt _) with (distance g). apply around_error.
    + intros b ->. unfold window, begin. rewrite T, L. destruct (Req_EM_T (c_vel c) 0) as [Z|_]; [contradiction|].
      destruct (Qle_bool (c_start c + inject_Z (travel_time g (c_vel c)) + len) lts) eqn:Q.
      * apply Qle_bool_iff in Q. split; [tauto|]. intros X. exfalso. now apply (Qlt_not_le _ _ X).
      * split; [|reflexivity]. split; [discriminate|]. intros X. apply Qle_bool_iff in X. congruence.
Qed.
Print Assumptions C104_window.

(** What is computed for sides 'both', 'left' and 'right', for windows on the samples of the axis. *)
Theorem C104_measured : forall sp gap_row extract c lts g custom cb M B E b e,
  c_sides c <> Single -> (0 < c_steps c)%nat -> two_sided (b_hdr cb) M -> whole cb M -> (forall row v, length (gap_row row v) = length row) ->
  (forall r, custom = Some r -> length r = (2 * M + 1)%nat) -> (custom = None -> extracts extract cb M) ->
  (lts <= end_lag (b_hdr cb))%Q -> window c lts g = Ok (b, e) ->
  (b * h_sr (b_hdr cb) == inject_Z B)%Q -> (e * h_sr (b_hdr cb) == inject_Z (Z.of_nat E))%Q -> (0 <= B < Z.of_nat E)%Z -> (10 <= E)%nat ->
  velocity_change sp gap_row extract c lts g custom cb = two_pass sp gap_row extract c M b e custom cb.
Proof. exact measured_twice. Qed.
Print Assumptions C104_measured.
(** With a reference of the user the correction in between has no effect. *)
Theorem C104_custom : forall sp gap_row extract c M b e r cb, length (b_rows cb) <> 1%nat ->
  two_pass sp gap_row extract c M b e (Some r) cb = measure sp c (b_hdr cb) b e (INR M) (b_rows cb) r.
Proof. exact custom_once. Qed.
Print Assumptions C104_custom.
(** Windows that end before the tenth sample are refused. *)
Theorem C104_short : forall sp gap_row extract c lts g custom cb M E b e, two_sided (b_hdr cb) M -> whole cb M ->
  (lts <= end_lag (b_hdr cb))%Q -> window c lts g = Ok (b, e) -> (e * h_sr (b_hdr cb) == inject_Z (Z.of_nat E))%Q -> (E < 10)%nat ->
  velocity_change sp gap_row extract c lts g custom cb = Raise ValueError.
Proof. exact too_short. Qed.
Print Assumptions C104_short.

(** A trace that is the reference stretched by one of the values tested has similarity 1, and the value is reported, unless another
    value fits as well. *)
Theorem C104_recovered : forall sp gap_row extract c lts g cb M B E b e f i v,
  c_sides c <> Single -> (0 < c_steps c)%nat -> two_sided (b_hdr cb) M -> whole cb M -> length (b_rows cb) <> 1%nat ->
  (forall row v, length (gap_row row v) = length row) ->
  (lts <= end_lag (b_hdr cb))%Q -> window c lts g = Ok (b, e) ->
  (b * h_sr (b_hdr cb) == inject_Z B)%Q -> (e * h_sr (b_hdr cb) == inject_Z (Z.of_nat E))%Q -> (0 <= B < Z.of_nat E)%Z -> (10 <= E)%nat ->
  reproduced sp (2 * M + 1) f -> In v (tested c) -> INR E * exp (- v) <= INR M ->
  (forall u, In u (tested c) ->
     let x := windowed (c_sides c) (b_hdr cb) b e (stretched_ref sp (INR M) (sampled (2 * M + 1) f) u) in Similarity.dot x x <> 0) ->
  nth_error (b_rows cb) i = Some (map Some (sampled (2 * M + 1) (stretched (INR M) v f))) ->
  exists res w, velocity_change sp gap_row extract c lts g (Some (map Some (sampled (2 * M + 1) f))) cb = Ok res /\
    length res = length (b_rows cb) /\ nth_error res i = Some (Some 1, Some w) /\ In w (tested c) /\
    ((forall u, In u (tested c) ->
        likeness sp (c_sides c) (b_hdr cb) b e (INR M) (sampled (2 * M + 1) f) (sampled (2 * M + 1) (stretched (INR M) v f)) u = Some 1 -> u = v) ->
     w = v).
Proof. exact recovered. Qed.
Print Assumptions C104_recovered.

(** Another value fits as well only if it makes the reference a multiple of the trace, within the window. *)
Theorem C104_alike : forall sp s h b e p ref row v, likeness sp s h b e p ref row v = Some 1 ->
  exists t, 0 < t /\ forall k, (k < h_npts h)%nat -> in_window s b e (h_lag h + inject_Z (Z.of_nat k) / h_sr h) = true ->
    nth k (stretched_ref sp p ref v) 0 = t * nth k row 0.
Proof.
  intros sp s h b e p ref row v L. apply similarity_one in L; [|now rewrite !windowed_length]. destruct L as (t & T & H).
  exists t. split; [exact T|]. intros k K W. specialize (H k). unfold windowed in H. rewrite !nth_map_seq in H by exact K. now rewrite W in H.
Qed.
Print Assumptions C104_alike.

(** If all correlations are equal, no change is reported, for every date. *)
Theorem C104_unchanged : forall sp gap_row extract c lts g cb M B E b e x N,
  c_sides c <> Single -> (3 <= c_steps c)%nat -> Nat.even (c_steps c) = false -> two_sided (b_hdr cb) M ->
  length x = (2 * M + 1)%nat -> (2 <= N)%nat -> b_rows cb = repeat (map Some x) N ->
  (forall row v, length (gap_row row v) = length row) -> extracts extract cb M ->
  (forall bk, b_hdr bk = b_hdr cb -> b_rows bk = repeat (map Some x) N -> extract bk = Ok (map Some x)) ->
  (lts <= end_lag (b_hdr cb))%Q -> window c lts g = Ok (b, e) ->
  (b * h_sr (b_hdr cb) == inject_Z B)%Q -> (e * h_sr (b_hdr cb) == inject_Z (Z.of_nat E))%Q -> (0 <= B < Z.of_nat E)%Z -> (10 <= E)%nat ->
  through_samples sp ->
  (forall u, In u (tested c) ->
     let y := windowed (c_sides c) (b_hdr cb) b e (stretched_ref sp (INR M) x u) in Similarity.dot y y <> 0) ->
  (forall u, In u (tested c) -> likeness sp (c_sides c) (b_hdr cb) b e (INR M) x x u = Some 1 -> u = 0) ->
  velocity_change sp gap_row extract c lts g None cb = Ok (repeat (Some 1, Some 0) N).
Proof. exact unchanged. Qed.
Print Assumptions C104_unchanged.
(** The mean of the traces is such a method of extraction. *)
Theorem C104_mean : forall cb M N x, length x = (2 * M + 1)%nat -> (0 < N)%nat -> b_rows cb = repeat (map Some x) N ->
  let extract := fun b => extract_trace (b_rows b) (b_hdr b) Mean in
  extracts extract cb M /\ forall bk, b_hdr bk = b_hdr cb -> b_rows bk = repeat (map Some x) N -> extract bk = Ok (map Some x).
Proof.
  intros cb M N x LX NP ROWS extract. split.
  - intros b r _ LB WB E. unfold extract in E. cbn in E. injection E as <-. unfold mean_trace, width.
    rewrite ROWS, repeat_length in LB. destruct (b_rows b) as [|row rows] eqn:R; [cbn in LB; lia|].
    rewrite map_length, seq_length. cbn. apply WB. rewrite R. now left.
  - intros bk _ R. unfold extract. cbn. rewrite R. f_equal. apply mean_of_equal. exact NP.
Qed.
Print Assumptions C104_mean.

(** Between the two measurements a trace is stretched back by the value that was found for it: a trace that is some waveform stretched by
    this value becomes that waveform, wherever the trace holds the samples for it. *)
Theorem C104_stretched_back : forall sp gap_row cb res M, two_sided (b_hdr cb) M -> length res = length (b_rows cb) -> length res <> 1%nat ->
  exists rows, correct sp gap_row cb res = Ok (mkB (b_hdr cb) rows) /\ length rows = length (b_rows cb) /\
    forall i f v s, reproduced sp (2 * M + 1) (stretched (INR M) v f) -> nth_error (b_rows cb) i = Some (map Some (sampled (2 * M + 1) (stretched (INR M) v f))) ->
      nth_error res i = Some (s, Some v) -> exists row, nth_error rows i = Some row /\ length row = (2 * M + 1)%nat /\
        forall j, (j < 2 * M + 1)%nat -> 0 <= INR M + (INR j - INR M) * exp v <= INR (2 * M) -> nth j row None = Some (f (INR j)).
Proof.
  intros sp gap_row cb res M (SR & _ & LG) L L1. destruct (correct_ok sp gap_row (fun _ => Raise ValueError) cb res L L1) as (rows & E & LR & H).
  exists rows. split; [exact E|]. split; [exact LR|]. intros i f v s RP ROW RES. specialize (H i _ s (Some v) ROW RES).
  exists (correct_row sp gap_row (b_hdr cb) (map Some (sampled (2 * M + 1) (stretched (INR M) v f))) (Some v)). split; [exact H|]. unfold correct_row. rewrite AmplitudeFacts.all_samples_some.
  assert (C : Q2R (- h_lag (b_hdr cb) * h_sr (b_hdr cb)) = INR M).
  { rewrite (Qeq_eqR _ (inject_Z (Z.of_nat M))); [unfold Q2R, inject_Z; cbn [Qnum Qden]; rewrite INR_IZR_INZ; field|]. transitivity (- (h_lag (b_hdr cb) * h_sr (b_hdr cb)))%Q; [ring|]. rewrite LG. ring. }
  rewrite C. split; [unfold stretch_row; now rewrite !map_length, seq_length, sampled_length|]. intros j J U.
  unfold stretch_row. rewrite sampled_length, map_map, nth_map_seq by exact J. rewrite Ropp_involutive.
  assert (I : 0 <= INR M + (INR j - INR M) * exp v <= INR (2 * M + 1 - 1)) by (replace (2 * M + 1 - 1)%nat with (2 * M)%nat by lia; exact U).
  rewrite (proj2 (inside_spec _ _) I). unfold stretch_at. rewrite RP by exact I. unfold stretched. do 2 f_equal.
  replace (INR M + (INR j - INR M) * exp v - INR M) with ((INR j - INR M) * exp v) by ring. rewrite Rmult_assoc, <- exp_plus. replace (v + - v) with 0 by ring. rewrite exp_0. ring.
Qed.
Print Assumptions C104_stretched_back.

(** ** examples for C104 *)
Definition ex_h : hdr := mkH (-11) 1 23 [0; 1]%Z [1; 2]%Z.
Definition ex_c (s : sides) : config := mkCfg 0 (Some 10%Q) false 3 (1 # 10) 3 s.
Definition ex_f (u : R) : R := 1 + 1 * u.
Definition ex_gap (row : list (option R)) (v : option R) : list (option R) := row.
Definition ex_cb (v : R) : bulk := mkB ex_h [map Some (sampled 23 ex_f); map Some (sampled 23 (stretched (INR 11) v ex_f))].
Lemma ex_tested s : tested (ex_c s) = [- (1 / 10); 0; 1 / 10].
Proof. unfold tested. cbn [linspace ex_c c_range c_steps map seq Nat.sub]. do 3 (apply f_equal2; [unfold Q2R; cbn; lra|]). reflexivity. Qed.
Lemma ex_axis : two_sided ex_h 11.
Proof. repeat split. Qed.
Lemma ex_whole v : whole (ex_cb v) 11.
Proof. intros row [<-|[<-|[]]]; now rewrite map_length, sampled_length. Qed.
Lemma ex_reproduced : reproduced linear 23 ex_f.
Proof. apply (linear_reproduces 23 1 1). lia. Qed.
Lemma ex_audible s u : Similarity.dot (windowed s ex_h 0 (0 + 10) (stretched_ref linear (INR 11) (sampled 23 ex_f) u)) (windowed s ex_h 0 (0 + 10) (stretched_ref linear (INR 11) (sampled 23 ex_f) u)) <> 0.
Proof.
  apply (audible s ex_h 11 _ _ _ 11); [reflexivity|lia|now destruct s|].
  unfold stretched_ref. rewrite sampled_length, nth_map_seq by lia. unfold stretch_at.
  replace (INR 11 + (INR 11 - INR 11) * exp (- u)) with (INR 11) by ring.
  assert (I : 0 <= INR 11 <= INR (23 - 1)) by (split; [apply pos_INR|apply le_INR; lia]).
  rewrite (proj2 (inside_spec _ _) I). rewrite ex_reproduced by exact I. unfold ex_f. pose proof (pos_INR 11). lra.
Qed.
(** no other stretch fits *)
Lemma ex_exp u : In u [- (1 / 10); 0; 1 / 10] -> 0 < exp (- u) < 2.
Proof.
  intros I. split; [apply exp_pos|]. assert (B : exp (- u) <= exp (1 / 10)) by (destruct I as [<-|[<-|[<-|[]]]]; (apply Req_le; f_equal; lra) || (apply Rlt_le, exp_increasing; lra)).
  pose proof (exp_ineq1 (- (1 / 10)) ltac:(lra)) as X. pose proof (exp_plus (1 / 10) (- (1 / 10))) as Y. replace (1 / 10 + - (1 / 10)) with 0 in Y by ring.
  rewrite exp_0 in Y. pose proof (exp_pos (1 / 10)). nra.
Qed.
Lemma ex_value k v : (11 <= k <= 12)%nat -> 0 < exp (- v) < 2 -> nth k (stretched_ref linear (INR 11) (sampled 23 ex_f) v) 0 = 1 + 11 + (INR k - 11) * exp (- v).
Proof.
  intros K X. unfold stretched_ref. rewrite sampled_length, nth_map_seq by lia. unfold stretch_at.
  assert (B : 11 <= INR k <= 12) by (rewrite INR_IZR_INZ; split; apply IZR_le; lia).
  assert (C11 : INR 11 = 11) by (rewrite INR_IZR_INZ; reflexivity). rewrite C11.
  assert (I : 0 <= 11 + (INR k - 11) * exp (- v) <= INR (23 - 1)).
  { rewrite (INR_IZR_INZ (23 - 1)). cbn [Z.of_nat]. cbn. assert (0 <= (INR k - 11) * exp (- v) <= 2) by (split; nra). lra. }
  rewrite (proj2 (inside_spec _ _) I). rewrite ex_reproduced by exact I. unfold ex_f. ring.
Qed.
Lemma ex_unique u v : In u [- (1 / 10); 0; 1 / 10] -> 
  likeness linear Both ex_h 0 (0 + 10) (INR 11) (sampled 23 ex_f) (sampled 23 (stretched (INR 11) v ex_f)) u = Some 1 -> u = v.
Proof.
  intros IU L. destruct (C104_alike _ _ _ _ _ _ _ _ _ L) as (t & T & H).
  pose proof (H 11%nat ltac:(cbn; lia) eq_refl) as H1. pose proof (H 12%nat ltac:(cbn; lia) eq_refl) as H2.
  rewrite ex_value in H1, H2 by (try lia; now apply ex_exp). unfold sampled in H1, H2. rewrite !nth_map_seq in H1, H2 by lia.
  unfold stretched, ex_f in H1, H2.
  assert (C11 : INR 11 = 11) by (rewrite INR_IZR_INZ; reflexivity). assert (C12 : INR 12 = 12) by (rewrite INR_IZR_INZ; reflexivity). rewrite C11 in H1, H2. rewrite C12 in H2.
  assert (T1 : t = 1) by lra. subst t. assert (X : exp (- u) = exp (- v)) by lra. apply exp_inv in X. lra.
Qed.

Example C104_stretched_back_example : exists rows row, correct linear ex_gap (ex_cb (1 / 10)) [(Some 1, Some 0); (Some 1, Some (1 / 10))] = Ok (mkB ex_h rows) /\
  nth_error rows 1 = Some row /\ nth 12 row None = Some 13.
Proof.
  destruct (C104_stretched_back linear ex_gap (ex_cb (1 / 10)) [(Some 1, Some 0); (Some 1, Some (1 / 10))] 11 ex_axis eq_refl ltac:(discriminate)) as (rows & E & _ & H).
  destruct (H 1%nat ex_f (1 / 10) (Some 1)) as (row & R & _ & V); [|reflexivity..|].
  - intros u U. unfold stretched, ex_f. set (e := exp (- (1 / 10))).
    replace (sampled (2 * 11 + 1) (fun u0 : R => 1 + 1 * (INR 11 + (u0 - INR 11) * e))) with (sampled 23 (fun u0 => (1 + INR 11 - INR 11 * e) + e * u0)) by (apply map_ext; intros k; ring).
    rewrite (linear_reproduces 23 (1 + INR 11 - INR 11 * e) e) by (lia || exact U). ring.
  - exists rows, row. split; [exact E|]. split; [exact R|]. rewrite V; [unfold ex_f; f_equal; rewrite INR_IZR_INZ; cbn; lra|lia|].
    pose proof (ex_exp (- (1 / 10)) ltac:(now left)) as X. rewrite Ropp_involutive in X. rewrite !INR_IZR_INZ. cbn. lra.
Qed.

Example C104_recovered_example : exists res,
  velocity_change linear ex_gap (fun _ => Raise ValueError) (ex_c Both) 11 None (Some (map Some (sampled 23 ex_f))) (ex_cb (1 / 10)) = Ok res /\
  length res = 2%nat /\ nth_error res 1 = Some (Some 1, Some (1 / 10)).
Proof.
  destruct (C104_recovered linear ex_gap (fun _ => Raise ValueError) (ex_c Both) 11 None (ex_cb (1 / 10)) 11 0 10 0 (0 + 10) ex_f 1 (1 / 10)) as (res & w & E & L & N & I & U);
    try solve [reflexivity | cbn; lia | exact ex_axis | apply ex_whole | discriminate | cbn; discriminate | exact ex_reproduced].
  - rewrite ex_tested. cbn. tauto.
  - assert (X : exp (- (1 / 10)) < exp 0) by (apply exp_increasing; lra). rewrite exp_0 in X.
    rewrite (INR_IZR_INZ 10), (INR_IZR_INZ 11). cbn. lra.
  - intros u _. apply ex_audible.
  - exists res. split; [exact E|]. split; [exact L|]. rewrite N, U; [reflexivity|]. rewrite ex_tested. intros u IU. now apply ex_unique.
Qed.
Example C104_unchanged_example :
  velocity_change linear ex_gap (fun b => extract_trace (b_rows b) (b_hdr b) Mean) (ex_c Both) 11 None None (ex_cb 0) = Ok [(Some 1, Some 0); (Some 1, Some 0)].
Proof.
  assert (Z : sampled 23 (stretched (INR 11) 0 ex_f) = sampled 23 ex_f).
  { unfold sampled. apply map_ext. intros k. unfold stretched. rewrite Ropp_0, exp_0. f_equal. ring. }
  assert (R : b_rows (ex_cb 0) = repeat (map Some (sampled 23 ex_f)) 2) by (unfold ex_cb; cbn [b_rows]; rewrite Z; reflexivity).
  destruct (C104_mean (ex_cb 0) 11 2 (sampled 23 ex_f) (sampled_length _ _) ltac:(lia) R) as [X1 X2].
  apply (C104_unchanged linear ex_gap _ (ex_c Both) 11 None (ex_cb 0) 11 0 10 0 (0 + 10) (sampled 23 ex_f) 2);
    try solve [reflexivity | cbn; lia | exact ex_axis | discriminate | cbn; discriminate | assumption | exact linear_through].
  - intros u _. apply ex_audible.
  - rewrite ex_tested. intros u IU L. apply ex_unique; [exact IU|]. rewrite Z. exact L.
Qed.
Example C104_window_example : window (mkCfg 5 (Some 40%Q) true 3 (1 # 10) 3 Both) 60 (Some (mkGeo 30 0 0)) = Ok (5 + 10, 5 + 10 + 40)%Q.
Proof.
  assert (T : travel_time (mkGeo 30 0 0) 3 = 10%Z).
  { unfold travel_time, distance. cbn [g_dist g_stel g_evel]. replace (30 ^ 2 + ((0 - 0) / 1000) ^ 2) with (30 * 30) by field.
    rewrite sqrt_square by lra. replace (30 / 3) with 10 by lra. apply around_near. cbn; lra. }
  unfold window, begin. cbn [c_tt c_vel c_len c_start]. destruct (Req_EM_T 3 0); [lra|]. rewrite T. reflexivity.
Qed.
Example C104_short_example : velocity_change linear ex_gap (fun _ => Raise ValueError) (mkCfg 0 (Some 9%Q) false 3 (1 # 10) 3 Both) 11 None None (ex_cb 0) = Raise ValueError.
Proof.
  apply (C104_short linear ex_gap (fun _ => Raise ValueError) _ 11 None None (ex_cb 0) 11 9 0 (0 + 9)); try reflexivity; try lia.
  - exact ex_axis.
  - apply ex_whole.
  - cbn. discriminate.
Qed.

(** ** C105 *)
(** A window without length is documented to be the whole coda; the function always fails. *)
Theorem C105_whole_coda_refuted : forall sp gap_row extract c lts g custom cb, c_len c = None ->
  velocity_change sp gap_row extract c lts g custom cb = Raise TypeError.
Proof. intros sp gap_row extract c lts g custom cb L. unfold velocity_change, window. rewrite L. destruct (begin c g) as [[b|] d]; reflexivity. Qed.
Print Assumptions C105_whole_coda_refuted.

(** A window that is too long is answered with a ValueError that explains it if the distance of the stations was computed ... *)
Theorem C105_too_long_partial : forall sp gap_row extract c lts g custom cb len, c_len c = Some len -> c_tt c = true -> c_vel c <> 0 ->
  (lts < c_start c + inject_Z (travel_time g (c_vel c)) + len)%Q ->
  velocity_change sp gap_row extract c lts (Some g) custom cb = Raise ValueError.
Proof.
  intros sp gap_row extract c lts g custom cb len L T V X. unfold velocity_change.
  assert (W : window c lts (Some g) = Raise ValueError).
  { unfold window, begin. rewrite L, T. destruct (Req_EM_T (c_vel c) 0) as [Z|_]; [contradiction|].
    destruct (Qle_bool _ lts) eqn:Q; [|reflexivity]. apply Qle_bool_iff in Q. exfalso. now apply (Qlt_not_le _ _ X). }
  now rewrite W.
Qed.
Print Assumptions C105_too_long_partial.
(** ... but without that the message itself cannot be made. *)
Theorem C105_too_long_refuted : forall sp gap_row extract c lts g custom cb len, c_len c = Some len -> c_tt c = false \/ g = None ->
  (lts < c_start c + len)%Q -> velocity_change sp gap_row extract c lts g custom cb = Raise UnboundLocalError.
Proof.
  intros sp gap_row extract c lts g custom cb len L T X. unfold velocity_change.
  assert (W : window c lts g = Raise UnboundLocalError).
  { assert (B : begin c g = (Some (c_start c), None)) by (unfold begin; destruct T as [->| ->]; [reflexivity|now destruct (c_tt c)]).
    unfold window. rewrite L, B.
    destruct (Qle_bool _ lts) eqn:Q; [|reflexivity]. apply Qle_bool_iff in Q. exfalso. now apply (Qlt_not_le _ _ X). }
  now rewrite W.
Qed.
Print Assumptions C105_too_long_refuted.

(** With sides 'single' the traces of a matrix with positive and negative lags are compared at the lags from -E on with the reference at
    the lags from 0 on, and the reference is stretched about its first sample ... *)
Theorem C105_single_refuted : forall sp gap_row extract c lts g r cb M B E b e,
  c_sides c = Single -> (0 < c_steps c)%nat -> two_sided (b_hdr cb) M -> whole cb M -> length (b_rows cb) <> 1%nat -> length r = (2 * M + 1)%nat ->
  (lts <= end_lag (b_hdr cb))%Q -> window c lts g = Ok (b, e) ->
  (b * h_sr (b_hdr cb) == inject_Z (Z.of_nat B))%Q -> (e * h_sr (b_hdr cb) == inject_Z (Z.of_nat E))%Q -> (B < E)%nat -> (10 <= E)%nat ->
  velocity_change sp gap_row extract c lts g (Some r) cb =
  mapM (fun row => best_match (tested c)
    (map (fun v => similarity (piece B E (M - E) (nan_to_num row)) (piece B E M (stretched_ref sp 0 (nan_to_num r) v))) (tested c))) (b_rows cb).
Proof. exact single_side. Qed.
Print Assumptions C105_single_refuted.
(** ... so that nothing is measured if the traces are silent at negative lags, whatever they are at positive lags. *)
Theorem C105_single_silent_refuted : forall sp gap_row extract c lts g r cb M B E b e,
  c_sides c = Single -> (0 < c_steps c)%nat -> two_sided (b_hdr cb) M -> whole cb M -> length (b_rows cb) <> 1%nat -> length r = (2 * M + 1)%nat ->
  (lts <= end_lag (b_hdr cb))%Q -> window c lts g = Ok (b, e) ->
  (b * h_sr (b_hdr cb) == inject_Z (Z.of_nat B))%Q -> (e * h_sr (b_hdr cb) == inject_Z (Z.of_nat E))%Q -> (B < E)%nat -> (10 <= E)%nat ->
  (forall row k, In row (b_rows cb) -> (k < M)%nat -> nth k row None = Some 0) ->
  velocity_change sp gap_row extract c lts g (Some r) cb = Ok (repeat (None, None) (length (b_rows cb))).
Proof. exact single_nothing. Qed.
Print Assumptions C105_single_silent_refuted.
Definition causal : list (option R) := map Some (repeat 0 11 ++ repeat 1 12).
Example C105_single_example :
  velocity_change linear ex_gap (fun _ => Raise ValueError) (ex_c Single) 11 None (Some causal) (mkB ex_h [causal; causal]) = Ok [(None, None); (None, None)].
Proof.
  apply (C105_single_silent_refuted linear ex_gap (fun _ => Raise ValueError) (ex_c Single) 11 None causal (mkB ex_h [causal; causal]) 11 0 10 0 (0 + 10));
    try solve [reflexivity | cbn; lia | exact ex_axis | intros row [<-|[<-|[]]]; reflexivity | cbn; discriminate].
  intros row k [<-|[<-|[]]] K; do 11 (destruct k as [|k]; [reflexivity|]); lia.
Qed.
(** The other side option measures that matrix. *)
Example C105_right_example :
  exists res, velocity_change linear ex_gap (fun _ => Raise ValueError) (ex_c RightSide) 11 None (Some causal) (mkB ex_h [causal; causal]) = Ok res /\ length res = 2%nat.
Proof.
  rewrite (C104_measured linear ex_gap _ (ex_c RightSide) 11 None _ (mkB ex_h [causal; causal]) 11 0 10 0 (0 + 10));
    try solve [reflexivity | cbn; lia | exact ex_axis | intros row [<-|[<-|[]]]; reflexivity | cbn; discriminate | now intros r [= <-]].
  rewrite C104_custom by discriminate. apply (measure_total linear (ex_c RightSide) ex_h 0 (0 + 10) (INR 11)). cbn. lia.
Qed.

(** A matrix with a single date. *)
Theorem C105_one_date_refuted : forall sp gap_row extract c lts g r cb M B E b e row,
  c_sides c <> Single -> (0 < c_steps c)%nat -> two_sided (b_hdr cb) M -> b_rows cb = [row] -> length row = (2 * M + 1)%nat -> length r = (2 * M + 1)%nat ->
  (forall row v, length (gap_row row v) = length row) -> (lts <= end_lag (b_hdr cb))%Q -> window c lts g = Ok (b, e) ->
  (b * h_sr (b_hdr cb) == inject_Z B)%Q -> (e * h_sr (b_hdr cb) == inject_Z (Z.of_nat E))%Q -> (0 <= B < Z.of_nat E)%Z -> (10 <= E)%nat ->
  velocity_change sp gap_row extract c lts g (Some r) cb = Raise IndexError.
Proof. exact single_date. Qed.
Print Assumptions C105_one_date_refuted.
Example C105_one_date_example :
  velocity_change linear ex_gap (fun _ => Raise ValueError) (ex_c Both) 11 None (Some (map Some (sampled 23 ex_f))) (mkB ex_h [map Some (sampled 23 ex_f)]) = Raise IndexError.
Proof.
  apply (C105_one_date_refuted linear ex_gap (fun _ => Raise ValueError) (ex_c Both) 11 None _ (mkB ex_h [map Some (sampled 23 ex_f)]) 11 0 10 0 (0 + 10) (map Some (sampled 23 ex_f)));
    try solve [reflexivity | cbn; lia | exact ex_axis | discriminate | cbn; discriminate].
Qed.
