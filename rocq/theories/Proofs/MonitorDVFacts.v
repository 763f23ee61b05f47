(** The dates of the monitoring. *)
From Coq Require Import Reals Lra QArith Qreals Lia.
From Verif Require Import Lib.Base Lib.Str Lib.Time Model.CorrTrace Model.CorrDB Model.Gaps Model.LagMatrix Model.TimeDomain Model.Reference Model.DataLoop Spec.WindowCorrelationSpec Model.RunToFiles
  Model.VelocityChange Spec.VelocityChangeSpec Proofs.VelocityChangeFacts Model.MonitorRun Model.MonitorInput Spec.MonitorInputSpec Model.MonitorDV Spec.MonitorDVSpec Proofs.AmplitudeFacts Proofs.SpectralFacts Proofs.RecoverFacts Model.MonitorFiles Spec.MonitorRunSpec Proofs.MonitorRunFacts Spec.RunToFilesSpec Spec.DataLoopSpec Spec.XCombiSpec.
From Verif Require Model.CorrStream Model.Similarity Spec.ShiftSpec Model.Shift Proofs.CorrectFacts Proofs.SimilarityFacts.
Local Open Scope string_scope.
Local Open Scope nat_scope.

Lemma filter_combine {A B C} (P : B -> bool) (g : A -> B) (h : A -> C) l :
  map snd (filter (fun p => P (fst p)) (combine (map g l) (map h l))) = map h (filter (fun x => P (g x)) l).
Proof. induction l as [|x l IH]; [reflexivity|]. cbn. destruct (P (g x)); cbn; now rewrite IH. Qed.
Lemma pyslice_all {A} (l : list A) : pyslice l 0 (Z.of_nat (length l)) = l.
Proof.
  unfold pyslice, norm_index. cbn [Z.ltb Z.compare]. replace (Z.of_nat (length l) <? 0)%Z with false by (symmetry; apply Z.ltb_ge; lia).
  rewrite Nat2Z.id, Nat.min_id. change (Z.to_nat 0) with 0. rewrite Nat.min_0_l, Nat.sub_0_r. cbn [skipn]. apply firstn_all.
Qed.
Lemma scale_row x : x <> [] -> normalize_row Absmax None None (map Some x) =
  Ok (map Some (scale x)).
Proof.
  intros NE. unfold scale, normalize_row, norm_of, norm_window. rewrite pyslice_all. unfold plain_max. destruct (map Some x) as [|y l] eqn:E; [destruct x; [contradiction|discriminate]|]. rewrite <- E.
  rewrite all_samples_some. cbn [option_map bind no_zero]. f_equal. rewrite !map_map. apply map_ext. intros v. cbn [sdiv].
  destruct (Req_EM_T _ 0); cbn [sdiv]; [|reflexivity]. f_equal; lra.
Qed.
Lemma existing_some l : existing (map Some l) = l.
Proof. induction l as [|v l IH]; [reflexivity|]. cbn. now f_equal. Qed.
Lemma masked_some l : l <> [] -> masked_mean (map Some l) = Some (mean l).
Proof. intros NE. unfold masked_mean. rewrite existing_some. destruct l; [contradiction|reflexivity]. Qed.
Lemma mean_one v : mean [v] = v.
Proof. unfold mean. cbn. lra. Qed.
Lemma list_eq_seq (l : list R) : map (fun i => nth i l 0%R) (seq 0 (length l)) = l.
Proof. apply (nth_ext _ _ 0%R 0%R); [now rewrite map_length, seq_length|]. intros i I. rewrite map_length, seq_length in I. now rewrite nth_map_seq. Qed.
Lemma tick_le a t : (a mod 100000 = 0 -> (a <=? tick t * 100000) = (a <=? t))%Z.
Proof. intros M. unfold tick. apply eq_true_iff_eq. rewrite !Z.leb_le. pose proof (Z.div_mod t 100000). pose proof (Z.mod_pos_bound t 100000). pose proof (Z.div_mod a 100000). lia. Qed.
Lemma tick_lt e t : (e mod 100000 = 0 -> (tick t * 100000 <? e) = (t <? e))%Z.
Proof. intros M. unfold tick. apply eq_true_iff_eq. rewrite !Z.ltb_lt. pose proof (Z.div_mod t 100000). pose proof (Z.mod_pos_bound t 100000). pose proof (Z.div_mod e 100000). lia. Qed.

Section Dates.
  Variables (o : times) (origin dt k : Z) (f32 : R -> Q) (filt : list R -> list R).
  Hypothesis FL : forall x, length (filt x) = length x.
  Let n := 2 * Z.to_nat k + 1.
  Notation scaled' := (scaled o k f32).
  Lemma scaled_length w : length (scaled' w) = n.
  Proof. unfold scaled, scale, correlation. now rewrite map_length, map_length, seq_length. Qed.
  Lemma scaled_rows ws : mapM (normalize_row Absmax None None) (map (fun w => map Some (correlation o k f32 w)) ws) = Ok (map (fun w => map Some (scaled' w)) ws).
  Proof.
    induction ws as [|w ws IH]; [reflexivity|]. cbn [map mapM]. rewrite scale_row; [|unfold correlation; intros X; apply (f_equal (@length R)) in X; rewrite map_length, seq_length in X; cbn in X; lia].
    cbn [bind]. rewrite IH. reflexivity.
  Qed.
  Lemma date_right ws ab : (fst ab mod 100000 = 0)%Z -> (snd ab mod 100000 = 0)%Z ->
    filter_row filt (bin_reals n (map (fun w => tick (origin + pw_start w * dt) * 100000)%Z ws) (map (fun w => map Some (scaled' w)) ws) ab) = date_row o origin dt k f32 filt ws ab.
  Proof.
    intros A B. unfold bin_reals. rewrite (filter_combine (fun s => (fst ab <=? s)%Z && (s <? snd ab)%Z)).
    rewrite (filter_ext _ (fun w => (fst ab <=? origin + pw_start w * dt)%Z && (origin + pw_start w * dt <? snd ab)%Z)) by (intros w; now rewrite tick_le, tick_lt).
    unfold date_row. fold (during origin dt ab ws). destruct (during origin dt ab ws) as [|w [|v l]]; cbn [map].
    - unfold filter_row. rewrite all_samples_none by (subst n; replace (2 * Z.to_nat k + 1) with (S (2 * Z.to_nat k)) by lia; now left). now rewrite repeat_length.
    - unfold filter_row. rewrite all_samples_some. f_equal. f_equal. rewrite (map_ext _ (fun i => nth i (scaled' w) 0%R)) by (intros i; apply mean_one).
      change (2 * Z.to_nat k + 1) with n. rewrite <- (scaled_length w). symmetry. apply list_eq_seq.
    - set (l' := w :: v :: l) in *.
      assert (E : map (fun j => masked_mean (map (fun row => nth j row None) (map (fun w => map Some (scaled' w)) l'))) (seq 0 n) = map Some (map (fun i => mean (map (fun w => nth i (scaled' w) 0%R) l')) (seq 0 n))).
      { rewrite map_map. apply map_ext_in. intros i I. apply in_seq in I. rewrite map_map.
        rewrite (map_ext _ (fun w => Some (nth i (scaled' w) 0%R))) by (intros u; rewrite (nth_indep _ None (Some 0%R)) by (rewrite map_length, scaled_length; lia); apply map_nth).
        rewrite <- (map_map (fun w => nth i (scaled' w) 0%R) Some). apply masked_some. discriminate. }
      transitivity (filter_row filt (map (fun j => masked_mean (map (fun row => nth j row None) (map (fun w => map Some (scaled' w)) l'))) (seq 0 n))); [reflexivity|].
      rewrite E. unfold filter_row. now rewrite all_samples_some.
  Qed.

  Lemma date_row_length ws ab : length (date_row o origin dt k f32 filt ws ab) = n.
  Proof. unfold date_row. destruct (during origin dt ab ws); [now rewrite repeat_length|]. now rewrite map_length, FL, map_length, seq_length. Qed.

  Variables (sp : list R -> R -> R) (gap_row : list (option R) -> option R -> list (option R)) (extract : bulk -> result (list (option R))).
  Variables (c : config) (sr lts : Q) (g : option geometry) (custom : option (list (option R))).
  Theorem measured_dates a b ws m f starts ends (wb we : Q) (B : Z) (E : nat) :
    (0 < sr)%Q -> (1 <= k)%Z -> (lts * sr <= inject_Z k)%Q -> c_sides c <> Similarity.Single -> (0 < c_steps c)%nat ->
    window c lts g = Ok (wb, we) -> (wb * sr == inject_Z B)%Q -> (we * sr == inject_Z (Z.of_nat E))%Q -> (0 <= B < Z.of_nat E)%Z -> (10 <= E) ->
    (forall row v, length (gap_row row v) = length row) -> (forall r, custom = Some r -> length r = n) ->
    (forall cb, b_rows cb <> [] -> (forall row, In row (b_rows cb) -> length row = n) -> forall r, extract cb = Ok r -> length r = n) ->
    starts <> [] -> length ends = length starts -> (forall t, In t starts \/ In t ends -> (t mod 100000 = 0)%Z) ->
    read_matrix f "subdivision" (ch_net a ++ "-" ++ ch_net b) (ch_sta a ++ "-" ++ ch_sta b) (ch_cha a ++ "-" ++ ch_cha b) = Ok m ->
    matrix_of_windows o origin dt sr k f32 a b ws m ->
    compute_velocity_change sp gap_row extract filt c lts g custom starts ends f (ch_net a ++ "-" ++ ch_net b) (ch_sta a ++ "-" ++ ch_sta b) (ch_cha a ++ "-" ++ ch_cha b) =
    (do res <- two_pass sp gap_row extract c (Z.to_nat k) wb we custom (mkB (mkH (CorrStream.b_lag m) sr n starts ends) (map (date_row o origin dt k f32 filt ws) (combine starts ends)));
     Ok (mkDV starts ends res)).
  Proof.
    intros SR K1 LT S1 ST W HB HE BE E10 LG LC LE NE LN MD RM (M1 & M2 & M3 & M4 & M5 & M6 & M7 & M8 & M9 & M10).
    assert (GD : exists st, get_data f (ch_net a ++ "-" ++ ch_net b) (ch_sta a ++ "-" ++ ch_sta b) (ch_cha a ++ "-" ++ ch_cha b) "subdivision" None None = Ok st).
    { unfold read_matrix in RM. destruct (get_data f _ _ _ _ _ _) as [st|e]; [now exists st|discriminate]. }
    destruct GD as (st & GD). unfold compute_velocity_change. rewrite GD. cbn [bind]. rewrite W. cbn [bind]. rewrite RM. cbn [bind to_bulk b_rows b_hdr].
    assert (RO : map (map (option_map Q2R)) (CorrStream.b_data m) = map (fun w => map Some (correlation o k f32 w)) ws).
    { rewrite M10, map_map. apply map_ext. intros w. unfold correlation. rewrite !map_map. reflexivity. }
    rewrite RO. unfold normalize. cbn [lag_index option_map out_of_range orb]. rewrite scaled_rows. cbn [bind]. unfold resample_reals. cbn [b_hdr b_rows h_lag h_sr h_npts h_start].
    assert (BN : bins (mkH (CorrStream.b_lag m) (CorrStream.b_sr m) (CorrStream.b_npts m) (CorrStream.b_start m) (CorrStream.b_end m)) starts ends = Ok (combine starts ends)).
    { unfold bins. rewrite LN, Nat.eqb_refl, andb_false_r. destruct starts as [|s l]; [contradiction|]. destruct ends; [discriminate|reflexivity]. }
    rewrite BN. cbn [bind b_hdr b_rows].
    rewrite M4, M6, M8, map_map. fold n.
    rewrite (map_ext_in _ (date_row o origin dt k f32 filt ws)).
    2:{ intros [x y] I. apply date_right; cbn; apply MD; [left; now apply in_combine_l in I|right; now apply in_combine_r in I]. }
    assert (C1 : map fst (combine starts ends) = starts /\ map snd (combine starts ends) = ends).
    { clear -LN. revert ends LN. induction starts as [|s l IH]; intros [|e r] L; try discriminate; [now split|]. injection L as L. destruct (IH r L) as [A B]. cbn. now rewrite A, B. }
    destruct C1 as [-> ->]. cbn [h_start h_end].
    assert (SN : ~ (sr == 0)%Q) by (intros X; rewrite X in SR; now apply Qlt_irrefl in SR).
    rewrite (measured_twice sp gap_row extract c lts g custom _ (Z.to_nat k) B E wb we); [reflexivity|exact S1|exact ST| | |exact LG|exact LC| | |exact W|exact HB|exact HE|exact BE|exact E10].
    - split; [exact SR|]. split; [reflexivity|]. cbn [b_hdr h_lag h_sr]. rewrite M5, Z2Nat.id by lia. field. exact SN.
    - intros row I. cbn [b_rows] in I. apply in_map_iff in I. destruct I as (ab & <- & _). apply date_row_length.
    - intros _ cb r _ LB WH EX. apply (LE cb); [|exact WH|exact EX]. intros E0. rewrite E0 in LB. cbn [b_rows length] in LB. rewrite map_length, combine_length in LB. destruct starts; [contradiction|]. rewrite LN in LB. cbn in LB. lia.
    - unfold end_lag. cbn [b_hdr h_lag h_sr h_npts]. replace (n =? 0) with false by (symmetry; apply Nat.eqb_neq; subst n; lia).
      rewrite M5. replace (Z.of_nat (n - 1)) with (2 * k)%Z by (subst n; lia). rewrite inject_Z_mult.
      apply (Qmult_le_r _ _ sr SR). apply (Qle_trans _ (inject_Z k)); [exact LT|]. apply Qle_lteq. right. field. exact SN.
  Qed.
End Dates.

Lemma list_eq_nth_error {A} (l m : list A) : (forall i, nth_error l i = nth_error m i) -> l = m.
Proof.
  revert m. induction l as [|x l IH]; intros [|y m] H; [reflexivity|specialize (H 0); discriminate|specialize (H 0); discriminate|]. f_equal; [specialize (H 0); now injection H|]. apply IH. intros i. exact (H (S i)).
Qed.
(** *** nothing changes, with dates without data *)
Section Steady.
  Variables (sp : list R -> R -> R) (gap_row : list (option R) -> option R -> list (option R)) (extract : bulk -> result (list (option R))).
  Lemma nan_none n : Similarity.nan_to_num (repeat None n) = repeat 0%R n.
  Proof. induction n as [|n IH]; [reflexivity|]. unfold Similarity.nan_to_num in *. cbn [repeat map]. now rewrite IH. Qed.
  Lemma silent_row s h b e n : Similarity.dot (windowed s h b e (repeat 0%R n)) (windowed s h b e (repeat 0%R n)) = 0%R.
  Proof.
    unfold windowed. assert (Z : forall l, Similarity.dot (map (fun _ : nat => 0%R) l) (map (fun _ => 0%R) l) = 0%R).
    { induction l as [|x l IH]; [reflexivity|]. unfold Similarity.dot in *. cbn. rewrite IH. lra. }
    rewrite (map_ext _ (fun _ => 0%R)); [apply Z|]. intros k. destruct (in_window s b e _); [|reflexivity]. apply nth_repeat.
  Qed.
  Lemma best_none c l : l <> [] -> length l = length (tested c) -> (forall x, In x l -> x = None) -> Similarity.best_match (tested c) l = Ok (None, None).
  Proof.
    intros NE L N. destruct l as [|x l]; [contradiction|]. unfold Similarity.best_match, Similarity.argmax. rewrite (N x) by now left.
    assert (A : forall l i, (forall x, In x l -> x = None) -> Similarity.argmax_from i 0 None l = (0, None)).
    { clear. induction l as [|x l IH]; intros i N; [reflexivity|]. cbn. rewrite (N x) by now left. cbn. apply IH. intros; apply N; now right. }
    rewrite A by (intros; apply N; now right). destruct (tested c); [discriminate|]. reflexivity.
  Qed.
  Definition steady_row (n : nat) (y : list R) (row : list (option R)) : Prop := row = map Some y \/ row = repeat None n.
  Lemma steady c M b e y cb :
    (3 <= c_steps c) -> Nat.even (c_steps c) = false -> length y = 2 * M + 1 -> length (b_rows cb) <> 1 ->
    (forall row, In row (b_rows cb) -> steady_row (2 * M + 1) y row) -> In (map Some y) (b_rows cb) ->
    (forall v, gap_row (repeat None (2 * M + 1)) v = repeat None (2 * M + 1)) ->
    (forall bk, b_hdr bk = b_hdr cb -> (forall row, In row (b_rows bk) -> steady_row (2 * M + 1) y row) -> In (map Some y) (b_rows bk) -> extract bk = Ok (map Some y)) ->
    ShiftSpec.through_samples sp ->
    (forall u, In u (tested c) -> let z := windowed (c_sides c) (b_hdr cb) b e (Shift.stretched_ref sp (INR M) y u) in Similarity.dot z z <> 0%R) ->
    (forall u, In u (tested c) -> likeness sp (c_sides c) (b_hdr cb) b e (INR M) y y u = Some 1%R -> u = 0%R) ->
    exists res, two_pass sp gap_row extract c M b e None cb = Ok res /\ length res = length (b_rows cb) /\
      forall i row, nth_error (b_rows cb) i = Some row -> (row = map Some y -> nth_error res i = Some (Some 1%R, Some 0%R)) /\ (row = repeat None (2 * M + 1) -> nth_error res i = Some (None, None)).
  Proof.
    intros S3 OD LY L1 ROWS ONE GAP EX TS AUD UNI.
    assert (Z0 : Shift.stretched_ref sp (INR M) y 0 = y) by exact (CorrectFacts.stretch_zero_row sp (INR M) y TS).
    assert (I0 : In 0%R (tested c)) by now apply zero_tested.
    assert (LK : likeness sp (c_sides c) (b_hdr cb) b e (INR M) y y 0 = Some 1%R).
    { unfold likeness. rewrite Z0. apply SimilarityFacts.similarity_self. pose proof (AUD 0%R I0) as A. cbv zeta in A. now rewrite Z0 in A. }
    destruct (best_of sp c (b_hdr cb) b e (INR M) y y 0 I0 LK AUD) as (w & BW & IW & LW). apply (UNI w IW) in LW. subst w.
    set (value := fun row : list (option R) => if list_eq_dec option_R_dec row (map Some y) then (Some 1%R, Some 0%R) else (None, None) : option R * option R).
    assert (TN : tested c <> []) by (intros X; rewrite X in I0; contradiction).
    assert (NS : repeat None (2 * M + 1) <> map Some y) by (destruct y; [cbn in LY; lia|]; rewrite Nat.add_1_r; discriminate).
    assert (VY : value (map Some y) = (Some 1%R, Some 0%R)) by (unfold value; destruct (list_eq_dec _ _ _); [reflexivity|contradiction]).
    assert (VN : value (repeat None (2 * M + 1)) = (None, None)) by (unfold value; destruct (list_eq_dec _ _ _); [contradiction|reflexivity]).
    assert (MS : measure sp c (b_hdr cb) b e (INR M) (b_rows cb) (map Some y) = Ok (map value (b_rows cb))).
    { unfold measure. clear -ROWS BW VY VN TN. induction (b_rows cb) as [|row l IH]; [reflexivity|]. cbn [mapM map]. rewrite IH by (intros; apply ROWS; now right). rewrite !nan_some.
      destruct (ROWS row (or_introl eq_refl)) as [-> | ->].
      - rewrite nan_some, BW, VY. reflexivity.
      - rewrite nan_none, best_none; [rewrite VN; reflexivity| |now rewrite map_length|].
        + intros X. apply map_eq_nil in X. contradiction.
        + intros x X. apply in_map_iff in X. destruct X as (u & <- & _). unfold likeness. apply SimilarityFacts.similarity_silent. left. apply silent_row. }
    exists (map value (b_rows cb)). split; [|split; [apply map_length|]].
    2:{ intros i row N. rewrite nth_error_map, N. cbn [option_map]. split; intros ->; f_equal; assumption. }
    unfold two_pass. rewrite (EX cb eq_refl ROWS ONE). cbn [bind]. rewrite MS. cbn [bind].
    destruct (correct_ok sp gap_row extract cb (map value (b_rows cb))) as (rows & -> & LROWS & CR); [now rewrite map_length|rewrite map_length; exact L1|].
    cbn [bind].
    assert (SAME : rows = b_rows cb).
    { apply (list_eq_nth_error); intros i. destruct (nth_error (b_rows cb) i) as [row|] eqn:N.
      - destruct (value row) as [x v] eqn:V. rewrite (CR i row x v N); [|rewrite nth_error_map, N; cbn; now rewrite V]. f_equal.
        destruct (ROWS row (nth_error_In _ _ N)) as [-> | ->].
        + rewrite VY in V. injection V as <- <-. unfold correct_row. rewrite all_samples_some. rewrite Ropp_0. f_equal. now apply CorrectFacts.stretch_zero_row.
        + rewrite VN in V. injection V as <- <-. unfold correct_row. rewrite all_samples_none; [apply GAP|]. rewrite Nat.add_1_r. now left.
      - apply (proj2 (nth_error_None rows i)). rewrite LROWS. exact (proj1 (nth_error_None _ _) N). }
    rewrite SAME, EX; [cbn [bind]; exact MS|reflexivity|exact ROWS|exact ONE].
  Qed.
End Steady.

(** *** all combinations *)
Section All.
  Variables (o : times) (origin dt : Z) (sr : Q) (k : Z) (method : string) (rc : option (list entry)) (K n : nat).
  Variables (proc : Gaps.trace R -> result (option (Gaps.trace R))) (archive : list channel) (f32 : R -> Q).
  Variables (sp : list R -> R -> R) (gap_row : list (option R) -> option R -> list (option R)) (extract : bulk -> result (list (option R))) (filt : list R -> list R).
  Variables (c : config) (lts len : Q) (starts ends : list Z) (B : Z) (E : nat).
  Hypotheses (FL : forall x, length (filt x) = length x) (SR : (0 < sr)%Q) (K1 : (1 <= k)%Z) (LT : (lts * sr == inject_Z k)%Q).
  Hypotheses (S1 : c_sides c <> Similarity.Single) (ST : 0 < c_steps c) (TT : c_tt c = false) (CL : c_len c = Some len) (FIT : (c_start c + len <= lts)%Q).
  Hypotheses (HB : (c_start c * sr == inject_Z B)%Q) (HE : ((c_start c + len) * sr == inject_Z (Z.of_nat E))%Q) (BE : (0 <= B < Z.of_nat E)%Z) (E10 : 10 <= E).
  Hypotheses (LG : forall row v, length (gap_row row v) = length row).
  Hypothesis LE : forall cb, b_rows cb <> [] -> (forall row, In row (b_rows cb) -> length row = 2 * Z.to_nat k + 1) -> forall r, extract cb = Ok r -> length r = 2 * Z.to_nat k + 1.
  Hypotheses (NE : starts <> []) (LN : length ends = length starts) (MD : forall t, In t starts \/ In t ends -> (t mod 100000 = 0)%Z).
  Let measure := two_pass sp gap_row extract c (Z.to_nat k) (c_start c) (c_start c + len) None.
  Lemma fits : window c lts None = Ok (c_start c, (c_start c + len)%Q).
  Proof. unfold window, begin. rewrite TT, CL. now rewrite (proj2 (Qle_bool_iff _ _) FIT). Qed.
  Lemma name_item sep a b : out_name (combination sep a b) = result_name a b.
  Proof. reflexivity. Qed.
  Theorem all_dates sep e : all_found o origin dt sr k method rc K n proc archive f32 sep e ->
    exists l, plist (opened e) (corr_find_filter (FStr "*") (FStr "*") (map fst e)) = Ok l /\
    forall q t before, 0 < q -> MonitorRunSpec.schedule (shares q l) t ->
      right_results o origin dt k f32 filt method rc K n proc archive sr measure starts ends
        (dir before) (dir (attempts (compute sp gap_row extract filt c lts (fun _ => None) starts ends e) before t)).
  Proof.
    intros ((l & PL & NL & NO & IL) & FO). exists l. split; [exact PL|]. intros q t before Q SC.
    destruct (run_results (compute sp gap_row extract filt c lts (fun _ => None) starts ends e) q l t before Q SC NO) as (RES & OTH & _).
    split.
    - intros a b C. destruct (FO a b C) as (f & ws & m & OP & WS & WN & RM & MM). exists ws, (CorrStream.b_lag m). split; [exact WS|]. split; [apply MM|].
      assert (I : In (combination sep a b) l) by (apply IL; destruct C as (t0 & s0 & x0 & y0 & C); exists t0, s0, a, b, x0, y0; now split).
      specialize (RES _ I). rewrite name_item in RES. rewrite RES. unfold compute. cbn [combination i_file i_net i_sta i_cha]. rewrite OP. cbn [bind].
      rewrite (measured_dates o origin dt k f32 filt FL sp gap_row extract c sr lts None None a b ws m f starts ends (c_start c) (c_start c + len) B E); try assumption; [|apply Qle_lteq; now right|exact fits|discriminate].
      fold measure. destruct (measure _) as [res|x]; reflexivity.
    - intros name H. apply OTH. intros i I. apply IL in I. destruct I as (t0 & s0 & a & b & x0 & y0 & C & ->). rewrite name_item. apply H. now exists t0, s0, x0, y0.
  Qed.

  (** the correlations of the pair are the same in all windows *)
  Lemma mean_same v m : m <> 0 -> mean (repeat v m) = v.
  Proof.
    clear. intros M. unfold mean. rewrite repeat_length. rewrite (rsum_ext _ _ (fun _ => v)).
    - rewrite rsum_const. field. now apply not_0_INR.
    - clear. induction m as [|m IH]; intros j J; [lia|]. destruct j as [|j]; [reflexivity|]. cbn. apply IH. lia.
  Qed.
  Lemma map_same {A C} (f : A -> C) v l : (forall x, In x l -> f x = v) -> map f l = repeat v (length l).
  Proof. clear. induction l as [|x l IH]; intros H; [reflexivity|]. cbn. rewrite (H x) by now left. f_equal. apply IH. intros; apply H; now right. Qed.
  Lemma same_dates ws r ab : (forall w, In w ws -> correlation o k f32 w = r) ->
    date_row o origin dt k f32 filt ws ab = match during origin dt ab ws with [] => repeat None (2 * Z.to_nat k + 1) | _ => map Some (filt (scale r)) end.
  Proof.
    clear. intros SAME. unfold date_row. assert (D : forall w, In w (during origin dt ab ws) -> In w ws) by (intros w I; unfold during in I; now apply filter_In in I).
    destruct (during origin dt ab ws) as [|w l]; [reflexivity|]. do 2 f_equal.
    assert (L : length (scale r) = 2 * Z.to_nat k + 1) by (rewrite <- (SAME w) by (apply D; now left); apply scaled_length).
    transitivity (map (fun i => nth i (scale r) 0%R) (seq 0 (length (scale r)))); [rewrite L|apply list_eq_seq]. apply map_ext. intros i.
    rewrite (map_same _ (nth i (scale r) 0%R)); [apply mean_same; discriminate|]. intros u I. unfold scaled. now rewrite SAME by now apply D.
  Qed.
End All.

(** the mean of the traces that are there *)
Lemma mean_of_steady n y rows : length y = n -> (forall row, In row rows -> steady_row n y row) -> In (map Some y) rows -> mean_trace rows = map Some y.
Proof.
  intros L S I. unfold mean_trace.
  assert (W : width rows = n).
  { destruct rows as [|r l]; [contradiction|]. cbn. destruct (S r (or_introl eq_refl)) as [-> | ->]; [now rewrite map_length|apply repeat_length]. }
  rewrite W. transitivity (map (fun i => Some (nth i y 0%R)) (seq 0 n)); [|rewrite <- L, <- (map_map (fun i => nth i y 0%R) Some), list_eq_seq; reflexivity].
  apply map_ext_in. intros i J. apply in_seq in J. unfold masked_mean, column.
  assert (X : exists m, existing (map (fun row => nth i row None) rows) = repeat (nth i y 0%R) m /\ (In (map Some y) rows -> m <> 0)).
  { clear I W. induction rows as [|r l IH]; [exists 0; split; [reflexivity|contradiction]|]. destruct IH as (m & E & P); [intros; apply S; now right|].
    cbn [map]. destruct (S r (or_introl eq_refl)) as [-> | ->].
    - exists (Datatypes.S m). split; [|discriminate]. rewrite (nth_indep _ None (Some 0%R)) by (rewrite map_length; lia). rewrite map_nth. unfold existing in *. cbn [flat_map app repeat]. now rewrite E.
    - exists m. split; [rewrite nth_repeat; exact E|]. intros [X|X]; [|now apply P]. exfalso. destruct y; [cbn in L; lia|]. destruct n; discriminate X. }
  destruct X as (m & -> & M). specialize (M I). rewrite <- (mean_same (nth i y 0%R) m M) at 2. destruct m; [contradiction|reflexivity].
Qed.
