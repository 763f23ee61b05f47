(** Proofs about moving averages (Model.Smoothing, rational part). *)
From Coq Require Import QArith Lqa.
From Verif Require Import Lib.Base Model.CorrStream Model.LagMatrix Model.DVs Model.Smoothing Spec.LagSpec Spec.SmoothSpec Proofs.LagFacts Proofs.DVFacts.
Local Open Scope nat_scope.

Lemma window_filter {A} lo hi (l : list A) : forall k,
  map snd (filter (fun p => (lo <=? fst p) && (fst p <? hi)) (combine (seq k (length l)) l)) = firstn (hi - Nat.max lo k) (skipn (lo - k) l).
Proof.
  induction l as [|x l IH]; intros k; [now rewrite skipn_nil, firstn_nil|].
  cbn [length seq combine filter fst].
  destruct (Nat.leb_spec lo k) as [L|L].
  - destruct (Nat.ltb_spec k hi) as [H|H]; cbn [andb map snd].
    + rewrite IH. replace (lo - k) with 0 by lia. replace (lo - S k) with 0 by lia.
      replace (hi - Nat.max lo k) with (S (hi - Nat.max lo (S k))) by lia. reflexivity.
    + rewrite IH. replace (hi - Nat.max lo k) with 0 by lia. replace (hi - Nat.max lo (S k)) with 0 by lia. reflexivity.
  - cbn [andb]. rewrite IH. replace (lo - k) with (S (lo - S k)) by lia. cbn [skipn].
    replace (Nat.max lo (S k)) with (Nat.max lo k) by lia. reflexivity.
Qed.
Lemma near_window {A} h i (l : list A) : win_rows h l i = near h i l.
Proof.
  unfold win_rows, near.
  rewrite (filter_ext _ (fun p => (i - h <=? fst p) && (fst p <? i + h + 1))).
  - rewrite window_filter. f_equal; [lia|f_equal; lia].
  - intros [j x]. cbn [fst]. destruct (Nat.leb_spec j (i + h)), (Nat.leb_spec i (j + h)), (Nat.leb_spec (i - h) j), (Nat.ltb_spec j (i + h + 1)); cbn; lia || reflexivity.
Qed.
Lemma near_In {A} h i (l : list A) x : In x (near h i l) <-> exists j, nth_error l j = Some x /\ j <= i + h /\ i <= j + h.
Proof.
  unfold near. rewrite in_map_iff. split.
  - intros ([j y] & <- & F). apply filter_In in F as [I B]. cbn [fst snd] in *. apply andb_prop in B as [B1 B2].
    apply Nat.leb_le in B1, B2. exists j. split; [|auto].
    assert (G : forall k, In (j, y) (combine (seq k (length l)) l) -> nth_error l (j - k) = Some y /\ k <= j).
    { clear. induction l as [|z l IH]; cbn; intros k H; [destruct H|]. destruct H as [H|H].
      - injection H as -> ->. rewrite Nat.sub_diag. auto.
      - apply IH in H as [H L]. split; [|lia]. replace (j - k) with (S (j - S k)) by lia. exact H. }
    apply G in I as [I _]. now rewrite Nat.sub_0_r in I.
  - intros (j & N & L1 & L2). exists (j, x). split; [reflexivity|]. apply filter_In. split.
    + assert (G : forall k, In (k + j, x) (combine (seq k (length l)) l)).
      { clear L1 L2. revert j N. induction l as [|z l IH]; intros [|j] N k; try discriminate; cbn.
        - injection N as ->. left. f_equal. lia.
        - right. replace (k + S j) with (S k + j) by lia. now apply IH. }
      apply (G 0).
    + cbn [fst]. apply andb_true_intro. split; apply Nat.leb_le; assumption.
Qed.

Lemma near_map {A B} (f : A -> B) h i l : near h i (map f l) = map f (near h i l).
Proof. rewrite <- !near_window. unfold win_rows. now rewrite skipn_map, firstn_map. Qed.
Lemma near_zero {A} i (l : list A) x : nth_error l i = Some x -> near 0 i l = [x].
Proof.
  intros N. rewrite <- near_window. unfold win_rows. replace (i + 0 + 1 - (i - 0)) with 1 by lia. rewrite Nat.sub_0_r.
  revert l N. induction i as [|i IH]; intros [|y l] N; try discriminate; cbn in *; [now injection N as ->|now apply IH].
Qed.

Lemma nth_map_seq' {A} (f : nat -> A) n i d : i < n -> nth i (map f (seq 0 n)) d = f i.
Proof. intros H. rewrite (nth_indep _ d (f 0)) by now rewrite map_length, seq_length. rewrite map_nth, seq_nth by assumption. reflexivity. Qed.

Lemma mav_length h l : length (mav h l) = length l. Proof. unfold mav. now rewrite map_length, seq_length. Qed.
Lemma mav_average h l i : i < length l -> is_average (near h i l) (nth i (mav h l) None).
Proof. intros H. unfold mav. rewrite nth_map_seq' by assumption. rewrite near_window. apply nanmean_average. Qed.

(** averages *)
Lemma sum_bounds lo hi (l : list Q) : (forall x, In x l -> lo <= x <= hi)%Q ->
  (lo * inject_Z (Z.of_nat (length l)) <= fold_right Qplus 0 l <= hi * inject_Z (Z.of_nat (length l)))%Q.
Proof.
  induction l as [|x l IH]; intros B; [cbn; change (inject_Z 0) with 0%Q; lra|].
  assert (lo <= x <= hi)%Q by (apply B; now left). assert (IHl : (forall y, In y l -> lo <= y <= hi)%Q) by (intros; apply B; now right).
  apply IH in IHl. cbn [length fold_right]. rewrite Nat2Z.inj_succ, <- Z.add_1_r, inject_Z_plus. change (inject_Z 1) with 1%Q. split; lra.
Qed.
Lemma average_bounds l v lo hi : is_average l (Some v) -> (forall x, In (Some x) l -> lo <= x <= hi)%Q -> (lo <= v <= hi)%Q.
Proof.
  intros (xs & M & N & E) B.
  assert (S : (forall x, In x xs -> lo <= x <= hi)%Q).
  { intros x I. apply B. apply (in_map Some) in I. rewrite M in I. now apply filter_In in I. }
  apply sum_bounds in S. rewrite <- E in S.
  assert (P : (0 < inject_Z (Z.of_nat (length xs)))%Q) by (destruct xs; [contradiction|reflexivity]).
  split; apply (Qmult_le_r _ _ _ P); apply S.
Qed.
Lemma average_one x v : is_average [x] v -> same_number x v.
Proof.
  destruct v as [q|]; cbn.
  - intros (xs & M & N & E). destruct x as [y|]; cbn in M; [|destruct xs; [contradiction|discriminate]].
    destruct xs as [|z [|? ?]]; try discriminate. injection M as ->. cbn in *. change (inject_Z 1) with 1%Q in E. lra.
  - intros H. rewrite (H x) by now left. exact I.
Qed.

(** matrices *)
Lemma mav_rows_spec h m w : (forall row, In row m -> length row = w) ->
  length (mav_rows h m) = length m /\ (forall row, In row (mav_rows h m) -> length row = w) /\
  forall i c, i < length m -> c < w -> is_average (near h i (col c m)) (nth c (nth i (mav_rows h m) []) None).
Proof.
  intros W. unfold mav_rows. split; [now rewrite map_length, seq_length|].
  assert (N : m <> [] -> ncols m = w). { destruct m; [contradiction|]. intros _. apply W. now left. }
  split.
  - intros row I. apply in_map_iff in I as (i & <- & I). rewrite map_length, seq_length. apply N. destruct m; [destruct I|discriminate].
  - intros i c L C. rewrite nth_map_seq' by assumption. rewrite nth_map_seq' by (rewrite N; [assumption|destruct m; [cbn in L; lia|discriminate]]).
    unfold col. rewrite near_map, near_window. apply nanmean_average.
Qed.

(** ** Smoothed similarities *)
Lemma nanmax_none l : nanmax l = None <-> forall x, In x l -> x = None.
Proof.
  unfold nanmax. destruct (defined l) as [|q r] eqn:E.
  - split; [|reflexivity]. intros _ [x|] I; [|reflexivity]. assert (F : In (Some x) (filter is_some l)) by (apply filter_In; auto).
    rewrite <- defined_filter, E in F. destruct F.
  - split; [discriminate|]. intros H. assert (F : In (Some q) (filter is_some l)) by (rewrite <- defined_filter, E; now left).
    apply filter_In in F as [F _]. apply H in F. discriminate.
Qed.
Lemma qmax_from_spec l : forall b, (In (qmax_from b l) (b :: l)) /\ forall x, In x (b :: l) -> (x <= qmax_from b l)%Q.
Proof.
  induction l as [|y l IH]; intros b; cbn [qmax_from].
  - split; [now left|]. intros x [<-|[]]. lra.
  - unfold Qlt_bool. destruct (Qle_bool y b) eqn:L; cbn [negb].
    + apply Qle_bool_iff in L. destruct (IH b) as [I M]. split; [destruct I as [I|I]; [now left|right; now right]|].
      intros x [<-|[<-|H]]; [apply M; now left|eapply Qle_trans; [exact L|apply M; now left]|apply M; now right].
    + assert (b < y)%Q by (apply Qnot_le_lt; intros C; apply Qle_bool_iff in C; congruence).
      destruct (IH y) as [I M]. split; [now right|]. intros x [<-|H']; [eapply Qle_trans; [apply Qlt_le_weak; eassumption|apply M; now left]|now apply M].
Qed.
Lemma nanmax_some l c : nanmax l = Some c -> In (Some c) l /\ forall x, In (Some x) l -> (x <= c)%Q.
Proof.
  unfold nanmax. destruct (defined l) as [|q r] eqn:E; [discriminate|]. intros [= <-].
  destruct (qmax_from_spec r q) as [I M]. rewrite <- E in *. split.
  - apply (in_map Some) in I. rewrite defined_filter in I. now apply filter_In in I.
  - intros x J. apply M. assert (F : In (Some x) (filter is_some l)) by (apply filter_In; auto). rewrite <- defined_filter in F.
    apply in_map_iff in F as (z & [= ->] & F). exact F.
Qed.
Lemma value_spec axis row v : value_at axis row = Ok v -> exists k q, nth_error (map val row) k = Some q /\ (forall y, In y (map val row) -> (y <= q)%Q) /\
  exists a, nth_error axis k = Some a /\ v = Some a.
Proof.
  unfold value_at. destruct (qargmax (map val row)) as [k|] eqn:E; [|discriminate]. destruct (nth_error axis k) as [a|] eqn:A; [|discriminate].
  intros [= <-]. apply qargmax_max in E as [L M]. exists k, (nth k (map val row) 0%Q). split; [now apply nth_error_nth'|]. split; [exact M|eauto].
Qed.
Lemma exclude_used below m : exclude below m = map (map (used below)) m.
Proof.
  unfold exclude. destruct below as [b|].
  - apply map_ext. intros r. apply map_ext. intros [v|]; [|reflexivity]. unfold used, Qlt_bool.
    destruct (Qle_bool b v) eqn:L; cbn [negb]; destruct (Qlt_le_dec v b) as [H|H]; try reflexivity.
    + apply Qle_bool_iff in L. lra.
    + apply Qle_bool_iff in H. congruence.
  - rewrite (map_ext _ (fun r => r)); [now rewrite map_id|]. intros r. rewrite (map_ext _ (fun s => s)); [apply map_id|]. intros [v|]; reflexivity.
Qed.
Lemma mapM_nth_error {A B} (f : A -> result B) l m i x : mapM f l = Ok m -> nth_error l i = Some x -> exists y, nth_error m i = Some y /\ f x = Ok y.
Proof.
  revert m i. induction l as [|a l IH]; intros m i E N; [destruct i; discriminate|].
  cbn in E. destruct (f a) eqn:F; [|discriminate]. cbn in E. destruct (mapM f l) eqn:G; [|discriminate]. injection E as <-.
  destruct i; cbn in *; [injection N as <-; eauto|eapply IH; eauto].
Qed.
Lemma smooth_parts wl below d d' av : smooth_sim_mat wl below d = Ok (d', av) ->
  d_sim d' = mav_rows (wl / 2) (map (map (used below)) (d_sim d)) /\ d_corr d' = map nanmax (d_sim d') /\
  mapM (value_at (d_axis d)) (d_sim d') = Ok (d_value d') /\ d_axis d' = d_axis d /\ av = map is_some (d_corr d).
Proof.
  unfold smooth_sim_mat. rewrite exclude_used. destruct (mapM _ _) as [v|] eqn:E; [|discriminate]. intros [= <- <-]. cbn. repeat split. exact E.
Qed.
Lemma nth_used below c r : nth c (map (used below) r) None = used below (nth c r None).
Proof. replace (@None Q) with (used below None) at 1 by (now destruct below). apply map_nth. Qed.
Lemma smooth_average wl below d d' av w : smooth_sim_mat wl below d = Ok (d', av) -> (forall row, In row (d_sim d) -> length row = w) ->
  length (d_sim d') = length (d_sim d) /\ forall i c, i < length (d_sim d) -> c < w ->
  is_average (near (wl / 2) i (map (used below) (col c (d_sim d)))) (nth c (nth i (d_sim d') []) None).
Proof.
  intros E W. apply smooth_parts in E as (-> & _).
  destruct (mav_rows_spec (wl / 2) (map (map (used below)) (d_sim d)) w) as (L & _ & A).
  { intros row I. apply in_map_iff in I as (r & <- & I). rewrite map_length. auto. }
  rewrite map_length in *. split; [exact L|]. intros i c I C. specialize (A i c I C).
  replace (col c (map (map (used below)) (d_sim d))) with (map (used below) (col c (d_sim d))) in A; [exact A|].
  unfold col. rewrite !map_map. apply map_ext. intros r. symmetry. apply nth_used.
Qed.
Lemma smooth_corr wl below d d' av i row : smooth_sim_mat wl below d = Ok (d', av) -> nth_error (d_sim d') i = Some row ->
  exists c, nth_error (d_corr d') i = Some c /\
  match c with None => forall x, In x row -> x = None | Some m => In (Some m) row /\ forall x, In (Some x) row -> (x <= m)%Q end.
Proof.
  intros E N. apply smooth_parts in E as (_ & -> & _). exists (nanmax row). split; [now apply map_nth_error|].
  destruct (nanmax row) eqn:M; [now apply nanmax_some|now apply nanmax_none].
Qed.
Lemma smooth_value wl below d d' av i row m : smooth_sim_mat wl below d = Ok (d', av) -> nth_error (d_sim d') i = Some row ->
  nth_error (d_corr d') i = Some (Some m) -> (0 < m)%Q \/ (forall x, In x row -> x <> None) ->
  exists k v q, nth_error (d_axis d) k = Some v /\ nth_error (d_value d') i = Some (Some v) /\ nth_error row k = Some (Some q) /\ (q == m)%Q.
Proof.
  intros E N C H. destruct (smooth_corr _ _ _ _ _ _ _ E N) as (c & C' & M). rewrite C in C'. injection C' as <-. destruct M as [I M].
  apply smooth_parts in E as (_ & _ & V & _). destruct (mapM_nth_error _ _ _ _ _ V N) as (v & Nv & Ev).
  apply value_spec in Ev as (k & q & Nk & B & a & Na & ->). rewrite nth_error_map in Nk. destruct (nth_error row k) as [s|] eqn:Ns; [|discriminate].
  cbn in Nk. injection Nk as <-. assert (Bm := B m). assert (In m (map val row)) by (apply in_map_iff; exists (Some m); auto). specialize (Bm H0).
  destruct s as [q|].
  - exists k, a, q. repeat split; try assumption. apply nth_error_In in Ns. apply M in Ns. cbn in Bm. lra.
  - exfalso. destruct H as [P|H]; [cbn in Bm; lra|]. apply nth_error_In in Ns. now apply H in Ns.
Qed.
Lemma smooth_negative wl below d d' av i row m : smooth_sim_mat wl below d = Ok (d', av) -> nth_error (d_sim d') i = Some row ->
  nth_error (d_corr d') i = Some (Some m) -> (m < 0)%Q -> In None row ->
  exists k v, nth_error (d_axis d) k = Some v /\ nth_error (d_value d') i = Some (Some v) /\ nth_error row k = Some None.
Proof.
  intros E N C H J. destruct (smooth_corr _ _ _ _ _ _ _ E N) as (c & C' & M). rewrite C in C'. injection C' as <-. destruct M as [I M].
  apply smooth_parts in E as (_ & _ & V & _). destruct (mapM_nth_error _ _ _ _ _ V N) as (v & Nv & Ev).
  apply value_spec in Ev as (k & q & Nk & B & a & Na & ->). rewrite nth_error_map in Nk. destruct (nth_error row k) as [s|] eqn:Ns; [|discriminate].
  cbn in Nk. injection Nk as <-. assert (B0 : (0 <= val s)%Q) by (apply B; apply in_map_iff; exists None; auto).
  destruct s as [q|]; [|exists k, a; auto]. exfalso. apply nth_error_In in Ns. apply M in Ns. cbn in B0. lra.
Qed.
Lemma argmax_zeros : forall l i b bv, (bv == 0)%Q -> (forall x, In x l -> x = 0%Q) -> qargmax_from i b bv l = b.
Proof.
  induction l as [|y l IH]; intros i b bv Z A; [reflexivity|]. cbn [qargmax_from]. unfold Qlt_bool.
  replace (Qle_bool y bv) with true; [apply IH; [exact Z|intros; apply A; now right]|].
  symmetry. apply Qle_bool_iff. rewrite (A y) by now left. lra.
Qed.
Lemma smooth_missing wl below d d' av i row v r : smooth_sim_mat wl below d = Ok (d', av) -> nth_error (d_sim d') i = Some row ->
  (forall x, In x row -> x = None) -> d_axis d = v :: r ->
  nth_error (d_corr d') i = Some None /\ nth_error (d_value d') i = Some (Some v).
Proof.
  intros E N A X. split.
  - apply smooth_parts in E as (_ & -> & _). rewrite nth_error_map, N. cbn. f_equal. now apply nanmax_none.
  - apply smooth_parts in E as (_ & _ & V & _). destruct (mapM_nth_error _ _ _ _ _ V N) as (u & Nu & Eu). rewrite Nu. f_equal.
    unfold value_at in Eu. destruct row as [|s row]; [discriminate|]. cbn [map qargmax] in Eu.
    rewrite argmax_zeros in Eu; [rewrite X in Eu; now injection Eu as <-| |].
    + rewrite (A s) by now left. reflexivity.
    + intros y I. apply in_map_iff in I as (z & <- & I). rewrite (A z) by now right. reflexivity.
Qed.
