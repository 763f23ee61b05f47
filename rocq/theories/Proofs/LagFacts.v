(** Monitoring windows, time bins, trimming and mirroring of the lag axis. *)
From Coq Require Import QArith Qround Lqa.
From Verif Require Import Lib.Base Model.CorrStream Model.LagMatrix Spec.LagSpec.
Local Open Scope nat_scope.

(** ** arange *)
Lemma arange_nth a b s k t : (0 < s)%Z ->
  nth_error (arange a b s) k = Some t <-> (t = a + Z.of_nat k * s /\ t < b)%Z.
Proof.
  intros Hs. unfold arange.
  rewrite nth_error_map.
  destruct (lt_dec k (arange_len a b s)) as [L|L].
  - assert (E : nth_error (seq 0 (arange_len a b s)) k = Some k).
    { rewrite (nth_error_nth' _ 0) by (rewrite seq_length; exact L). now rewrite seq_nth. }
    rewrite E. cbn [option_map]. unfold arange_len in L.
    assert (B : (Z.of_nat k < (b - a + s - 1) / s)%Z) by lia.
    assert (a + Z.of_nat k * s < b)%Z.
    { assert ((Z.of_nat k + 1) * s <= b - a + s - 1)%Z; [|lia].
      transitivity ((b - a + s - 1) / s * s)%Z; [nia|].
      rewrite Z.mul_comm. apply Z.mul_div_le; lia. }
    split; [intros [= <-]; lia | intros [-> _]; reflexivity].
  - assert (E : nth_error (seq 0 (arange_len a b s)) k = None)
      by (apply nth_error_None; rewrite seq_length; lia).
    rewrite E. cbn [option_map]. split; [discriminate|]. intros [-> H]. exfalso.
    unfold arange_len in L.
    assert ((b - a + s - 1) / s <= Z.of_nat k)%Z by lia.
    assert (b - a + s - 1 < (Z.of_nat k + 1) * s)%Z; [|lia].
    pose proof (Z.mul_succ_div_gt (b - a + s - 1) s Hs). nia.
Qed.

Lemma time_list_spec start stop inc win :
  match make_time_list start stop inc win with
  | Ok (s, e) =>
      (0 < inc /\ 0 < win /\ start < stop)%Z /\
      (forall k t, nth_error s k = Some t <-> t = (start + Z.of_nat k * inc)%Z /\ (t < stop)%Z) /\
      e = map (fun t => (t + win)%Z) s
  | Raise x => x = ValueError /\ (inc <= 0 \/ win <= 0 \/ stop <= start)%Z
  end.
Proof.
  unfold make_time_list.
  destruct (Z.leb_spec inc 0); cbn [orb]; [split; [reflexivity|lia]|].
  destruct (Z.leb_spec win 0); cbn [orb]; [split; [reflexivity|lia]|].
  destruct (Z.leb_spec stop start); cbn [orb]; [split; [reflexivity|lia]|].
  split; [lia|]. split; [|reflexivity]. intros k t. now apply arange_nth.
Qed.

Lemma time_list_tiles start stop inc s e t :
  make_time_list start stop inc inc = Ok (s, e) -> (start <= t < stop)%Z ->
  exists! k, exists a b, nth_error s k = Some a /\ nth_error e k = Some b /\ (a <= t < b)%Z.
Proof.
  intros M H. pose proof (time_list_spec start stop inc inc) as S. rewrite M in S.
  destruct S as ([Hi _] & Hs & ->).
  exists (Z.to_nat ((t - start) / inc)). split.
  - set (k := Z.to_nat ((t - start) / inc)).
    assert (K : Z.of_nat k = ((t - start) / inc)%Z) by (unfold k; rewrite Z2Nat.id; [reflexivity|apply Z.div_pos; lia]).
    pose proof (Z.mul_div_le (t - start) inc Hi). pose proof (Z.mul_succ_div_gt (t - start) inc Hi).
    assert (A : nth_error s k = Some (start + Z.of_nat k * inc)%Z) by (apply Hs; rewrite K; nia).
    exists (start + Z.of_nat k * inc)%Z, (start + Z.of_nat k * inc + inc)%Z.
    split; [exact A|]. split; [now rewrite nth_error_map, A|]. rewrite K. nia.
  - intros k (a & b & A & B & C). rewrite nth_error_map, A in B. cbn in B. injection B as <-.
    apply Hs in A as [-> A].
    assert ((t - start) / inc = Z.of_nat k)%Z; [|lia].
    symmetry. apply Z.div_unique with (r := (t - start - Z.of_nat k * inc)%Z); lia.
Qed.

(** ** resampling in time *)
Lemma starting_in_filter s e starts data :
  map snd (filter (fun p => (s <=? fst p)%Z && (fst p <? e)%Z) (combine starts data)) = starting_in s e starts data.
Proof.
  unfold starting_in. induction (combine starts data) as [|p l IH]; [reflexivity|].
  cbn [filter flat_map]. destruct ((s <=? fst p)%Z && (fst p <? e)%Z); cbn [map app]; now rewrite IH.
Qed.

Lemma defined_filter l : map Some (defined l) = filter is_some l.
Proof. unfold defined. induction l as [|[x|] l IH]; cbn; [reflexivity| |exact IH]. now f_equal. Qed.

Lemma qsum_fold l : qsum l = fold_right Qplus 0%Q l.
Proof. reflexivity. Qed.

Lemma nanmean_average l : is_average l (nanmean l).
Proof.
  unfold nanmean, qdiv. destruct (Qeq_bool _ 0) eqn:E.
  - apply Qeq_bool_iff in E. cbn. intros x Hx.
    assert (length (defined l) = 0).
    { unfold Qeq in E. cbn in E. lia. }
    destruct x as [q|]; [|reflexivity].
    exfalso. assert (I : In (Some q) (filter is_some l)) by (apply filter_In; auto).
    rewrite <- defined_filter in I. destruct (defined l); [destruct I|discriminate].
  - cbn. exists (defined l). split; [apply defined_filter|].
    assert (~ inject_Z (Z.of_nat (length (defined l))) == 0)%Q.
    { intros H. apply Qeq_bool_iff in H. congruence. }
    split; [intros Hn; apply H; now rewrite Hn|].
    rewrite qsum_fold. field. exact H.
Qed.

Lemma bin_row_content width starts data b :
  (forall row, In row data -> length row = width) ->
  bin_content width (starting_in (fst b) (snd b) starts data) (bin_row width starts data b).
Proof.
  intros W. unfold bin_row. rewrite starting_in_filter.
  assert (M : forall r, In r (starting_in (fst b) (snd b) starts data) -> length r = width).
  { intros r Hr. rewrite <- starting_in_filter in Hr. apply in_map_iff in Hr as ([t r'] & <- & Hr).
    apply filter_In in Hr as [Hr _]. apply in_combine_r in Hr. auto. }
  destruct (starting_in (fst b) (snd b) starts data) as [|r1 [|r2 rs]] eqn:E; unfold bin_content.
  - split; [apply repeat_length|]. intros j Hj.
    rewrite (nth_error_nth' _ None) by now rewrite repeat_length. now rewrite nth_repeat.
  - split; [apply M; now left|reflexivity].
  - split; [now rewrite map_length, seq_length|]. intros j Hj.
    set (f := fun j => nanmean (map (fun row => nth j row None) (r1 :: r2 :: rs))).
    change (is_average (map (fun r => nth j r None) (r1 :: r2 :: rs)) (nth j (map f (seq 0 width)) None)).
    rewrite (nth_indep _ None (f 0)) by now rewrite map_length, seq_length.
    rewrite map_nth, seq_nth by exact Hj. apply nanmean_average.
Qed.

Lemma bins_spec h starts ends :
  match bins h starts ends with
  | Ok bs =>
      map fst bs = starts /\ starts <> [] /\
      (ends <> [] -> map snd bs = ends) /\
      (ends = [] -> forall s0 s1 r, starts = s0 :: s1 :: r -> map snd bs = map (fun s => (s + (s1 - s0))%Z) starts) /\
      (ends = [] -> forall s0, starts = [s0] -> exists l e, h_end h = l ++ [e] /\ map snd bs = [e])
  | Raise x =>
      (x = ValueError /\ ends <> [] /\ length ends <> length starts) \/
      (x = IndexError /\ (starts = [] \/ (ends = [] /\ length starts = 1 /\ h_end h = [])))
  end.
Proof.
  unfold bins.
  destruct ends as [|e0 er].
  - cbn [length Nat.eqb negb andb].
    destruct starts as [|s0 [|s1 r]].
    + right. auto.
    + destruct (rev (h_end h)) as [|e l] eqn:E.
      * right. split; [reflexivity|]. right. repeat split; auto.
        rewrite <- (rev_involutive (h_end h)), E. reflexivity.
      * cbn. repeat split; try congruence. intros _ s [= <-]. exists (rev l), e. split; [|reflexivity].
        rewrite <- (rev_involutive (h_end h)), E. reflexivity.
    + split; [rewrite map_map; cbn [fst]; apply map_id|]. split; [discriminate|].
      split; [congruence|]. split; [|intros _ s [=]].
      intros _ a b c [= <- <- <-]. rewrite map_map. reflexivity.
  - destruct (Nat.eqb_spec (length (e0 :: er)) (length starts)) as [L|L].
    + cbn [negb andb]. rewrite andb_false_r.
      destruct starts as [|s0 r]; [discriminate|].
      assert (F : forall (a b : list Z), length a = length b -> map fst (combine a b) = a /\ map snd (combine a b) = b).
      { induction a as [|x a IH]; destruct b; intros HL; try discriminate; [split; reflexivity|].
        cbn. injection HL as HL. destruct (IH _ HL) as [-> ->]. split; reflexivity. }
      destruct (F (s0 :: r) (e0 :: er) (eq_sym L)) as [F1 F2].
      split; [exact F1|]. split; [discriminate|]. split; [intros _; exact F2|]. split; intros [=].
    + cbn [length Nat.eqb negb andb] in *. left. repeat split; [discriminate|exact L].
Qed.

Lemma resample_rows width data h starts ends :
  (forall row, In row data -> length row = width) ->
  match resample width data h starts ends with
  | Ok (data', h') =>
      h_start h' = starts /\ length data' = length starts /\ length (h_end h') = length starts /\
      h_lag h' = h_lag h /\ h_sr h' = h_sr h /\
      forall i s e row, nth_error starts i = Some s -> nth_error (h_end h') i = Some e -> nth_error data' i = Some row ->
        bin_content width (starting_in s e (h_start h) data) row
  | Raise _ => True
  end.
Proof.
  intros W. unfold resample. pose proof (bins_spec h starts ends) as B.
  destruct (bins h starts ends) as [bs|x]; cbn [bind]; [|exact I].
  destruct B as (B1 & _). cbn [h_start h_end h_lag h_sr].
  assert (L : length bs = length starts) by (rewrite <- B1; symmetry; apply map_length).
  split; [exact B1|]. split; [now rewrite map_length|]. split; [now rewrite map_length|].
  split; [reflexivity|]. split; [reflexivity|].
  intros i s e row Hs He Hr. rewrite <- B1 in Hs. rewrite nth_error_map in *.
  destruct (nth_error bs i) as [[s' e']|]; [|discriminate]. cbn in *.
  injection Hs as ->. injection He as ->. injection Hr as <-.
  now apply bin_row_content.
Qed.

(** ** trimming *)
Lemma floor_ge k x : (k <= Qfloor x)%Z <-> (inject_Z k <= x)%Q.
Proof.
  split; intros H.
  - apply Qle_trans with (inject_Z (Qfloor x)); [now rewrite <- Zle_Qle|apply Qfloor_le].
  - rewrite Zle_Qle. rewrite <- (Qfloor_Z k). rewrite <- Zle_Qle. now apply Qfloor_resp_le.
Qed.

Lemma div_le j e r : (0 < r)%Q -> ((j / r <= e) <-> (j <= e * r))%Q.
Proof.
  intros Hr. rewrite <- (Qmult_le_r (j / r) e r Hr).
  assert (E : (j / r * r == j)%Q) by (field; lra). now rewrite E.
Qed.
Lemma le_div j e r : (0 < r)%Q -> ((e <= j / r) <-> (e * r <= j))%Q.
Proof.
  intros Hr. rewrite <- (Qmult_le_r e (j / r) r Hr).
  assert (E : (j / r * r == j)%Q) by (field; lra). now rewrite E.
Qed.

Lemma pyslice_nth {A} (l : list A) a c i : (0 <= a)%Z -> (0 <= c <= Z.of_nat (length l))%Z ->
  nth_error (pyslice l a c) i = if (a + Z.of_nat i <? c)%Z then nth_error l (Z.to_nat a + i) else None.
Proof.
  intros Ha Hc. unfold pyslice, norm_index.
  destruct (Z.ltb_spec a 0); [lia|]. destruct (Z.ltb_spec c 0); [lia|].
  set (n := length l) in *.
  destruct (Z.ltb_spec (a + Z.of_nat i) c) as [L|L].
  - assert (P : forall k (m : list A) j, j < k -> nth_error (firstn k m) j = nth_error m j).
    { induction k; intros m j Hj; [lia|]. destruct m, j; cbn; auto. apply IHk; lia. }
    rewrite P by lia.
    assert (Q : forall k (m : list A) j, nth_error (skipn k m) j = nth_error m (k + j)).
    { induction k; intros m j; [reflexivity|]. destruct m; cbn; [now destruct j|]. apply IHk. }
    rewrite Q. f_equal. lia.
  - apply nth_error_None. rewrite firstn_length. lia.
Qed.

Lemma pyslice_length {A B} (l : list A) (m : list B) a c : length l = length m -> length (pyslice l a c) = length (pyslice m a c).
Proof. intros H. unfold pyslice. now rewrite !firstn_length, !skipn_length, H. Qed.

Lemma trim_refused data h st et : (0 < h_sr h)%Q ->
  (st < h_lag h \/ h_lag h + inject_Z (Z.of_nat (h_npts h)) / h_sr h <= et)%Q -> trim data h st et = (data, h).
Proof.
  intros Hr H. unfold trim.
  destruct (Z.ltb_spec (Qfloor ((st - h_lag h) * h_sr h)) 0) as [L|L]; [reflexivity|].
  destruct (Z.leb_spec (Z.of_nat (h_npts h)) (Qfloor ((et - h_lag h) * h_sr h))) as [M|M]; [reflexivity|].
  exfalso. destruct H as [H|H].
  - apply (proj1 (floor_ge 0 _)) in L.
    assert (0 < (h_lag h - st) * h_sr h)%Q by (apply Qmult_lt_0_compat; lra). change (inject_Z 0) with 0%Q in L. lra.
  - assert (Z.of_nat (h_npts h) <= Qfloor ((et - h_lag h) * h_sr h))%Z; [|lia].
    apply floor_ge. apply div_le; [exact Hr|]. lra.
Qed.

Lemma trim_accepted data h st et : (0 < h_sr h)%Q ->
  (h_lag h <= st)%Q -> (et < h_lag h + inject_Z (Z.of_nat (h_npts h)) / h_sr h)%Q ->
  let a := Qfloor ((st - h_lag h) * h_sr h) in
  let b := Qfloor ((et - h_lag h) * h_sr h) in
  (0 <= a)%Z /\ (b < Z.of_nat (h_npts h))%Z /\
  trim data h st et =
    (map (fun row => pyslice row a (b + 1)) data,
     mkH st (h_sr h) (length (pyslice (repeat tt (h_npts h)) a (b + 1))) (h_start h) (h_end h)).
Proof.
  intros Hr H1 H2 a b.
  assert (Ha : (0 <= a)%Z).
  { apply floor_ge. change (inject_Z 0) with 0%Q. apply Qmult_le_0_compat; lra. }
  assert (Hb : (b < Z.of_nat (h_npts h))%Z).
  { destruct (Z_lt_le_dec b (Z.of_nat (h_npts h))) as [L|L]; [exact L|exfalso].
    apply (proj1 (floor_ge _ _)) in L. apply (proj2 (div_le _ _ _ Hr)) in L. lra. }
  split; [exact Ha|]. split; [exact Hb|].
  unfold trim. fold a b.
  destruct (Z.ltb_spec a 0); [lia|]. destruct (Z.leb_spec (Z.of_nat (h_npts h)) b); [lia|reflexivity].
Qed.

Lemma inject_nat_add (i j : nat) : (inject_Z (Z.of_nat (i + j)) == inject_Z (Z.of_nat i) + inject_Z (Z.of_nat j))%Q.
Proof. rewrite Nat2Z.inj_add, inject_Z_plus. reflexivity. Qed.

Lemma trim_exact data h st et row : describes h row -> In row data ->
  (h_lag h <= st)%Q -> (h_lag h <= et)%Q -> (et < h_lag h + inject_Z (Z.of_nat (h_npts h)) / h_sr h)%Q ->
  on_grid h st ->
  forall i, nth_error data i = Some row ->
  exists row', nth_error (fst (trim data h st et)) i = Some row' /\ trimmed h row st et (snd (trim data h st et)) row'.
Proof.
  intros [Hr Hn] _ H1 H1e H2 [k Hk] i Hi.
  destruct (trim_accepted data h st et Hr H1 H2) as (Ha & Hb & ->).
  set (a := Qfloor ((st - h_lag h) * h_sr h)) in *. set (b := Qfloor ((et - h_lag h) * h_sr h)) in *.
  cbn [fst snd]. exists (pyslice row a (b + 1)).
  split; [now rewrite nth_error_map, Hi|].
  assert (Ka : a = k).
  { unfold a. rewrite <- (Qfloor_Z k). apply Qfloor_comp. rewrite Hk. field. lra. }
  assert (Hb0 : (0 <= b)%Z).
  { apply floor_ge. change (inject_Z 0) with 0%Q. apply Qmult_le_0_compat; lra. }
  split; [cbn [h_npts]; apply pyslice_length; now rewrite repeat_length|].
  intros x v. unfold at_lag, lag_at. cbn [h_lag h_sr].
  assert (P : forall m, nth_error (pyslice row a (b + 1)) m = if (a + Z.of_nat m <? b + 1)%Z then nth_error row (Z.to_nat a + m) else None).
  { intros m. apply pyslice_nth; lia. }
  assert (SHIFT : forall m, (st + inject_Z (Z.of_nat m) / h_sr h == h_lag h + inject_Z (Z.of_nat (Z.to_nat a + m)) / h_sr h)%Q).
  { intros m. rewrite inject_nat_add, Z2Nat.id by lia. rewrite Ka, Hk. field. lra. }
  split.
  - intros (m & Hm & Hx). rewrite P in Hm. destruct (Z.ltb_spec (a + Z.of_nat m) (b + 1)) as [L|L]; [|discriminate].
    rewrite SHIFT in Hx. split; [now exists (Z.to_nat a + m)|].
    rewrite <- Hx. split.
    + rewrite <- SHIFT. assert (0 <= inject_Z (Z.of_nat m) / h_sr h)%Q; [|lra].
      apply le_div; [exact Hr|]. rewrite Qmult_0_l. change 0%Q with (inject_Z 0). rewrite <- Zle_Qle. lia.
    + assert (inject_Z (Z.of_nat (Z.to_nat a + m)) / h_sr h <= et - h_lag h)%Q; [|lra].
      apply div_le; [exact Hr|]. apply floor_ge. fold b. lia.
  - intros ((j & Hj & Hx) & H3 & H4).
    assert (J1 : (a <= Z.of_nat j)%Z).
    { rewrite Ka, Zle_Qle. rewrite <- Hx in H3. rewrite Hk in H3.
      assert (inject_Z k / h_sr h <= inject_Z (Z.of_nat j) / h_sr h)%Q by lra.
      apply (proj1 (div_le _ _ _ Hr)) in H. eapply Qle_trans; [exact H|].
      assert (E : (inject_Z (Z.of_nat j) / h_sr h * h_sr h == inject_Z (Z.of_nat j))%Q) by (field; lra). rewrite E. apply Qle_refl. }
    assert (J2 : (Z.of_nat j <= b)%Z).
    { apply floor_ge. apply div_le; [exact Hr|]. rewrite <- Hx in H4. lra. }
    exists (j - Z.to_nat a). rewrite P.
    replace (Z.to_nat a + (j - Z.to_nat a)) with j by lia.
    destruct (Z.ltb_spec (a + Z.of_nat (j - Z.to_nat a)) (b + 1)); [|lia].
    split; [exact Hj|]. rewrite SHIFT. replace (Z.to_nat a + (j - Z.to_nat a)) with j by lia. exact Hx.
Qed.

Lemma trim_displacement data h st et i row : describes h row ->
  (h_lag h <= st)%Q -> (h_lag h <= et)%Q -> (et < h_lag h + inject_Z (Z.of_nat (h_npts h)) / h_sr h)%Q ->
  nth_error data i = Some row ->
  exists row', nth_error (fst (trim data h st et)) i = Some row' /\
    forall k v, nth_error row' k = Some v ->
      exists j, nth_error row j = Some v /\
        (0 <= lag_at (snd (trim data h st et)) k - lag_at h j)%Q /\
        (lag_at (snd (trim data h st et)) k - lag_at h j < 1 / h_sr h)%Q.
Proof.
  intros [Hr Hn] H1 H1e H2 Hi.
  destruct (trim_accepted data h st et Hr H1 H2) as (Ha & Hb & ->).
  set (a := Qfloor ((st - h_lag h) * h_sr h)) in *. set (b := Qfloor ((et - h_lag h) * h_sr h)) in *.
  assert (Hb0 : (0 <= b)%Z).
  { apply floor_ge. change (inject_Z 0) with 0%Q. apply Qmult_le_0_compat; lra. }
  cbn [fst snd]. exists (pyslice row a (b + 1)). split; [now rewrite nth_error_map, Hi|].
  intros k v Hk. rewrite pyslice_nth in Hk by lia.
  destruct (Z.ltb_spec (a + Z.of_nat k) (b + 1)); [|discriminate].
  exists (Z.to_nat a + k). split; [exact Hk|].
  unfold lag_at. cbn [h_lag h_sr]. rewrite inject_nat_add, Z2Nat.id by lia.
  assert (E : (st + inject_Z (Z.of_nat k) / h_sr h - (h_lag h + (inject_Z a + inject_Z (Z.of_nat k)) / h_sr h)
              == ((st - h_lag h) * h_sr h - inject_Z a) / h_sr h)%Q) by (field; lra).
  rewrite E. pose proof (Qfloor_le ((st - h_lag h) * h_sr h)) as F1.
  pose proof (Qlt_floor ((st - h_lag h) * h_sr h)) as F2. fold a in F1, F2.
  rewrite inject_Z_plus in F2. change (inject_Z 1) with 1%Q in F2. split.
  - apply le_div; [exact Hr|]. lra.
  - apply Qlt_shift_div_r; [exact Hr|]. assert (E2 : (1 / h_sr h * h_sr h == 1)%Q) by (field; lra). rewrite E2. lra.
Qed.

(** ** mirroring *)
Lemma at_lag_index h row z x v : (0 < h_sr h)%Q -> (- (h_lag h * h_sr h) == inject_Z z)%Q ->
  at_lag h row x v <-> exists i, nth_error row i = Some v /\ (x * h_sr h == inject_Z (Z.of_nat i - z))%Q.
Proof.
  intros Hr Hz. unfold at_lag, lag_at.
  assert (E : forall i, (inject_Z (Z.of_nat i - z) == (h_lag h + inject_Z (Z.of_nat i) / h_sr h) * h_sr h)%Q).
  { intros i. unfold Z.sub. rewrite inject_Z_plus, inject_Z_opp, <- Hz. field. lra. }
  split; intros (i & Hi & Hx); exists i; (split; [exact Hi|]).
  - rewrite E, Hx. reflexivity.
  - rewrite E in Hx. apply (Qmult_inj_r _ _ (h_sr h)); [lra|]. now rewrite Hx.
Qed.

Lemma mean2_half a b : mean2 a b (half (sadd a b)).
Proof. destruct a, b; cbn; auto. field. Qed.

Lemma mean2_half_comm a b : mean2 a b (half (sadd b a)).
Proof. destruct a, b; cbn; auto. field. Qed.

Lemma mirror_exact data h :
  (0 < h_sr h)%Q -> (forall row, In row data -> length row = h_npts h) ->
  (h_lag h < 0)%Q -> (0 < end_lag h)%Q -> on_grid h 0 ->
  exists data' h', mirror data h = Ok (data', h') /\ length data' = length data /\
    forall i row row', nth_error data i = Some row -> nth_error data' i = Some row' -> mirrored h row h' row'.
Proof.
  intros Hr Hn Hl He [k Hk].
  assert (Hz : (- (h_lag h * h_sr h) == inject_Z k)%Q).
  { assert (h_lag h == - (inject_Z k / h_sr h))%Q by lra. rewrite H. field. lra. }
  unfold mirror. set (zero := (- (h_lag h * h_sr h))%Q) in *.
  assert (Z0 : (0 < zero)%Q).
  { unfold zero. assert (0 < (- h_lag h) * h_sr h)%Q by (apply Qmult_lt_0_compat; lra). lra. }
  destruct (Qle_bool zero 0) eqn:E1; [apply Qle_bool_iff in E1; lra|].
  destruct (Qle_bool (end_lag h) 0) eqn:E2; [apply Qle_bool_iff in E2; lra|].
  assert (Fz : Qfloor zero = k) by (rewrite (Qfloor_comp _ _ Hz); apply Qfloor_Z).
  rewrite Fz.
  assert (E3 : Qeq_bool (inject_Z k) zero = true) by (apply Qeq_bool_iff; now symmetry).
  rewrite E3. cbn [negb].
  assert (Hk0 : (0 < k)%Z).
  { rewrite Hz in Z0. change 0%Q with (inject_Z 0) in Z0. now rewrite <- Zlt_Qlt in Z0. }
  assert (Hp : (k < Z.of_nat (h_npts h) - 1)%Z /\ (0 < h_npts h)%nat).
  { unfold end_lag in He. destruct (Nat.eqb_spec (h_npts h) 0) as [E|E]; [lra|].
    split; [|lia]. rewrite Zlt_Qlt. rewrite <- Hz. unfold zero.
    assert (- h_lag h < inject_Z (Z.of_nat (h_npts h - 1)) / h_sr h)%Q by lra.
    apply (Qmult_lt_r _ _ (h_sr h) Hr) in H.
    assert (F : (inject_Z (Z.of_nat (h_npts h - 1)) / h_sr h * h_sr h == inject_Z (Z.of_nat (h_npts h) - 1))%Q).
    { rewrite Nat2Z.inj_sub by lia. change (Z.of_nat 1) with 1%Z. field. lra. }
    rewrite F in H. lra. }
  destruct Hp as [Hp Hp0].
  eexists _, _. split; [reflexivity|]. split; [apply map_length|].
  set (z := Z.to_nat k). assert (Hzk : Z.of_nat z = k) by (unfold z; lia).
  set (ac := z + 1). set (ca := h_npts h - ac + 1).
  intros i row row' Hi Hi'. rewrite nth_error_map, Hi in Hi'. cbn in Hi'. injection Hi' as <-.
  specialize (Hn row (nth_error_In _ _ Hi)).
  assert (LEN : length (mirror_row ac ca row) = Nat.max ac ca) by (unfold mirror_row; now rewrite map_length, seq_length).
  assert (ENT : forall m, m < Nat.max ac ca -> nth_error (mirror_row ac ca row) m =
     Some (let x := if m <? ca then nth (ac - 1 + m) row None else Some 0%Q in
           let y := if m <? ac then sadd x (nth (ac - 1 - m) row None) else x in
           if m <? Nat.min ac ca then half y else y)).
  { intros m Hm. unfold mirror_row. rewrite nth_error_map.
    rewrite (nth_error_nth' _ 0) by (rewrite seq_length; exact Hm). rewrite seq_nth by exact Hm. reflexivity. }
  assert (IDX := at_lag_index h row k). 
  assert (IDX' : forall x v, at_lag (mkH 0 (h_sr h) (Nat.max ac ca) (h_start h) (h_end h)) (mirror_row ac ca row) x v <->
            exists m, nth_error (mirror_row ac ca row) m = Some v /\ (x * h_sr h == inject_Z (Z.of_nat m))%Q).
  { intros x v. rewrite (at_lag_index _ _ 0 x v); [|exact Hr|reflexivity]. cbn [h_sr].
    split; intros (m & Hm & Hx); exists m; (split; [exact Hm|]); rewrite Hx; [now rewrite Z.sub_0_r|now rewrite Z.sub_0_r]. }
  assert (POS : forall x, (0 <= x)%Q -> forall j, (x * h_sr h == inject_Z j)%Q -> (0 <= j)%Z).
  { intros x Hx j Hj. rewrite Zle_Qle. change (inject_Z 0) with 0%Q. rewrite <- Hj. apply Qmult_le_0_compat; lra. }
  assert (INJ : forall p q : Z, (inject_Z p == inject_Z q)%Q -> p = q) by (intros p q; apply inject_Z_injective).
  assert (NTH : forall j v, nth_error row j = Some v -> nth j row None = v /\ j < h_npts h).
  { intros j v Hj. split; [now apply nth_error_nth|]. rewrite <- Hn. apply nth_error_Some. congruence. }
  constructor; cbn [h_lag h_sr h_npts].
  - reflexivity.
  - reflexivity.
  - exact LEN.
  - intros x a b Hx A B.
    apply (IDX x a Hr Hz) in A as (ia & Ha & Xa). apply (IDX (- x)%Q b Hr Hz) in B as (ib & Hb & Xb).
    apply NTH in Ha as [Ha La]. apply NTH in Hb as [Hb Lb].
    pose proof (POS x Hx _ Xa) as Pa.
    assert (S : (Z.of_nat ib - k = - (Z.of_nat ia - k))%Z).
    { apply INJ. rewrite inject_Z_opp, <- Xa, <- Xb. ring. }
    set (m := ia - z). assert (Mi : ac - 1 + m = ia) by (unfold m, ac; lia). assert (Mj : ac - 1 - m = ib) by (unfold m, ac; lia).
    exists (half (sadd a b)). split; [|apply mean2_half]. apply IDX'. exists m. split.
    + rewrite ENT by (unfold ca, ac, m in *; lia).
      replace (m <? ca) with true by (symmetry; apply Nat.ltb_lt; unfold ca, ac, m in *; lia).
      replace (m <? ac) with true by (symmetry; apply Nat.ltb_lt; unfold ca, ac, m in *; lia).
      replace (m <? Nat.min ac ca) with true by (symmetry; apply Nat.ltb_lt; unfold ca, ac, m in *; lia).
      cbv zeta. now rewrite Mi, Mj, Ha, Hb.
    + rewrite Xa. unfold m. replace (Z.of_nat (ia - z)) with (Z.of_nat ia - k)%Z by lia. reflexivity.
  - intros x a Hx A NB.
    apply (IDX x a Hr Hz) in A as (ia & Ha & Xa). apply NTH in Ha as [Ha La].
    pose proof (POS x Hx _ Xa) as Pa. set (m := ia - z).
    assert (Mi : ac - 1 + m = ia) by (unfold m, ac; lia).
    assert (Mb : ac <= m).
    { destruct (le_lt_dec ac m) as [L|L]; [exact L|exfalso].
      apply (NB (nth (z - m) row None)). apply (IDX (- x)%Q _ Hr Hz). exists (z - m). split.
      - apply nth_error_nth'. lia.
      - assert (XX : (- x * h_sr h == - (x * h_sr h))%Q) by ring. rewrite XX, Xa, <- inject_Z_opp.
        replace (- (Z.of_nat ia - k))%Z with (Z.of_nat (z - m) - k)%Z by (unfold m, ac in *; lia). reflexivity. }
    exists a. split; [|destruct a; cbn; auto; reflexivity]. apply IDX'. exists m. split.
    + rewrite ENT by (unfold ca, ac, m in *; lia).
      replace (m <? ca) with true by (symmetry; apply Nat.ltb_lt; unfold ca, ac, m in *; lia).
      replace (m <? ac) with false by (symmetry; apply Nat.ltb_ge; unfold ca, ac, m in *; lia).
      replace (m <? Nat.min ac ca) with false by (symmetry; apply Nat.ltb_ge; unfold ca, ac, m in *; lia).
      cbv zeta. now rewrite Mi, Ha.
    + rewrite Xa. unfold m. replace (Z.of_nat (ia - z)) with (Z.of_nat ia - k)%Z by lia. reflexivity.
  - intros x b Hx B NA.
    apply (IDX (- x)%Q b Hr Hz) in B as (ib & Hb & Xb). apply NTH in Hb as [Hb Lb].
    assert (Xb' : (x * h_sr h == inject_Z (- (Z.of_nat ib - k)))%Q) by (rewrite inject_Z_opp, <- Xb; ring).
    pose proof (POS x Hx _ Xb') as Pb. set (m := z - ib).
    assert (Mj : ac - 1 - m = ib) by (unfold m, ac; lia).
    assert (Mb : ca <= m).
    { destruct (le_lt_dec ca m) as [L|L]; [exact L|exfalso].
      apply (NA (nth (z + m) row None)). apply (IDX x _ Hr Hz). exists (z + m). split.
      - apply nth_error_nth'. unfold ca, ac in *; lia.
      - rewrite Xb'. replace (- (Z.of_nat ib - k))%Z with (Z.of_nat (z + m) - k)%Z by (unfold m in *; lia). reflexivity. }
    exists (sadd (Some 0%Q) b). split; [|destruct b; cbn; auto; ring]. apply IDX'. exists m. split.
    + rewrite ENT by (unfold ca, ac, m in *; lia).
      replace (m <? ca) with false by (symmetry; apply Nat.ltb_ge; unfold ca, ac, m in *; lia).
      replace (m <? ac) with true by (symmetry; apply Nat.ltb_lt; unfold ca, ac, m in *; lia).
      replace (m <? Nat.min ac ca) with false by (symmetry; apply Nat.ltb_ge; unfold ca, ac, m in *; lia).
      cbv zeta. now rewrite Mj, Hb.
    + rewrite Xb'. unfold m. replace (Z.of_nat (z - ib)) with (- (Z.of_nat ib - k))%Z by lia. reflexivity.
  - intros x v V. apply IDX' in V as (m & Hm & Xm).
    assert (Lm : m < Nat.max ac ca) by (rewrite <- LEN; apply nth_error_Some; congruence).
    destruct (le_lt_dec ca m) as [L|L].
    + right. exists (nth (z - m) row None). apply (IDX (- x)%Q _ Hr Hz). exists (z - m). split.
      * apply nth_error_nth'. unfold ca, ac in *; lia.
      * assert (XX : (- x * h_sr h == - (x * h_sr h))%Q) by ring. rewrite XX, Xm, <- inject_Z_opp.
        replace (Z.of_nat (z - m) - k)%Z with (- Z.of_nat m)%Z by (unfold ca, ac in *; lia). reflexivity.
    + left. exists (nth (z + m) row None). apply (IDX x _ Hr Hz). exists (z + m). split.
      * apply nth_error_nth'. unfold ca, ac in *; lia.
      * rewrite Xm. replace (Z.of_nat (z + m) - k)%Z with (Z.of_nat m) by lia. reflexivity.
Qed.

Lemma mirror_one_sided data h :
  (0 < h_sr h)%Q -> (0 <= h_lag h \/ end_lag h <= 0)%Q -> mirror data h = Ok (data, h).
Proof.
  intros Hr H. unfold mirror.
  destruct (Qle_bool (- (h_lag h * h_sr h)) 0) eqn:E1; [reflexivity|].
  destruct (Qle_bool (end_lag h) 0) eqn:E2; [reflexivity|exfalso].
  destruct H as [H|H].
  - assert (0 <= h_lag h * h_sr h)%Q by (apply Qmult_le_0_compat; lra).
    assert (Qle_bool (- (h_lag h * h_sr h)) 0 = true) by (apply Qle_bool_iff; lra). congruence.
  - assert (Qle_bool (end_lag h) 0 = true) by (apply Qle_bool_iff; lra). congruence.
Qed.

Lemma mirror_off_grid data h :
  (0 < h_sr h)%Q -> (h_lag h < 0)%Q -> (0 < end_lag h)%Q -> ~ on_grid h 0 -> mirror data h = Raise TypeError.
Proof.
  intros Hr Hl He G. unfold mirror.
  destruct (Qle_bool (- (h_lag h * h_sr h)) 0) eqn:E1.
  { apply Qle_bool_iff in E1. assert (0 < (- h_lag h) * h_sr h)%Q by (apply Qmult_lt_0_compat; lra). lra. }
  destruct (Qle_bool (end_lag h) 0) eqn:E2; [apply Qle_bool_iff in E2; lra|].
  destruct (Qeq_bool (inject_Z (Qfloor (- (h_lag h * h_sr h)))) (- (h_lag h * h_sr h))) eqn:E3; [|reflexivity].
  exfalso. apply Qeq_bool_iff in E3. apply G. exists (Qfloor (- (h_lag h * h_sr h))). rewrite E3. field. lra.
Qed.

(** ** the header after a stretch measurement *)
Lemma stretch_symmetric data h :
  (0 < h_sr h)%Q -> (forall row, In row data -> length row = h_npts h) -> 0 < h_npts h ->
  (h_lag h + end_lag h == 0)%Q ->
  fst (stretch_trim false data h) = data /\
  let h' := snd (snd (stretch_trim false data h)) in
  fst (snd (stretch_trim false data h)) = data /\ h_npts h' = h_npts h /\ (h_lag h' == h_lag h)%Q.
Proof.
  intros Hr Hn Hp Hs. unfold stretch_trim.
  set (dt := qmin (- h_lag h) (end_lag h)).
  assert (D : (dt == end_lag h)%Q) by (unfold dt, qmin; destruct (Qle_bool _ _); lra).
  unfold trim.
  assert (EL : (end_lag h == h_lag h + inject_Z (Z.of_nat (h_npts h - 1)) / h_sr h)%Q).
  { unfold end_lag. destruct (Nat.eqb_spec (h_npts h) 0); [lia|reflexivity]. }
  assert (F1 : Qfloor ((- dt - h_lag h) * h_sr h) = 0%Z).
  { change 0%Z with (Qfloor 0). apply Qfloor_comp. assert (E : (- dt - h_lag h == 0)%Q) by lra. rewrite E. ring. }
  assert (F2 : Qfloor ((dt - h_lag h) * h_sr h) = Z.of_nat (h_npts h - 1)).
  { rewrite <- (Qfloor_Z (Z.of_nat (h_npts h - 1))). apply Qfloor_comp. rewrite D, EL. field. lra. }
  rewrite F1, F2. destruct (Z.ltb_spec 0 0); [lia|]. destruct (Z.leb_spec (Z.of_nat (h_npts h)) (Z.of_nat (h_npts h - 1))); [lia|].
  replace (Z.of_nat (h_npts h - 1) + 1)%Z with (Z.of_nat (h_npts h)) by lia.
  assert (W : forall (A : Type) (l : list A), length l = h_npts h -> pyslice l 0 (Z.of_nat (h_npts h)) = l).
  { intros A l L. unfold pyslice, norm_index. destruct (Z.ltb_spec 0 0); [lia|]. destruct (Z.ltb_spec (Z.of_nat (h_npts h)) 0); [lia|].
    rewrite Nat2Z.id, <- L, Nat.min_id. cbn [Z.to_nat Nat.min]. rewrite Nat.sub_0_r. cbn [skipn]. apply firstn_all. }
  assert (M : map (fun row => pyslice row 0 (Z.of_nat (h_npts h))) data = data).
  { rewrite <- (map_id data) at 2. apply map_ext_in. intros row I. apply W. now apply Hn. }
  cbn [fst snd h_npts h_lag]. split; [exact M|]. split; [reflexivity|]. split.
  - rewrite W by apply repeat_length. apply repeat_length.
  - lra.
Qed.
