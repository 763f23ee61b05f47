(** Proofs about normalised matrices and reference traces. *)
From Coq Require Import Reals QArith Qround Qreals Lra Lia Permutation Sorted.
From Verif Require Import Lib.Base Lib.Sorting Model.LagMatrix Model.Spectral Model.TimeDomain Model.Similarity Model.Reference Spec.ReferenceSpec
  Proofs.SpectralFacts Proofs.AmplitudeFacts Proofs.ReferenceFacts.
Local Open Scope R_scope.

Lemma mapM_at {A B} (f : A -> result B) l m i x : mapM f l = Ok m -> nth_error l i = Some x -> exists y, nth_error m i = Some y /\ f x = Ok y.
Proof.
  revert m i. induction l as [|a l IH]; intros m i E N; [destruct i; discriminate|].
  cbn in E. destruct (f a) eqn:F; [|discriminate]. cbn in E. destruct (mapM f l) eqn:G; [|discriminate]. injection E as <-.
  destruct i; cbn in *; [injection N as <-; eauto|eapply IH; eauto].
Qed.
Lemma mapM_total {A B} (f : A -> result B) l : (forall x, In x l -> exists y, f x = Ok y) -> exists m, mapM f l = Ok m.
Proof.
  induction l as [|a l IH]; intros H; [now exists []|]. destruct (H a) as [y E]; [now left|]. destruct IH as [m M]; [intros; apply H; now right|].
  exists (y :: m). cbn. rewrite E. cbn. now rewrite M.
Qed.
Lemma mapM_map {A B C} (f : B -> result C) (g : A -> B) (k : A -> C) l : (forall x, In x l -> f (g x) = Ok (k x)) -> mapM f (map g l) = Ok (map k l).
Proof.
  induction l as [|a l IH]; intros H; [reflexivity|]. cbn. rewrite H by now left. cbn. rewrite IH by (intros; apply H; now right). reflexivity.
Qed.
Lemma mapM_same_length {A B} (f : A -> result B) l m : mapM f l = Ok m -> length m = length l.
Proof.
  revert m. induction l as [|a l IH]; intros m E; cbn in E; [injection E as <-; reflexivity|].
  destruct (f a); [|discriminate]. cbn in E. destruct (mapM f l); [|discriminate]. injection E as <-. cbn. now rewrite (IH _ eq_refl).
Qed.
(** ** matrices *)
Lemma normalize_at data h st et ty out i row : (0 < h_sr h)%Q -> on_axis h st et -> normalize data h st et ty = Ok out -> nth_error data i = Some row ->
  exists row', nth_error out i = Some row' /\ normalize_row ty (lag_index h st) (lag_index h et) row = Ok row'.
Proof. intros P A E N. unfold normalize in E. rewrite range_on_axis in E by assumption. destruct (mapM_at _ _ _ _ _ E N) as [y [Y F]]. eauto. Qed.
Lemma normalize_answers data h st et ty : (0 < h_sr h)%Q -> on_axis h st et -> ty <> OtherNorm ->
  (forall row, In row data -> length row = h_npts h /\ window_of h st et row <> []) -> exists out, normalize data h st et ty = Ok out /\ length out = length data.
Proof.
  intros P A T H. unfold normalize. rewrite range_on_axis by assumption.
  destruct (mapM_total (normalize_row ty (lag_index h st) (lag_index h et)) data) as [m M].
  - intros row I. destruct (H row I) as [L W]. unfold normalize_row. rewrite window_spec by assumption.
    destruct ty; try contradiction; cbn [norm_of bind]; unfold plain_max; try (eexists; reflexivity); destruct (window_of h st et row); try contradiction; cbn [bind]; eexists; reflexivity.
  - exists m. split; [exact M|]. now apply mapM_same_length in M.
Qed.
Lemma normalize_other data h st et : (0 < h_sr h)%Q -> on_axis h st et -> data <> [] -> normalize data h st et OtherNorm = Raise ValueError.
Proof. intros P A D. unfold normalize. rewrite range_on_axis by assumption. destruct data; [contradiction|]. reflexivity. Qed.
Lemma normalize_outside data h st et ty : (0 < h_sr h)%Q -> (0 < h_npts h)%nat ->
  (exists t, st = Some t /\ (t < h_lag h)%Q) \/ (exists t, et = Some t /\ (lag_at h (h_npts h) <= t)%Q) -> normalize data h st et ty = Ok data.
Proof.
  intros P N H. unfold normalize. replace (out_of_range h (lag_index h st) (lag_index h et)) with true; [reflexivity|]. symmetry. unfold out_of_range. apply orb_true_iff.
  destruct H as [[t [-> H]]|[t [-> H]]]; [left|right]; cbn [lag_index option_map].
  - apply Z.ltb_lt. apply Qlt_not_le in H. rewrite index_nonneg in H by exact P. lia.
  - assert (X : (Z.of_nat (h_npts h) <= Qfloor ((t - h_lag h) * h_sr h))%Z) by (apply Qle_not_lt in H; rewrite index_below in H by exact P; lia).
    apply andb_true_iff. split; [apply negb_true_iff, Z.eqb_neq; lia|now apply Z.leb_le].
Qed.
(** the end of the window before the first sample *)
Lemma normalize_before h k (x : list R) ty : (0 < h_sr h)%Q -> length x = h_npts h -> (0 < k < h_npts h)%nat ->
  let et := (h_lag h - inject_Z (Z.of_nat k) / h_sr h)%Q in
  norm_window None (lag_index h (Some et)) (map Some x) = map Some (firstn (h_npts h - k) x) /\ out_of_range h None (lag_index h (Some et)) = false /\
  normalize [map Some x] h None (Some et) ty = (do n <- norm_of ty (map Some (firstn (h_npts h - k) x)); Ok [map (fun s => sdiv s (no_zero n)) (map Some x)]).
Proof.
  intros P L K et. assert (E : lag_index h (Some et) = Some (- Z.of_nat k)%Z).
  { unfold lag_index, et. cbn [option_map]. f_equal. setoid_replace ((h_lag h - inject_Z (Z.of_nat k) / h_sr h - h_lag h) * h_sr h)%Q with (inject_Z (- Z.of_nat k)).
    - apply Qfloor_Z.
    - rewrite inject_Z_opp. field. intros C. rewrite C in P. now apply Qlt_irrefl in P. }
  rewrite E. assert (W : norm_window None (Some (- Z.of_nat k)%Z) (map Some x) = map Some (firstn (h_npts h - k) x)).
  { unfold norm_window, pyslice, norm_index. rewrite map_length, L. cbn [Z.ltb Z.compare]. destruct (- Z.of_nat k <? 0)%Z eqn:F; [|apply Z.ltb_ge in F; lia].
    cbn [Z.to_nat]. rewrite Nat.min_0_l, Nat.sub_0_r. cbn [skipn]. rewrite firstn_map. f_equal. f_equal. lia. }
  split; [exact W|]. assert (O : out_of_range h None (Some (- Z.of_nat k)%Z) = false).
  { unfold out_of_range. cbn [orb]. apply andb_false_iff. right. apply Z.leb_gt. lia. }
  split; [exact O|]. unfold normalize. rewrite E. cbn [lag_index option_map]. rewrite O. cbn [mapM]. unfold normalize_row. rewrite W. destruct (norm_of _ _); reflexivity.
Qed.
(** scaling a row beforehand makes no difference *)
Lemma window_scale h st et c x : window_of h st et (map (fun v => c * v) x) = map (fun v => c * v) (window_of h st et x). Proof. apply window_map. Qed.
Lemma norm_scale ty c (w : list R) n : 0 < c -> norm_of ty (map Some w) = Ok (Some n) -> norm_of ty (map Some (map (fun v => c * v) w)) = Ok (Some (c * n)).
Proof.
  intros C. destruct w as [|v w]; [destruct ty; discriminate|]. set (l := v :: w). assert (Ne : l <> []) by discriminate. assert (Ne' : map (fun v => c * v) l <> []) by discriminate.
  destruct ty; cbn [norm_of]; try discriminate; rewrite ?plain_mean_some, ?plain_max_some by assumption; cbn [option_map]; intros [= <-]; do 2 f_equal.
  - rewrite map_map. rewrite (map_ext _ (fun v => v * v * (c * c))) by (intros; ring). rewrite <- (map_map (fun v => v * v) (fun u => u * (c * c))), average_scale.
    rewrite Rmult_comm, sqrt_mult_alt by (apply Rlt_le, Rmult_lt_0_compat; lra). now rewrite sqrt_square by lra.
  - rewrite map_map. rewrite (map_ext _ (fun v => Rabs v * c)) by (intros; rewrite Rabs_mult, (Rabs_pos_eq c) by lra; ring). rewrite <- (map_map Rabs (fun u => u * c)), average_scale. apply Rmult_comm.
  - rewrite !map_id. apply rmax_scale. lra.
  - rewrite map_map. rewrite (map_ext _ (fun v => c * Rabs v)) by (intros; rewrite Rabs_mult, (Rabs_pos_eq c) by lra; ring). rewrite <- (map_map Rabs (fun u => c * u)). apply rmax_scale. lra.
Qed.
Lemma scale_row h st et c x ty n : (0 < h_sr h)%Q -> length x = h_npts h -> on_axis h st et -> 0 < c ->
  norm_of ty (map Some (window_of h st et x)) = Ok (Some n) -> n <> 0 ->
  normalize_row ty (lag_index h st) (lag_index h et) (map Some (map (fun v => c * v) x)) = normalize_row ty (lag_index h st) (lag_index h et) (map Some x).
Proof.
  intros P L A C E N. rewrite !row_norm; try assumption; [|now rewrite map_length]. rewrite window_scale, (norm_scale ty c _ n C E), E. cbn [bind]. f_equal.
  rewrite !scaled_div by (try assumption; intros X; apply Rmult_integral in X; destruct X; lra). f_equal. unfold scaled. rewrite map_map. apply map_ext. intros v. field. lra.
Qed.

(** ** percentiles *)
Lemma rleb_iff a b : rleb a b = true <-> a <= b. Proof. unfold rleb. destruct (Rle_dec a b); split; auto; discriminate. Qed.
Lemma sort_nth l i j d : (i <= j < length l)%nat -> nth i (sort rleb l) d <= nth j (sort rleb l) d.
Proof.
  intros H. assert (S : StronglySorted (le_rel rleb) (sort rleb l)).
  { apply sort_sorted.
    - intros a b. rewrite !rleb_iff. lra.
    - intros a b c. rewrite !rleb_iff. lra. }
  rewrite <- (sort_length rleb l) in H. revert i j H. induction S as [|v r S IH F]; intros i j H; [cbn in H; lia|].
  destruct i; destruct j; cbn [nth]; try lra; cbn [length] in H.
  - rewrite Forall_forall in F. apply rleb_iff, F, nth_In. lia.
  - lia.
  - apply IH. lia.
Qed.
Definition pct_pos (n : nat) (p : Q) : Q := (p / 100 * inject_Z (Z.of_nat n - 1))%Q.
Lemma pos_bounds n p : (1 <= n)%nat -> (0 <= p)%Q -> (p <= 100)%Q -> (0 <= Qfloor (pct_pos n p) <= Z.of_nat n - 1)%Z.
Proof.
  intros N P0 P1. assert (Z0 : (0 <= inject_Z (Z.of_nat n - 1))%Q) by (change 0%Q with (inject_Z 0); rewrite <- Zle_Qle; lia).
  assert (D0 : (0 <= p / 100)%Q) by (apply Qle_shift_div_l; [reflexivity|]; rewrite Qmult_0_l; exact P0).
  assert (D1 : (p / 100 <= 1)%Q) by (apply Qle_shift_div_r; [reflexivity|]; rewrite Qmult_1_l; exact P1). unfold pct_pos. split.
  - change 0%Z with (Qfloor (inject_Z 0)). apply Qfloor_resp_le. now apply Qmult_le_0_compat.
  - transitivity (Qfloor (inject_Z (Z.of_nat n - 1))); [|rewrite Qfloor_Z; lia]. apply Qfloor_resp_le.
    setoid_replace (inject_Z (Z.of_nat n - 1)) with (1 * inject_Z (Z.of_nat n - 1))%Q at 2 by ring. now apply Qmult_le_compat_r.
Qed.
Lemma pos_below n p : (2 <= n)%nat -> (0 <= p)%Q -> (p < 100)%Q -> (Qfloor (pct_pos n p) <= Z.of_nat n - 2)%Z.
Proof.
  intros N P0 P1. assert (X : (pct_pos n p < inject_Z (Z.of_nat n - 1))%Q).
  { unfold pct_pos. assert (Z0 : (0 < inject_Z (Z.of_nat n - 1))%Q) by (change 0%Q with (inject_Z 0); rewrite <- Zlt_Qlt; lia).
    setoid_replace (inject_Z (Z.of_nat n - 1)) with (1 * inject_Z (Z.of_nat n - 1))%Q at 2 by ring. apply Qmult_lt_r; [exact Z0|]. apply Qlt_shift_div_r; [reflexivity|]. now rewrite Qmult_1_l. }
  assert (Y : (inject_Z (Qfloor (pct_pos n p)) < inject_Z (Z.of_nat n - 1))%Q) by (eapply Qle_lt_trans; [apply Qfloor_le|exact X]). rewrite <- Zlt_Qlt in Y. lia.
Qed.
Lemma frac_bounds q : 0 <= Q2R (q - inject_Z (Qfloor q)) < 1.
Proof.
  replace 0 with (Q2R 0) by (unfold Q2R; cbn; lra). replace 1 with (Q2R 1) by (unfold Q2R; cbn; lra). split.
  - apply Qle_Rle. unfold Qminus. rewrite <- Qle_minus_iff. apply Qfloor_le.
  - apply Qlt_Rlt. assert (X := Qlt_floor q). rewrite inject_Z_plus in X. rewrite Qlt_minus_iff in *. setoid_replace (1 + - (q - inject_Z (Qfloor q)))%Q with (inject_Z (Qfloor q) + inject_Z 1 + - q)%Q by (change (inject_Z 1) with 1%Q; ring). exact X.
Qed.
Lemma filter_len_le {A} (g : A -> bool) l : (length (filter g l) <= length l)%nat.
Proof. induction l as [|v l IH]; cbn; [lia|]. destruct (g v); cbn; lia. Qed.
Lemma perm_filter {A} (g : A -> bool) l l' : Permutation l l' -> Permutation (filter g l) (filter g l').
Proof.
  intros X. induction X as [|v r t X IH|v u r|r t q X IH Y IH']; cbn [filter].
  - constructor.
  - destruct (g v); [apply perm_skip|]; exact IH.
  - destruct (g v), (g u); try reflexivity. apply perm_swap.
  - now transitivity (filter g t).
Qed.
Section Percentile.
  Context (l : list R) (p : Q).
  Hypothesis N : l <> [].
  Hypothesis P0 : (0 <= p)%Q.
  Hypothesis P1 : (p <= 100)%Q.
  Let n := length l.
  Let s := sort rleb l.
  Let lo := Z.to_nat (Qfloor (pct_pos n p)).
  Let f := Q2R (pct_pos n p - inject_Z (Qfloor (pct_pos n p))).
  Lemma pct_def : percentile l p = nth lo s 0 + f * (nth (S lo) s (nth lo s 0) - nth lo s 0). Proof. reflexivity. Qed.
  Lemma n_pos : (1 <= n)%nat. Proof. unfold n. destruct l; [contradiction|]. cbn. lia. Qed.
  Lemma lo_bound : (lo < n)%nat. Proof. assert (X := pos_bounds n p n_pos P0 P1). unfold lo. assert (Y := n_pos). lia. Qed.
  Lemma next_ge : nth lo s 0 <= nth (S lo) s (nth lo s 0).
  Proof.
    destruct (Nat.lt_ge_cases (S lo) n) as [H|H].
    - rewrite (nth_indep s (nth lo s 0) 0) by (unfold s; rewrite sort_length; exact H). apply sort_nth. unfold n in H. lia.
    - rewrite (nth_overflow s (nth lo s 0)) by (unfold s; rewrite sort_length; exact H). lra.
  Qed.
  Lemma pct_ge i : (i <= lo)%nat -> nth i s 0 <= percentile l p.
  Proof.
    intros H. rewrite pct_def. assert (A := next_ge). assert (B := frac_bounds (pct_pos n p)). fold f in B. assert (C := lo_bound).
    assert (D : nth i s 0 <= nth lo s 0) by (apply sort_nth; unfold n in C; lia).
    assert (E : 0 <= f * (nth (S lo) s (nth lo s 0) - nth lo s 0)) by (apply Rmult_le_pos; lra). lra.
  Qed.
  (** how many values are larger *)
  Lemma pct_count : (length (filter (fun v => if Rlt_dec (percentile l p) v then true else false) l) <= n - 1 - lo)%nat.
  Proof.
    set (g := fun v => if Rlt_dec (percentile l p) v then true else false).
    assert (E : length (filter g l) = length (filter g s)).
    { apply Permutation_length, perm_filter. symmetry. apply sort_perm. }
    rewrite E. rewrite <- (firstn_skipn (S lo) s), filter_app, app_length. assert (F : filter g (firstn (S lo) s) = []).
    { assert (Z : forall v, In v (firstn (S lo) s) -> g v = false).
      { intros v I. apply (In_nth _ _ 0) in I. destruct I as [i [I <-]]. rewrite firstn_length in I. 
        assert (W : nth i (firstn (S lo) s) 0 = nth i s 0) by (rewrite <- (firstn_skipn (S lo) s) at 2; rewrite app_nth1; [reflexivity|rewrite firstn_length; exact I]).
        rewrite W. unfold g. destruct (Rlt_dec _ _) as [C|C]; [|reflexivity]. exfalso. assert (Q := pct_ge i ltac:(lia)). lra. }
      clear -Z. induction (firstn (S lo) s) as [|v r IH]; [reflexivity|]. cbn. rewrite Z by now left. apply IH. intros w I. apply Z. now right. }
    rewrite F. cbn [length]. rewrite Nat.add_0_l. etransitivity; [apply filter_len_le|]. rewrite skipn_length. unfold s. rewrite sort_length. fold n. lia.
  Qed.
End Percentile.
Lemma pct_hundred l v : l <> [] -> In v l -> v <= percentile l 100.
Proof.
  intros N I. assert (H := pct_count l 100 N ltac:(discriminate) ltac:(discriminate)).
  assert (F : Z.to_nat (Qfloor (pct_pos (length l) 100)) = (length l - 1)%nat).
  { unfold pct_pos. setoid_replace (100 / 100 * inject_Z (Z.of_nat (length l) - 1))%Q with (inject_Z (Z.of_nat (length l) - 1)) by field. rewrite Qfloor_Z. lia. }
  rewrite F in H. apply Rnot_lt_le. intros C.
  assert (I' : In v (filter (fun v => if Rlt_dec (percentile l 100) v then true else false) l)) by (apply filter_In; split; [exact I|]; destruct (Rlt_dec _ _); [reflexivity|contradiction]).
  destruct (filter _ l); [destruct I'|cbn [length] in H; lia].
Qed.
Lemma pct_equal l p v : l <> [] -> (0 <= p)%Q -> (p <= 100)%Q -> (forall u, In u l -> u = v) -> percentile l p = v.
Proof.
  intros N P0 P1 H. assert (S : forall i d, (i < length l)%nat -> nth i (sort rleb l) d = v).
  { intros i d L. apply H. apply (sort_in rleb). apply nth_In. now rewrite sort_length. }
  rewrite pct_def. assert (B := lo_bound l p N P0 P1). rewrite (S _ 0 B).
  destruct (Nat.lt_ge_cases (Datatypes.S (Z.to_nat (Qfloor (pct_pos (length l) p)))) (length l)) as [L|L].
  - rewrite S by exact L. lra.
  - rewrite (nth_overflow _ v) by (rewrite sort_length; exact L). lra.
Qed.
Lemma count_two (l : list R) v : forall i, (S i < length l)%nat -> nth i l 0 = v -> nth (S i) l 0 = v -> (2 <= count_occ Req_EM_T l v)%nat.
Proof.
  induction l as [|a l IH]; intros i L A B; [cbn in L; lia|]. destruct i.
  - cbn in A. subst a. destruct l as [|b l]; [cbn in L; lia|]. cbn in B. subst b. cbn. destruct (Req_EM_T v v); [|contradiction]. lia.
  - cbn [nth] in A, B. cbn [length] in L. assert (X := IH i ltac:(lia) A B). cbn. destruct (Req_EM_T a v); lia.
Qed.
Lemma count_one (l : list R) : forall i, (i < length l)%nat -> (forall j, (j < length l)%nat -> j <> i -> nth j l 0 <> nth i l 0) -> count_occ Req_EM_T l (nth i l 0) = 1%nat.
Proof.
  induction l as [|a l IH]; intros i L U; [cbn in L; lia|]. destruct i.
  - cbn [nth]. cbn. destruct (Req_EM_T a a); [|contradiction]. f_equal. apply count_occ_not_In. intros I. apply (In_nth _ _ 0) in I. destruct I as [j [J E]].
    apply (U (S j)); [cbn; lia|discriminate|exact E].
  - cbn [nth]. cbn. destruct (Req_EM_T a (nth i l 0)) as [E|E].
    + exfalso. apply (U 0%nat); [cbn; lia|lia|]. exact E.
    + apply IH; [cbn in L; lia|]. intros j J D. apply (U (S j)); [cbn; lia|lia].
Qed.
Lemma pct_below_best l p i : (2 <= length l)%nat -> (0 <= p)%Q -> (p < 100)%Q -> (i < length l)%nat -> (forall j, (j < length l)%nat -> j <> i -> nth j l 0 < nth i l 0) ->
  percentile l p < nth i l 0.
Proof.
  intros N P0 P1 I U. assert (Ne : l <> []) by (intros E; rewrite E in N; cbn in N; lia).
  assert (C : count_occ Req_EM_T (sort rleb l) (nth i l 0) = 1%nat).
  { transitivity (count_occ Req_EM_T l (nth i l 0)); [|apply count_one; [exact I|]; intros j J D; specialize (U j J D); lra].
    apply (Permutation_count_occ Req_EM_T). apply sort_perm. }
  assert (B : (Z.to_nat (Qfloor (pct_pos (length l) p)) <= length l - 2)%nat) by (assert (X := pos_below (length l) p N P0 P1); lia).
  rewrite pct_def. set (lo := Z.to_nat (Qfloor (pct_pos (length l) p))) in *. set (f := Q2R _). assert (F := frac_bounds (pct_pos (length l) p)). fold f in F.
  rewrite (nth_indep (sort rleb l) (nth lo (sort rleb l) 0) 0) by (rewrite sort_length; lia).
  assert (M : forall k, (k < length l)%nat -> nth k (sort rleb l) 0 <= nth i l 0).
  { intros k K. assert (J : In (nth k (sort rleb l) 0) l) by (apply (sort_in rleb), nth_In; now rewrite sort_length).
    apply (In_nth _ _ 0) in J. destruct J as [j [J <-]]. destruct (Nat.eq_dec j i) as [->|D]; [lra|]. specialize (U j J D). lra. }
  assert (A1 := M lo ltac:(lia)). assert (A2 := M (S lo) ltac:(lia)). assert (A3 := sort_nth l lo (S lo) 0 ltac:(lia)).
  destruct (Rlt_dec (nth lo (sort rleb l) 0) (nth i l 0)) as [S1|S1].
  - set (a := nth lo _ 0) in *. set (b := nth (S lo) _ 0) in *. set (m := nth i l 0) in *.
    assert (X : a + f * (b - a) <= a + f * (m - a)) by (apply Rplus_le_compat_l, Rmult_le_compat_l; lra).
    assert (Y : f * (m - a) < 1 * (m - a)) by (apply Rmult_lt_compat_r; lra). lra.
  - exfalso. assert (E1 : nth lo (sort rleb l) 0 = nth i l 0) by lra. assert (E2 : nth (S lo) (sort rleb l) 0 = nth i l 0) by lra.
    assert (X := count_two (sort rleb l) (nth i l 0) lo ltac:(rewrite sort_length; lia) E1 E2). lia.
Qed.

(** ** reference traces *)
Lemma masked_mean_spec l : masked_mean l = match values l with [] => None | v => Some (average v) end.
Proof. unfold masked_mean. change (values l) with (existing l). destruct (existing l); [reflexivity|]. now rewrite mean_average. Qed.
Lemma mean_trace_at m c : (c < width m)%nat -> nth c (mean_trace m) None = match values (column c m) with [] => None | v => Some (average v) end.
Proof. intros H. unfold mean_trace. rewrite nth_map_seq by exact H. apply masked_mean_spec. Qed.
Lemma values_some l : values (map Some l) = l. Proof. induction l as [|v l IH]; [reflexivity|]. cbn. now rewrite <- IH at 2. Qed.
Lemma column_some c ns : (forall x, In x ns -> (c < length x)%nat) -> column c (map (map Some) ns) = map Some (map (fun x => nth c x 0) ns).
Proof.
  intros H. unfold column. rewrite !map_map. apply map_ext_in. intros x I. rewrite (nth_indep _ None (Some 0)) by (rewrite map_length; now apply H). now rewrite map_nth.
Qed.
Lemma fold_total l : fold_right Rplus 0 l = total l. Proof. induction l as [|v l IH]; [reflexivity|]. cbn. now rewrite IH. Qed.
Lemma dot_inner x y : dot x y = inner x y. Proof. apply fold_total. Qed.
Lemma inner_pos x v : In v x -> v <> 0 -> 0 < inner x x.
Proof.
  intros I N. unfold inner. assert (E : map (fun p : R * R => fst p * snd p) (combine x x) = map (fun v => v * v) x) by (clear; induction x as [|a x IH]; [reflexivity|]; cbn; now rewrite IH).
  rewrite E. apply (total_pos _ (v * v)).
  - intros u H. apply in_map_iff in H. destruct H as [z [<- _]]. apply Rle_0_sqr.
  - apply in_map_iff. eauto.
  - now apply Rsqr_pos_lt.
Qed.
Lemma similarity_cosine x y : (exists v, In v x /\ v <> 0) -> (exists v, In v y /\ v <> 0) -> similarity x y = Some (cosine x y).
Proof.
  intros [v [I N]] [u [J M]]. unfold similarity. rewrite (dot_inner x x), (dot_inner y y), (dot_inner x y). assert (A := inner_pos x v I N). assert (B := inner_pos y u J M).
  assert (C : 0 < sqrt (inner x x * inner y y)) by (apply sqrt_lt_R0, Rmult_lt_0_compat; assumption).
  destruct (Req_EM_T _ 0) as [E|_]; [lra|reflexivity].
Qed.
Lemma combine_seq {A B} (a : list A) (b : list B) da db : length a = length b -> combine a b = map (fun i => (nth i a da, nth i b db)) (seq 0 (length a)).
Proof.
  revert b. induction a as [|x a IH]; intros [|y b] L; try discriminate; [reflexivity|]. cbn [combine length seq map nth]. f_equal.
  rewrite <- seq_shift, map_map. injection L as L. now rewrite IH.
Qed.
(** the whole row is the window *)
Lemma whole_window {A} h (l : list A) : window_of h None None l = l.
Proof.
  unfold window_of. rewrite (filter_ext _ (fun _ => true)) by reflexivity. assert (E : forall m : list (nat * A), filter (fun _ => true) m = m) by (induction m as [|x m IH]; [reflexivity|]; cbn; now rewrite IH).
  rewrite E. generalize 0%nat. induction l as [|x l IH]; intros s; [reflexivity|]. cbn. now rewrite IH.
Qed.
Lemma whole_norm {A} (l : list A) : norm_window None None l = l.
Proof.
  unfold norm_window, pyslice, norm_index. destruct (Z.of_nat (length l) <? 0)%Z eqn:E; [apply Z.ltb_lt in E; lia|]. cbn [Z.ltb Z.compare Z.to_nat].
  rewrite Nat.min_0_l, Nat.sub_0_r, Nat2Z.id, Nat.min_id. cbn [skipn]. apply firstn_all.
Qed.
Definition peak (x : list R) : R := rmax (map Rabs x).
Lemma peak_max x : x <> [] -> is_max (map Rabs x) (peak x).
Proof. intros H. apply rmax_is_max. intros E. apply map_eq_nil in E. contradiction. Qed.
Lemma peak_pos x : (exists v, In v x /\ v <> 0) -> 0 < peak x.
Proof. intros [v [I N]]. apply Rlt_le_trans with (Rabs v); [now apply Rabs_pos_lt|]. apply rmax_ge. now apply in_map. Qed.
Lemma is_max_unique l a b : is_max l a -> is_max l b -> a = b.
Proof. intros [I M] [J N]. apply Rle_antisym; auto. Qed.
Lemma absmax_whole x : (exists v, In v x /\ v <> 0) -> normalize_row Absmax None None (map Some x) = Ok (map Some (scaled (peak x) x)).
Proof.
  intros H. assert (P := peak_pos x H). unfold normalize_row. rewrite whole_norm. cbn [norm_of]. rewrite plain_max_some by (intros E; subst x; destruct H as [v [[] _]]). cbn [bind].
  fold (peak x). now rewrite scaled_div by lra.
Qed.
Lemma scaled_nonzero c x : c <> 0 -> (exists v, In v x /\ v <> 0) -> exists v, In v (scaled c x) /\ v <> 0.
Proof. intros C [v [I N]]. exists (v / c). split; [now apply (in_map (fun v => v / c))|]. intros E. apply N. apply (Rmult_eq_reg_r (/ c)); [|now apply Rinv_neq_0_compat]. unfold Rdiv in E. lra. Qed.

Lemma not_nil_match {A B} (l : list A) (f : list A -> B) d : l <> [] -> match l with [] => d | v :: r => f (v :: r) end = f l.
Proof. destruct l; [contradiction|reflexivity]. Qed.
Section Similar.
  Context (xs : list (list R)) (w : nat) (h : hdr) (p : Q).
  Hypothesis W : forall x, In x xs -> length x = w.
  Hypothesis S : forall x, In x xs -> exists v, In v x /\ v <> 0.
  Hypothesis Ne : xs <> [].
  Let ns := map (fun x => scaled (peak x) x) xs.
  Let m := map (fun c => average (map (fun x => nth c x 0) ns)) (seq 0 w).
  Let sims := map (fun x => cosine x m) ns.
  Lemma ns_length x : In x ns -> length x = w.
  Proof. unfold ns. rewrite in_map_iff. intros [y [<- I]]. unfold scaled. rewrite map_length. now apply W. Qed.
  Lemma normalized : normalize (map (map Some) xs) h None None Absmax = Ok (map (map Some) ns).
  Proof.
    unfold normalize. cbn [lag_index option_map out_of_range orb]. unfold ns. rewrite map_map. apply mapM_map. intros x I. apply absmax_whole. now apply S.
  Qed.
  Lemma ns_width : width (map (map Some) ns) = w.
  Proof. unfold ns. destruct xs as [|x r]; [contradiction|]. cbn. unfold scaled. rewrite !map_length. apply W. now left. Qed.
  Lemma mean_tr : mean_trace (map (map Some) ns) = map Some m.
  Proof.
    unfold mean_trace. rewrite ns_width. unfold m. rewrite map_map. apply map_ext_in. intros c I. apply in_seq in I. rewrite masked_mean_spec.
    rewrite column_some by (intros x J; rewrite (ns_length x J); lia). rewrite values_some. unfold ns. destruct xs; [contradiction|]. reflexivity.
  Qed.
  Hypothesis M : exists v, In v m /\ v <> 0.
  Lemma cors : map (cor_with (mean_trace (map (map Some) ns))) (map (map Some) ns) = map Some sims.
  Proof.
    rewrite mean_tr. unfold sims. rewrite !map_map. apply map_ext_in. intros x I. unfold cor_with. rewrite !all_samples_some.
    apply similarity_cosine; [|exact M]. unfold ns in I. apply in_map_iff in I. destruct I as [y [<- I]]. apply scaled_nonzero; [|now apply S].
    assert (X := peak_pos y (S y I)). lra.
  Qed.
  Hypothesis P0 : (0 <= p)%Q.
  Hypothesis P1 : (p <= 100)%Q.
  Let T := percentile sims p.
  Let sel := filter (fun i => if Rlt_dec T (nth i sims 0) then true else false) (seq 0 (length xs)).
  Lemma sims_length : length sims = length xs. Proof. unfold sims, ns. now rewrite !map_length. Qed.
  Lemma sims_ne : sims <> []. Proof. intros E. apply Ne. apply length_zero_iff_nil. now rewrite <- sims_length, E. Qed.
  Lemma extracted : extract_trace (map (map Some) xs) h (SimilarityPercentile p) =
    Ok (map (fun c => match sel with [] => None | _ => Some (average (map (fun i => nth c (nth i ns []) 0) sel)) end) (seq 0 w)).
  Proof.
    unfold extract_trace. rewrite normalized. cbn [bind]. rewrite cors. unfold threshold.
    replace (Qle_bool 0 p && Qle_bool p 100) with true by (symmetry; apply andb_true_iff; split; now apply Qle_bool_iff).
    change (existing (map Some sims)) with (values (map Some sims)). rewrite values_some. rewrite (not_nil_match sims (fun l => Some (percentile l p)) None sims_ne). fold T. cbn [bind]. f_equal. rewrite ns_width. unfold stack_rows.
    assert (L : length (map Some sims) = length (map (map (@Some R)) ns)) by (rewrite !map_length, sims_length; unfold ns; now rewrite map_length).
    rewrite (combine_seq _ _ None [] L). rewrite map_length, sims_length.
    assert (G : map snd (filter (fun cr => above (Some T) (fst cr)) (map (fun i => (nth i (map Some sims) None, nth i (map (map (@Some R)) ns) [])) (seq 0 (length xs)))) =
                map (map (@Some R)) (map (fun i => nth i ns []) sel)).
    { rewrite filter_map_comm, map_map. cbn [fst snd]. unfold sel. rewrite map_map.
      assert (K : filter (fun x => above (Some T) (nth x (map Some sims) None)) (seq 0 (length xs)) = filter (fun i => if Rlt_dec T (nth i sims 0) then true else false) (seq 0 (length xs))).
      { apply filter_ext_in. intros i I. apply in_seq in I. rewrite (nth_indep _ None (Some 0)) by (rewrite map_length, sims_length; lia). rewrite map_nth. reflexivity. }
      rewrite K. apply map_ext. intros i. change (@nil (option R)) with (map (@Some R) []). apply map_nth. }
    rewrite G. clear G. apply map_ext_in. intros c I. apply in_seq in I. rewrite column_some.
    - unfold plain_mean. rewrite all_samples_some. rewrite map_map. destruct sel as [|i r]; [reflexivity|]. cbn [map]. rewrite mean_average. f_equal. f_equal. f_equal. rewrite map_map. reflexivity.
    - intros x J. apply in_map_iff in J. destruct J as [i [<- J]]. apply filter_In in J. destruct J as [J _]. apply in_seq in J.
      rewrite ns_length; [lia|]. apply nth_In. unfold ns. rewrite map_length. lia.
  Qed.
  Lemma sel_best i j : In i sel -> (j < length xs)%nat -> ~ In j sel -> nth j sims 0 < nth i sims 0.
  Proof.
    intros I J N. apply filter_In in I. destruct I as [_ I]. destruct (Rlt_dec T (nth i sims 0)) as [A|A]; [|discriminate].
    assert (B : ~ T < nth j sims 0). { intros C. apply N. apply filter_In. split; [apply in_seq; lia|]. destruct (Rlt_dec T (nth j sims 0)); [reflexivity|contradiction]. } lra.
  Qed.
  Lemma sel_range i : In i sel -> (i < length xs)%nat. Proof. intros I. apply filter_In in I. destruct I as [I _]. apply in_seq in I. lia. Qed.
  Lemma sel_nodup : NoDup sel. Proof. apply NoDup_filter, seq_NoDup. Qed.
  Lemma sel_count : (length sel <= length xs - 1 - Z.to_nat (Qfloor (pct_pos (length xs) p)))%nat.
  Proof.
    assert (H := pct_count sims p sims_ne P0 P1). rewrite sims_length in H. fold T in H.
    assert (E : length sel = length (filter (fun v => if Rlt_dec T v then true else false) sims)).
    { unfold sel. rewrite <- sims_length. clear. set (g := fun v => if Rlt_dec T v then true else false).
      transitivity (length (map (fun i => nth i sims 0) (filter (fun i => g (nth i sims 0)) (seq 0 (length sims))))); [now rewrite map_length|].
      rewrite <- (filter_map_comm (fun i => nth i sims 0) g). f_equal. f_equal. apply list_eq_nth with (d := 0).
      - now rewrite map_length, seq_length.
      - intros k K. rewrite map_length, seq_length in K. now rewrite nth_map_seq. }
    rewrite E. exact H.
  Qed.
  Lemma sel_unique i : (2 <= length xs)%nat -> (p < 100)%Q -> (i < length xs)%nat -> (forall j, (j < length xs)%nat -> j <> i -> nth j sims 0 < nth i sims 0) -> In i sel.
  Proof.
    intros N Q I U. apply filter_In. split; [apply in_seq; lia|]. destruct (Rlt_dec T (nth i sims 0)) as [A|A]; [reflexivity|]. exfalso. apply A.
    apply pct_below_best; rewrite ?sims_length; assumption.
  Qed.
  Lemma sel_hundred : p = 100%Q -> sel = [].
  Proof.
    intros E. apply length_zero_iff_nil. assert (H := sel_count). rewrite E in H.
    replace (Z.to_nat (Qfloor (pct_pos (length xs) 100))) with (length xs - 1)%nat in H; [lia|].
    unfold pct_pos. setoid_replace (100 / 100 * inject_Z (Z.of_nat (length xs) - 1))%Q with (inject_Z (Z.of_nat (length xs) - 1)) by field. rewrite Qfloor_Z. lia.
  Qed.
  Lemma sel_equal s : (forall j, (j < length xs)%nat -> nth j sims 0 = s) -> sel = [].
  Proof.
    intros H. assert (E : T = s). { apply pct_equal; [exact sims_ne|exact P0|exact P1|]. intros u I. apply (In_nth _ _ 0) in I. destruct I as [j [J <-]]. apply H. now rewrite <- sims_length. }
    destruct sel as [|i r] eqn:F; [reflexivity|]. assert (I : In i sel) by (rewrite F; now left). assert (R := sel_range i I). apply filter_In in I. destruct I as [_ I].
    destruct (Rlt_dec T (nth i sims 0)) as [A|A]; [|discriminate]. rewrite (H i R) in A. lra.
  Qed.
End Similar.

(** identical traces *)
Lemma average_const (c : R) k : (0 < k)%nat -> average (repeat c k) = c.
Proof.
  intros K. unfold average. rewrite repeat_length. replace (total (repeat c k)) with (INR k * c).
  - field. apply not_0_INR. lia.
  - clear. induction k as [|k IH]; [cbn; lra|]. rewrite S_INR. cbn [repeat total]. rewrite <- IH. ring.
Qed.
Lemma map_repeat' {A B} (f : A -> B) x k : map f (repeat x k) = repeat (f x) k.
Proof. induction k as [|k IH]; [reflexivity|]. cbn. now rewrite IH. Qed.
Lemma identical_nan x k h p : (exists v, In v x /\ v <> 0) -> (0 < k)%nat -> (0 <= p)%Q -> (p <= 100)%Q ->
  extract_trace (repeat (map Some x) k) h (SimilarityPercentile p) = Ok (map (fun _ => None) x).
Proof.
  intros N K P0 P1. rewrite <- (map_repeat' (map Some)).
  assert (W : forall y, In y (repeat x k) -> length y = length x) by (intros y I; apply repeat_spec in I; now subst y).
  assert (S : forall y, In y (repeat x k) -> exists v, In v y /\ v <> 0) by (intros y I; apply repeat_spec in I; now subst y).
  assert (Ne : repeat x k <> []) by (destruct k; [lia|discriminate]). assert (PK := peak_pos x N).
  assert (M : exists v, In v (map (fun c => average (map (fun x0 => nth c x0 0) (map (fun x0 => scaled (peak x0) x0) (repeat x k)))) (seq 0 (length x))) /\ v <> 0).
  { destruct (scaled_nonzero (peak x) x ltac:(lra) N) as [v [I V]]. exists v. split; [|exact V]. apply (In_nth _ _ 0) in I. destruct I as [c [C I]]. unfold scaled in C. rewrite map_length in C.
    apply in_map_iff. exists c. split; [|apply in_seq; lia]. rewrite !map_repeat'. rewrite average_const by exact K. exact I. }
  rewrite (extracted (repeat x k) (length x) h p W S Ne M P0 P1).
  set (sims := map _ (map _ (repeat x k))).
  assert (E : exists s, forall j, (j < length (repeat x k))%nat -> nth j sims 0 = s).
  { unfold sims. rewrite !map_repeat'. eexists. intros j J. rewrite repeat_length in J. eapply repeat_spec. apply nth_In. rewrite repeat_length. exact J. }
  destruct E as [s E]. assert (F := sel_equal (repeat x k) (length x) p W S Ne P0 P1 s E). fold sims in F. rewrite F.
  f_equal. clear. generalize 0%nat. induction x as [|v x IH]; intros o; [reflexivity|]. cbn. f_equal. apply IH.
Qed.
(** ** averages of normalised traces *)
Definition bounded (o : option R) : Prop := match o with Some v => -1 <= v <= 1 | None => True end.
Lemma all_samples_inv row l : all_samples row = Some l -> row = map Some l.
Proof.
  revert l. induction row as [|[v|] row IH]; intros l E; cbn in E; [injection E as <-; reflexivity| |discriminate].
  destruct (all_samples row); [|discriminate]. injection E as <-. cbn. now rewrite (IH _ eq_refl).
Qed.
Lemma absmax_bounded row row' : normalize_row Absmax None None row = Ok row' -> Forall bounded row'.
Proof.
  unfold normalize_row. rewrite whole_norm. cbn [norm_of]. unfold plain_max. destruct row as [|o t] eqn:R; [discriminate|]. rewrite <- R. clear R. set (r := row). cbn [bind]. intros [= <-].
  apply Forall_forall. intros u I. apply in_map_iff in I. destruct I as [z [<- I]]. destruct (all_samples r) as [l|] eqn:E; cbn [option_map no_zero].
  - apply all_samples_inv in E. rewrite E in I. apply in_map_iff in I. destruct I as [v [<- I]]. assert (A := rmax_ge (map Rabs l) (Rabs v) (in_map _ _ _ I)).
    destruct (Req_EM_T (rmax (map Rabs l)) 0) as [Z|Z]; cbn [sdiv bounded].
    + rewrite Z in A. assert (B := Rabs_pos v). assert (V : v = 0). { destruct (Req_dec v 0) as [V|V]; [exact V|]. apply Rabs_pos_lt in V. lra. } subst v. lra.
    + assert (B := Rabs_pos v). set (q := rmax (map Rabs l)) in *. assert (Q : 0 < q) by lra. assert (C : Rabs (v / q) <= 1).
      { unfold Rdiv. rewrite Rabs_mult, (Rabs_pos_eq (/ q)) by (left; now apply Rinv_0_lt_compat). apply (Rmult_le_reg_r q); [exact Q|]. rewrite Rmult_assoc, Rinv_l by lra. lra. }
      assert (D := Rle_abs (v / q)). assert (D' := Rle_abs (- (v / q))). rewrite Rabs_Ropp in D'. lra.
  - destruct z; exact Logic.I.
Qed.
Lemma average_between a b l : l <> [] -> (forall v, In v l -> a <= v <= b) -> a <= average l <= b.
Proof.
  intros N H. assert (T : INR (length l) * a <= total l <= INR (length l) * b).
  { clear N. induction l as [|v l IH]; [cbn; lra|]. cbn [length total]. rewrite S_INR. assert (X := H v (or_introl eq_refl)). assert (Y := IH (fun u I => H u (or_intror I))). lra. }
  assert (P : 0 < INR (length l)) by (apply lt_0_INR; destruct l; [contradiction|cbn; lia]). unfold average. split.
  - apply (Rmult_le_reg_r (INR (length l))); [exact P|]. unfold Rdiv. rewrite Rmult_assoc, Rinv_l by lra. lra.
  - apply (Rmult_le_reg_r (INR (length l))); [exact P|]. unfold Rdiv. rewrite Rmult_assoc, Rinv_l by lra. lra.
Qed.
Lemma mapM_in {A B} (f : A -> result B) l m y : mapM f l = Ok m -> In y m -> exists x, In x l /\ f x = Ok y.
Proof.
  revert m. induction l as [|a l IH]; intros m E I; cbn in E; [injection E as <-; destruct I|].
  destruct (f a) eqn:F; [|discriminate]. cbn in E. destruct (mapM f l); [|discriminate]. injection E as <-. destruct I as [<-|I]; [exists a; split; [now left|exact F]|].
  destruct (IH _ eq_refl I) as [x [J X]]. exists x. split; [now right|exact X].
Qed.
Lemma values_cons o l : values (o :: l) = match o with Some v => v :: values l | None => values l end. Proof. destruct o; reflexivity. Qed.
Lemma values_in l v : In v (values l) -> In (Some v) l.
Proof. intros I. apply in_flat_map in I. destruct I as [[u|] [I J]]; [|destruct J]. destruct J as [->|[]]. exact I. Qed.
Lemma norm_mean_bounded data h out v : extract_trace data h NormMean = Ok out -> In (Some v) out -> -1 <= v <= 1.
Proof.
  unfold extract_trace. destruct (normalize data h None None Absmax) as [n|] eqn:E; [|discriminate]. cbn [bind]. intros [= <-] I.
  unfold normalize in E. cbn [lag_index option_map out_of_range orb] in E. apply in_map_iff in I. destruct I as [c [M _]]. rewrite masked_mean_spec in M.
  assert (B : forall u, In u (values (column c n)) -> -1 <= u <= 1).
  { intros u J. apply values_in in J. apply in_map_iff in J. destruct J as [row [R J]]. destruct (mapM_in _ _ _ _ E J) as [x [_ X]]. apply absmax_bounded in X.
    destruct (nth_in_or_default c row None) as [K|K]; [|congruence]. rewrite R in K. rewrite Forall_forall in X. exact (X _ K). }
  destruct (values (column c n)) as [|u l] eqn:V; [discriminate|]. injection M as <-. apply average_between; [discriminate|exact B].
Qed.
Lemma complete_false row : complete row = false -> In None row.
Proof.
  unfold complete. induction row as [|[v|] row IH]; cbn; intros H; [discriminate|right; now apply IH|now left].
Qed.
Lemma absmax_missing row : In None row -> normalize_row Absmax None None row = Ok (map (fun _ => None) row).
Proof.
  intros I. unfold normalize_row. rewrite whole_norm. cbn [norm_of]. unfold plain_max. destruct row as [|o t] eqn:E; [destruct I|]. rewrite <- E in *. rewrite (all_samples_none _ I). cbn [option_map bind].
  f_equal. apply map_ext. intros [v|]; reflexivity.
Qed.
Lemma absmax_ok row : row <> [] -> exists y, normalize_row Absmax None None row = Ok y /\ length y = length row.
Proof.
  intros N. unfold normalize_row. rewrite whole_norm. cbn [norm_of]. unfold plain_max. destruct row; [contradiction|]. cbn [bind]. eexists. split; [reflexivity|]. now rewrite map_length.
Qed.
Lemma column_missing data : forall n n' c, (forall row, In row data -> row <> []) -> mapM (normalize_row Absmax None None) data = Ok n ->
  mapM (normalize_row Absmax None None) (filter complete data) = Ok n' -> values (column c n) = values (column c n').
Proof.
  induction data as [|row data IH]; intros n n' c N E F; cbn in E, F; [injection E as <-; injection F as <-; reflexivity|].
  destruct (normalize_row Absmax None None row) as [y|] eqn:Y; [|discriminate]. cbn in E. destruct (mapM (normalize_row Absmax None None) data) as [m|] eqn:M; [|discriminate]. injection E as <-.
  destruct (complete row) eqn:C.
  - cbn in F. rewrite Y in F. cbn in F. destruct (mapM _ (filter complete data)) as [m'|] eqn:M'; [|discriminate]. injection F as <-.
    assert (X := IH m m' c (fun r I => N r (or_intror I)) eq_refl eq_refl). unfold column in *. cbn [map]. rewrite !values_cons, X. reflexivity.
  - apply complete_false in C. apply absmax_missing in C. rewrite C in Y. injection Y as <-. rewrite <- (IH m n' c (fun r I => N r (or_intror I)) eq_refl F).
    unfold column. cbn [map]. replace (nth c (map (fun _ : option R => None) row) None) with (@None R); [reflexivity|]. symmetry.
    destruct (nth_in_or_default c (map (fun _ : option R => @None R) row) None) as [I|I]; [|exact I]. apply in_map_iff in I. destruct I as [z [I _]]. now rewrite <- I.
Qed.
Lemma width_first n w : n <> [] -> (forall y, In y n -> length y = w) -> width n = w.
Proof. intros N H. destruct n; [contradiction|]. apply H. now left. Qed.
Lemma rows_width data n w : mapM (normalize_row Absmax None None) data = Ok n -> (forall row, In row data -> length row = w) -> (0 < w)%nat -> forall y, In y n -> length y = w.
Proof.
  intros E H W y I. destruct (mapM_in _ _ _ _ E I) as [x [J X]]. assert (L := H x J). destruct (absmax_ok x) as [z [Z L']]; [intros ->; cbn in L; lia|]. rewrite X in Z. injection Z as <-. congruence.
Qed.
Lemma norm_mean_missing data h w : (0 < w)%nat -> (forall row, In row data -> length row = w) -> filter complete data <> [] ->
  extract_trace data h NormMean = extract_trace (filter complete data) h NormMean.
Proof.
  intros W H C. unfold extract_trace, normalize. cbn [lag_index option_map out_of_range orb].
  assert (N : forall row, In row data -> row <> []) by (intros row I ->; specialize (H _ I); cbn in H; lia).
  assert (H' : forall row, In row (filter complete data) -> length row = w) by (intros row I; apply filter_In in I; now apply H).
  destruct (mapM_total (normalize_row Absmax None None) data) as [n E]; [intros row I; destruct (absmax_ok row (N row I)) as [y [Y _]]; eauto|].
  destruct (mapM_total (normalize_row Absmax None None) (filter complete data)) as [n' E'].
  { intros row I. apply filter_In in I. destruct (absmax_ok row (N row (proj1 I))) as [y [Y _]]. eauto. }
  rewrite E, E'. cbn [bind]. f_equal. unfold mean_trace.
  assert (L := mapM_same_length _ _ _ E). assert (L' := mapM_same_length _ _ _ E').
  rewrite (width_first n w); [|intros ->; destruct data; [contradiction|discriminate]|exact (rows_width _ _ _ E H W)].
  rewrite (width_first n' w); [|intros ->; destruct (filter complete data); [contradiction|discriminate]|exact (rows_width _ _ _ E' H' W)].
  apply map_ext. intros c. rewrite !masked_mean_spec. now rewrite (column_missing data n n' c N E E').
Qed.
Lemma ns_unique xs ns : Forall2 (fun x n => exists p, is_max (map Rabs x) p /\ n = scaled p x) xs ns -> ns = map (fun x => scaled (peak x) x) xs.
Proof.
  induction 1 as [|x n xs ns [p [M ->]] F IH]; [reflexivity|]. cbn. f_equal; [|exact IH]. f_equal. apply (is_max_unique (map Rabs x)); [exact M|]. apply peak_max.
  intros ->. destruct M as [[] _].
Qed.
