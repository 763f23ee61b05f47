(** Proofs about normalising correlation traces. *)
From Coq Require Import Reals QArith Qround Qreals Lra Lia.
From Verif Require Import Lib.Base Model.LagMatrix Model.Spectral Model.TimeDomain Model.Similarity Model.Reference Spec.ReferenceSpec
  Proofs.SpectralFacts Proofs.AmplitudeFacts.
Local Open Scope nat_scope.

(** ** the window *)
Lemma filter_combine_from {A} (l : list A) : forall s a b,
  map snd (filter (fun p => (a <=? fst p) && (fst p <? b)) (combine (seq s (length l)) l)) = firstn (b - Nat.max a s) (skipn (a - s) l).
Proof.
  induction l as [|x l IH]; intros s a b; cbn [length seq combine filter map].
  - now rewrite skipn_nil, firstn_nil.
  - cbn [fst]. destruct (a <=? s) eqn:E1; cbn [andb].
    + apply Nat.leb_le in E1. replace (a - s) with 0 by lia. cbn [skipn]. destruct (s <? b) eqn:E2.
      * apply Nat.ltb_lt in E2. cbn [map snd]. rewrite IH. replace (a - S s) with 0 by lia. cbn [skipn].
        replace (b - Nat.max a s) with (S (b - Nat.max a (S s))) by lia. reflexivity.
      * apply Nat.ltb_ge in E2. rewrite IH. replace (b - Nat.max a (S s)) with 0 by lia. now replace (b - Nat.max a s) with 0 by lia.
    + apply Nat.leb_gt in E1. rewrite IH. replace (a - s) with (S (a - S s)) by lia. cbn [skipn].
      now replace (Nat.max a (S s)) with (Nat.max a s) by lia.
Qed.
Lemma lag_next h k t : (0 < h_sr h)%Q -> (lag_at h (S k) <= t)%Q <-> (Z.of_nat k < Qfloor ((t - h_lag h) * h_sr h))%Z.
Proof.
  intros P. assert (E : (lag_at h (S k) <= t)%Q <-> (inject_Z (Z.of_nat (S k)) <= (t - h_lag h) * h_sr h)%Q).
  { unfold lag_at. rewrite <- (Qmult_le_r _ _ (h_sr h)) by exact P.
    assert (X : ((h_lag h + inject_Z (Z.of_nat (S k)) / h_sr h) * h_sr h == h_lag h * h_sr h + inject_Z (Z.of_nat (S k)))%Q)
      by (field; intros C; rewrite C in P; now apply Qlt_irrefl in P).
    rewrite X. split; intros H.
    - setoid_replace ((t - h_lag h) * h_sr h)%Q with (t * h_sr h + - (h_lag h * h_sr h))%Q by ring.
      setoid_replace (inject_Z (Z.of_nat (S k))) with (h_lag h * h_sr h + inject_Z (Z.of_nat (S k)) + - (h_lag h * h_sr h))%Q by ring.
      apply Qplus_le_compat; [exact H|apply Qle_refl].
    - setoid_replace (t * h_sr h)%Q with (h_lag h * h_sr h + (t - h_lag h) * h_sr h)%Q by ring.
      apply Qplus_le_compat; [apply Qle_refl|exact H]. }
  rewrite E. split; intros H.
  - apply Qfloor_resp_le in H. rewrite Qfloor_Z in H. lia.
  - eapply Qle_trans; [|apply Qfloor_le]. rewrite <- Zle_Qle. lia.
Qed.
Lemma window_filter {A} h st et (l : list A) : (0 < h_sr h)%Q ->
  window_of h st et l = map snd (filter (fun p => (match lag_index h st with Some s => Z.to_nat s | None => 0 end <=? fst p) &&
    match lag_index h et with Some e => fst p <? Z.to_nat e | None => true end) (combine (seq 0 (length l)) l)).
Proof.
  intros P. unfold window_of. f_equal. apply filter_ext. intros [k v]. cbn [fst]. unfold used_sample. f_equal.
  - destruct st as [t|]; cbn [lag_index option_map].
    + destruct (Qle_bool (lag_at h (S k)) t) eqn:E; cbn [negb].
      * apply Qle_bool_iff in E. apply lag_next in E; [|exact P]. symmetry. apply Nat.leb_gt. lia.
      * symmetry. apply Nat.leb_le. assert (N : ~ (lag_at h (S k) <= t)%Q) by (intros C; apply Qle_bool_iff in C; congruence).
        rewrite lag_next in N by exact P. lia.
    + symmetry. apply Nat.leb_le. lia.
  - destruct et as [t|]; cbn [lag_index option_map]; [|reflexivity].
    destruct (Qle_bool (lag_at h (S k)) t) eqn:E.
    + apply Qle_bool_iff in E. apply lag_next in E; [|exact P]. symmetry. apply Nat.ltb_lt. lia.
    + symmetry. apply Nat.ltb_ge. assert (N : ~ (lag_at h (S k) <= t)%Q) by (intros C; apply Qle_bool_iff in C; congruence).
      rewrite lag_next in N by exact P. lia.
Qed.
Lemma index_nonneg h t : (0 < h_sr h)%Q -> (h_lag h <= t)%Q <-> (0 <= Qfloor ((t - h_lag h) * h_sr h))%Z.
Proof.
  intros P. split; intros H.
  - change 0%Z with (Qfloor (inject_Z 0)). apply Qfloor_resp_le. change (inject_Z 0) with 0%Q.
    apply Qmult_le_0_compat; [|now apply Qlt_le_weak]. now apply -> Qle_minus_iff in H.
  - rewrite Qle_minus_iff. destruct (Qlt_le_dec (t + - h_lag h) 0) as [L|L]; [|exact L]. exfalso.
    assert (N : ((t - h_lag h) * h_sr h < 0)%Q).
    { apply Qlt_le_trans with (0 * h_sr h)%Q; [now apply Qmult_lt_r|]. rewrite Qmult_0_l. apply Qle_refl. }
    assert (X : (inject_Z (Qfloor ((t - h_lag h) * h_sr h)) < inject_Z 0)%Q) by (eapply Qle_lt_trans; [apply Qfloor_le|exact N]).
    rewrite <- Zlt_Qlt in X. lia.
Qed.
Lemma index_below h t : (0 < h_sr h)%Q -> (t < lag_at h (h_npts h))%Q <-> (Qfloor ((t - h_lag h) * h_sr h) < Z.of_nat (h_npts h))%Z.
Proof.
  intros P. destruct (h_npts h) as [|n] eqn:E.
  - split; intros H.
    + apply Z.lt_nge. intros C. apply index_nonneg in C; [|exact P]. unfold lag_at in H. apply Qlt_not_le in H. apply H. cbn [Z.of_nat].
      change (inject_Z 0) with 0%Q. setoid_replace (h_lag h + 0 / h_sr h)%Q with (h_lag h)%Q by (field; intros C'; rewrite C' in P; now apply Qlt_irrefl in P). exact C.
    + apply Qnot_le_lt. intros C. apply Z.lt_nge in H. apply H. apply index_nonneg; [exact P|].
      unfold lag_at in C. cbn [Z.of_nat] in C. change (inject_Z 0) with 0%Q in C.
      now setoid_replace (h_lag h + 0 / h_sr h)%Q with (h_lag h)%Q in C by (field; intros C'; rewrite C' in P; now apply Qlt_irrefl in P).
  - split; intros H.
    + apply Qlt_not_le in H. rewrite lag_next in H by exact P. lia.
    + apply Qnot_le_lt. rewrite lag_next by exact P. lia.
Qed.
Lemma range_on_axis h st et : (0 < h_sr h)%Q -> on_axis h st et -> out_of_range h (lag_index h st) (lag_index h et) = false.
Proof.
  intros P [A B]. unfold out_of_range. apply orb_false_iff. split.
  - destruct st as [t|]; cbn [lag_index option_map]; [|reflexivity]. apply Z.ltb_ge. now apply index_nonneg.
  - destruct et as [t|]; cbn [lag_index option_map]; [|reflexivity]. apply andb_false_iff. right. apply Z.leb_gt. apply index_below; tauto.
Qed.
Lemma window_spec {A} h st et (row : list A) : (0 < h_sr h)%Q -> length row = h_npts h -> on_axis h st et ->
  norm_window (lag_index h st) (lag_index h et) row = window_of h st et row.
Proof.
  intros P L [HA HB]. rewrite window_filter by exact P. unfold norm_window, pyslice.
  set (a := match lag_index h st with Some s => Z.to_nat s | None => 0 end).
  set (b := match lag_index h et with Some e => Z.to_nat e | None => length row end).
  assert (Ea : norm_index (length row) (match lag_index h st with Some s => s | None => 0%Z end) = Nat.min a (length row)).
  { unfold norm_index, a. destruct st as [t|]; cbn [lag_index option_map]; [|reflexivity].
    apply index_nonneg in HA; [|exact P]. destruct (_ <? 0)%Z eqn:E; [apply Z.ltb_lt in E; lia|reflexivity]. }
  assert (Eb : norm_index (length row) (match lag_index h et with Some e => e | None => Z.of_nat (length row) end) = Nat.min b (length row)).
  { unfold norm_index, b. destruct et as [t|]; cbn [lag_index option_map].
    - destruct HB as [HB _]. apply index_nonneg in HB; [|exact P]. destruct (_ <? 0)%Z eqn:E; [apply Z.ltb_lt in E; lia|reflexivity].
    - destruct (_ <? 0)%Z eqn:E; [apply Z.ltb_lt in E; lia|]. lia. }
  rewrite Ea, Eb. transitivity (firstn (b - Nat.max a 0) (skipn (a - 0) row)).
  - rewrite Nat.max_0_r, Nat.sub_0_r. destruct (Nat.le_ge_cases a (length row)).
    + rewrite (Nat.min_l a) by lia. destruct (Nat.le_ge_cases b (length row)); [now rewrite (Nat.min_l b) by lia|].
      rewrite (Nat.min_r b) by lia. rewrite !firstn_all2; try reflexivity; rewrite skipn_length; lia.
    + rewrite (Nat.min_r a) by lia. rewrite !skipn_all2 by lia. now rewrite !firstn_nil.
  - rewrite <- (filter_combine_from row 0 a b). f_equal. apply filter_ext_in. intros [k v] I. cbn [fst]. f_equal.
    apply in_combine_l, in_seq in I. unfold b. destruct (lag_index h et); [reflexivity|]. apply Nat.ltb_lt. lia.
Qed.

(** ** sums *)
Local Open Scope R_scope.
Lemma total_rsum l : rsum (length l) (fun j => nth j l 0) = total l.
Proof. induction l as [|v l IH]; [reflexivity|]. cbn [length total]. rewrite rsum_S. cbn [nth]. now rewrite IH. Qed.
Lemma mean_average l : mean l = average l.
Proof. unfold mean, average. now rewrite total_rsum. Qed.
Lemma total_scale c l : total (map (fun v => v * c) l) = total l * c.
Proof. induction l as [|v l IH]; cbn [map total]; [lra|]. rewrite IH. lra. Qed.
Lemma average_scale c l : average (map (fun v => v * c) l) = average l * c.
Proof. unfold average. rewrite total_scale, map_length. unfold Rdiv. lra. Qed.
Lemma total_nonneg l : (forall v, In v l -> 0 <= v) -> 0 <= total l.
Proof. induction l as [|v l IH]; intros H; cbn [total]; [lra|]. assert (0 <= v) by (apply H; now left). assert (0 <= total l) by (apply IH; intros; apply H; now right). lra. Qed.
Lemma total_pos l v : (forall v, In v l -> 0 <= v) -> In v l -> 0 < v -> 0 < total l.
Proof.
  induction l as [|w l IH]; intros H I P; [destruct I|]. cbn [total]. assert (0 <= w) by (apply H; now left).
  assert (0 <= total l) by (apply total_nonneg; intros; apply H; now right). destruct I as [->|I]; [lra|].
  assert (0 < total l) by (apply IH; auto; intros; apply H; now right). lra.
Qed.
Lemma average_pos l v : (forall v, In v l -> 0 <= v) -> In v l -> 0 < v -> 0 < average l.
Proof.
  intros H I P. unfold average. apply Rdiv_lt_0_compat; [now apply (total_pos l v)|]. apply lt_0_INR. destruct l; [destruct I|cbn; lia].
Qed.
Lemma average_nonneg l : (forall v, In v l -> 0 <= v) -> 0 <= average l.
Proof.
  intros H. unfold average. destruct l as [|v l]; [cbn; unfold Rdiv; lra|]. apply Rmult_le_pos; [now apply total_nonneg|]. left. apply Rinv_0_lt_compat, lt_0_INR. cbn; lia.
Qed.

(** ** one row *)
Lemma combine_map_r {A B} (f : A -> B) (l : list A) : forall s, combine (seq s (length (map f l))) (map f l) = map (fun p => (fst p, f (snd p))) (combine (seq s (length l)) l).
Proof. induction l as [|x l IH]; intros s; [reflexivity|]. cbn [map length seq combine]. now rewrite IH. Qed.
Lemma filter_map_comm {A B} (g : A -> B) (p : B -> bool) l : filter p (map g l) = map g (filter (fun x => p (g x)) l).
Proof. induction l as [|x l IH]; [reflexivity|]. cbn [map filter]. destruct (p (g x)); cbn [map]; now rewrite IH. Qed.
Lemma window_map {A B} h st et (f : A -> B) l : window_of h st et (map f l) = map f (window_of h st et l).
Proof. unfold window_of. rewrite combine_map_r, filter_map_comm, !map_map. cbn [fst snd]. reflexivity. Qed.
Lemma window_in {A} h st et (l : list A) v : In v (window_of h st et l) -> In v l.
Proof. unfold window_of. rewrite in_map_iff. intros [[k w] [E I]]. cbn in E. subst w. apply filter_In in I. destruct I as [I _]. now apply in_combine_r in I. Qed.
Lemma scaled_div c x : c <> 0 -> map (fun s => sdiv s (no_zero (Some c))) (map Some x) = map Some (scaled c x).
Proof. intros H. unfold scaled. rewrite !map_map. apply map_ext. intros v. cbn [no_zero]. destruct (Req_EM_T c 0); [contradiction|reflexivity]. Qed.
Lemma plain_mean_some f w : w <> [] -> plain_mean f (map Some w) = Some (average (map f w)).
Proof. intros H. unfold plain_mean. rewrite all_samples_some. destruct w; [contradiction|]. now rewrite mean_average. Qed.
Lemma plain_max_some f w : w <> [] -> plain_max f (map Some w) = Ok (Some (rmax (map f w))).
Proof. intros H. unfold plain_max. destruct w as [|v w]; [contradiction|]. cbn [map]. change (Some v :: map Some w) with (map (@Some R) (v :: w)). now rewrite all_samples_some. Qed.

Section Row.
  Context (h : hdr) (st et : option Q) (x : list R).
  Hypothesis P : (0 < h_sr h)%Q.
  Hypothesis L : length x = h_npts h.
  Hypothesis A : on_axis h st et.
  Let w := window_of h st et x.
  Let a := lag_index h st.
  Let b := lag_index h et.
  Lemma row_norm ty : normalize_row ty a b (map Some x) = do n <- norm_of ty (map Some w); Ok (map (fun s => sdiv s (no_zero n)) (map Some x)).
  Proof. unfold normalize_row, a, b. rewrite window_spec; [|exact P|now rewrite map_length|exact A]. now rewrite window_map. Qed.
  Lemma scaled_window c : window_of h st et (scaled c x) = map (fun v => v / c) w. Proof. unfold scaled. now rewrite window_map. Qed.
  Lemma energy_row : (exists v, In v w /\ v <> 0) ->
    exists c, 0 < c /\ normalize_row Energy a b (map Some x) = Ok (map Some (scaled c x)) /\ average (map (fun v => v * v) (window_of h st et (scaled c x))) = 1.
  Proof.
    intros [v [I N]]. set (q := average (map (fun v => v * v) w)).
    assert (Q : 0 < q).
    { unfold q. apply (average_pos _ (v * v)).
      - intros u H. apply in_map_iff in H. destruct H as [z [<- _]]. apply Rle_0_sqr.
      - apply in_map_iff. eauto.
      - now apply Rsqr_pos_lt. }
    exists (sqrt q). assert (S : 0 < sqrt q) by now apply sqrt_lt_R0. split; [exact S|]. split.
    - rewrite row_norm. cbn [norm_of]. rewrite plain_mean_some by (intros E; rewrite E in I; destruct I). cbn [option_map bind]. fold q. now rewrite scaled_div by lra.
    - rewrite scaled_window, map_map. rewrite (map_ext _ (fun v => v * v * / q)).
      + rewrite <- (map_map (fun v => v * v) (fun u => u * / q)), average_scale. fold q. field. lra.
      + intros u. rewrite <- (sqrt_def q) at 3 by lra. field. lra.
  Qed.
  Lemma abssum_row : (exists v, In v w /\ v <> 0) ->
    exists c, 0 < c /\ normalize_row Abssum a b (map Some x) = Ok (map Some (scaled c x)) /\ average (map Rabs (window_of h st et (scaled c x))) = 1.
  Proof.
    intros [v [I N]]. set (q := average (map Rabs w)).
    assert (Q : 0 < q).
    { unfold q. apply (average_pos _ (Rabs v)).
      - intros u H. apply in_map_iff in H. destruct H as [z [<- _]]. apply Rabs_pos.
      - apply in_map_iff. eauto.
      - now apply Rabs_pos_lt. }
    exists q. split; [exact Q|]. split.
    - rewrite row_norm. cbn [norm_of]. rewrite plain_mean_some by (intros E; rewrite E in I; destruct I). cbn [bind]. fold q. now rewrite scaled_div by lra.
    - rewrite scaled_window, map_map. rewrite (map_ext _ (fun v => Rabs v * / q)).
      + rewrite <- (map_map Rabs (fun u => u * / q)), average_scale. fold q. field. lra.
      + intros u. unfold Rdiv. rewrite Rabs_mult. f_equal. apply Rabs_pos_eq. left. now apply Rinv_0_lt_compat.
  Qed.
  Lemma rmax_is_max l : l <> [] -> is_max l (rmax l).
  Proof. intros H. split; [now apply rmax_in|]. intros v. apply rmax_ge. Qed.
  Lemma is_max_scale c l m : 0 < c -> is_max l m -> is_max (map (fun v => v / c) l) (m / c).
  Proof.
    intros C [I M]. split; [now apply (in_map (fun v => v / c))|]. intros u H. apply in_map_iff in H. destruct H as [z [<- H]].
    apply Rmult_le_compat_r; [left; now apply Rinv_0_lt_compat|]. now apply M.
  Qed.
  Lemma absmax_row : (exists v, In v w /\ v <> 0) ->
    exists c, 0 < c /\ normalize_row Absmax a b (map Some x) = Ok (map Some (scaled c x)) /\ is_max (map Rabs (window_of h st et (scaled c x))) 1.
  Proof.
    intros [v [I N]]. set (q := rmax (map Rabs w)).
    assert (W : w <> []) by (intros E; rewrite E in I; destruct I).
    assert (M : is_max (map Rabs w) q) by (apply rmax_is_max; intros E; apply map_eq_nil in E; contradiction).
    assert (Q : 0 < q). { apply Rlt_le_trans with (Rabs v); [now apply Rabs_pos_lt|]. apply M. now apply in_map. }
    exists q. split; [exact Q|]. split.
    - rewrite row_norm. cbn [norm_of]. rewrite plain_max_some by exact W. cbn [bind]. fold q. now rewrite scaled_div by lra.
    - rewrite scaled_window, map_map. rewrite (map_ext _ (fun v => Rabs v / q)).
      + rewrite <- (map_map Rabs (fun u => u / q)). replace 1 with (q / q) by (field; lra). now apply is_max_scale.
      + intros u. unfold Rdiv. rewrite Rabs_mult. f_equal. apply Rabs_pos_eq. left. now apply Rinv_0_lt_compat.
  Qed.
  (** 'max': a positive maximum becomes one *)
  Lemma max_row m : is_max w m -> 0 < m ->
    normalize_row Max a b (map Some x) = Ok (map Some (scaled m x)) /\ is_max (window_of h st et (scaled m x)) 1.
  Proof.
    intros M Q. assert (W : w <> []) by (intros E; destruct M as [I _]; rewrite E in I; destruct I).
    assert (E : rmax (map (fun v => v) w) = m).
    { rewrite map_id. apply Rle_antisym; [apply M; now apply rmax_in|]. apply rmax_ge. apply M. }
    split.
    - rewrite row_norm. cbn [norm_of]. rewrite plain_max_some by exact W. cbn [bind]. rewrite E. now rewrite scaled_div by lra.
    - rewrite scaled_window. replace 1 with (m / m) by (field; lra). now apply is_max_scale.
  Qed.
  Lemma max_row_negative m : is_max w m -> m < 0 -> normalize_row Max a b (map Some x) = Ok (map Some (scaled m x)).
  Proof.
    intros M Q. assert (W : w <> []) by (intros E; destruct M as [I _]; rewrite E in I; destruct I).
    assert (E : rmax (map (fun v => v) w) = m).
    { rewrite map_id. apply Rle_antisym; [apply M; now apply rmax_in|]. apply rmax_ge. apply M. }
    rewrite row_norm. cbn [norm_of]. rewrite plain_max_some by exact W. cbn [bind]. rewrite E. now rewrite scaled_div by lra.
  Qed.
  (** a window without signal *)
  Lemma silent_row ty : ty <> OtherNorm -> w <> [] -> (forall v, In v w -> v = 0) -> normalize_row ty a b (map Some x) = Ok (map Some x).
  Proof.
    intros T W Z. rewrite row_norm.
    assert (E : forall f, f 0 = 0 -> map f w = map (fun _ => 0) w) by (intros f F; apply map_ext_in; intros v I; now rewrite (Z v I)).
    assert (AV : average (map (fun _ => 0) w) = 0).
    { unfold average. replace (total (map (fun _ : R => 0) w)) with 0; [unfold Rdiv; lra|]. clear. induction w as [|v l IH]; cbn; [reflexivity|]. now rewrite <- IH, Rplus_0_l. }
    assert (MX : rmax (map (fun _ => 0) w) = 0).
    { assert (I := rmax_in (map (fun _ => 0) w)). destruct w as [|v l]; [contradiction|]. specialize (I ltac:(discriminate)). apply in_map_iff in I. destruct I as [z [I _]]. now symmetry. }
    assert (X : map (fun s => sdiv s (no_zero (Some 0))) (map Some x) = map Some x).
    { rewrite map_map. apply map_ext. intros v. cbn [no_zero]. destruct (Req_EM_T 0 0); [|contradiction]. cbn [sdiv]. f_equal. field. }
    destruct ty; try contradiction; cbn [norm_of]; rewrite ?plain_mean_some, ?plain_max_some by exact W.
    - rewrite E by lra. rewrite AV. cbn [option_map bind]. now rewrite sqrt_0, X.
    - rewrite E by apply Rabs_R0. rewrite AV. cbn [bind]. now rewrite X.
    - rewrite E by reflexivity. rewrite MX. cbn [bind]. now rewrite X.
    - rewrite E by apply Rabs_R0. rewrite MX. cbn [bind]. now rewrite X.
  Qed.
  (** an empty window *)
  Lemma empty_row ty : ty = Energy \/ ty = Abssum -> w = [] -> normalize_row ty a b (map Some x) = Ok (map (fun _ => None) x).
  Proof.
    intros T W. rewrite row_norm, W. assert (X : map (fun s => sdiv s (no_zero None)) (map Some x) = map (fun _ => None) x) by now rewrite map_map.
    destruct T as [->| ->]; cbn [norm_of plain_mean map all_samples option_map bind]; now rewrite X.
  Qed.
End Row.
(** one missing sample in the window *)
Lemma missing_row h st et row ty : (0 < h_sr h)%Q -> length row = h_npts h -> on_axis h st et -> ty <> OtherNorm -> In None (window_of h st et row) ->
  normalize_row ty (lag_index h st) (lag_index h et) row = Ok (map (fun _ => None) row).
Proof.
  intros P L A T I. unfold normalize_row. rewrite window_spec by assumption.
  assert (N := all_samples_none _ I).
  assert (X : map (fun s => sdiv s (no_zero None)) row = map (fun _ => None) row) by (apply map_ext; intros [v|]; reflexivity).
  destruct ty; try contradiction; cbn [norm_of]; unfold plain_mean, plain_max; rewrite ?N; try (cbn [option_map bind]; now rewrite X);
    (destruct (window_of h st et row); [destruct I|]); cbn [option_map bind]; now rewrite X.
Qed.
