From Coq Require Import Reals Lra QArith Qfield Permutation Sorted.
From Verif Require Import Lib.Base Lib.Str Model.Similarity Model.Spectral Model.TimeDomain Model.Shift Model.DVFile Model.Averages Model.Wfc
  Spec.LagSpec Spec.ReferenceSpec Spec.DVFileSpec Spec.WfcSpec Proofs.SimilarityFacts Proofs.SpectralFacts Proofs.AmplitudeFacts Proofs.ReferenceFacts Proofs.ExtractFacts
  Proofs.AveragesFacts Proofs.AlignFacts.
From Verif Require Import Model.Similarity.
Local Open Scope nat_scope.

(** ** windows *)
Lemma among_in t w : among t w = true <-> In t w.
Proof. unfold among. rewrite existsb_exists. split; [intros (x & I & E); apply Z.eqb_eq in E; now subst|intros I; exists t; split; [exact I|apply Z.eqb_refl]]. Qed.
Lemma in_window_wanted sd n w i : in_window sd n w i = true <-> wanted sd n w i.
Proof. unfold in_window, wanted. destruct sd; cbv zeta; rewrite ?orb_true_iff, ?among_in; reflexivity. Qed.
Lemma mask_window sd n w : 0 < n -> window_fits sd n w -> w <> [] ->
  exists m, window_mask sd n w = Ok m /\ length m = n /\ forall i, i < n -> nth i m false = in_window sd n w i.
Proof.
  intros P F N. destruct (window_exact sd n w P F N) as (m & E & L & H). exists m. split; [exact E|]. split; [exact L|].
  intros i I. apply eq_true_iff_eq. rewrite in_window_wanted. now apply H.
Qed.

(** ** the value *)
Local Open Scope R_scope.
Lemma dot_masked m : forall a b, length a = length m -> length b = length m ->
  dot (masked m a) (masked m b) = total (map (fun i => nth i a 0 * nth i b 0) (filter (fun i => nth i m false) (seq 0 (length m)))).
Proof.
  induction m as [|u m IH]; intros [|x a] [|y b] A B; try discriminate; [reflexivity|].
  cbn [length seq filter nth]. rewrite <- seq_shift.
  assert (E : total (map (fun i => nth i (x :: a) 0 * nth i (y :: b) 0) (filter (fun i => nth i (u :: m) false) (map S (seq 0 (length m))))) = dot (masked m a) (masked m b)).
  { rewrite IH by (cbn in A, B; lia). clear. induction (seq 0 (length m)) as [|i l IH]; [reflexivity|]. cbn [map filter]. change (nth (S i) (u :: m) false) with (nth i m false). destruct (nth i m false); [|exact IH]. cbn [map total]. rewrite <- IH. reflexivity. }
  unfold masked, dot in *. cbn [combine map fst snd fold_right]. rewrite <- E. destruct u; cbn [map total nth]; [reflexivity|]. ring.
Qed.
Lemma inner_map {A} (f g : A -> R) l : inner (map f l) (map g l) = total (map (fun i => f i * g i) l).
Proof. unfold inner. induction l as [|i l IH]; [reflexivity|]. cbn [map combine total fst snd]. now rewrite IH. Qed.
Lemma inner_silent x : inner x x = 0 <-> silent x.
Proof.
  unfold inner, silent. induction x as [|v x IH]; [cbn; split; [intros _ v []|reflexivity]|]. cbn [combine map total fst snd].
  assert (P : 0 <= total (map (fun p => fst p * snd p) (combine x x))).
  { clear. induction x as [|v x IH]; cbn [combine map total fst snd]; [lra|]. assert (0 <= v * v) by (apply Rle_0_sqr). lra. }
  split.
  - intros E. assert (S : 0 <= v * v) by (apply Rle_0_sqr). assert (V : v * v = 0) by lra.
    intros u [<-|I]; [destruct (Rmult_integral _ _ V); assumption|]. apply (proj1 IH); [lra|exact I].
  - intros H. rewrite (H v) by now left. rewrite (proj2 IH); [lra|]. intros u I. apply H. now right.
Qed.
Lemma inner_nonneg x : 0 <= inner x x.
Proof. unfold inner. induction x as [|v x IH]; cbn [combine map total fst snd]; [lra|]. assert (0 <= v * v) by (apply Rle_0_sqr). lra. Qed.

Lemma nan_to_num_nth i row : nth i (nan_to_num row) 0 = match nth i row None with Some v => v | None => 0 end.
Proof. unfold nan_to_num. revert i. induction row as [|o row IH]; intros [|i]; try reflexivity. cbn [map nth]. apply IH. Qed.
Lemma nan_to_num_length row : length (nan_to_num row) = length row. Proof. apply map_length. Qed.

Lemma window_dot sd n w m x y : length m = n -> (forall i, (i < n)%nat -> nth i m false = in_window sd n w i) -> length x = n -> length y = n ->
  dot (masked m (nan_to_num x)) (masked m (nan_to_num y)) = inner (window_part sd n w x) (window_part sd n w y).
Proof.
  intros L H X Y. rewrite dot_masked by (rewrite nan_to_num_length; lia). unfold window_part. rewrite inner_map. rewrite L.
  replace (filter (fun i => nth i m false) (seq 0 n)) with (filter (in_window sd n w) (seq 0 n)).
  - f_equal. apply map_ext. intros i. now rewrite !nan_to_num_nth.
  - apply filter_ext_in. intros i I. apply in_seq in I. symmetry. apply H. lia.
Qed.
Lemma coherence_spec sd n w m x y : length m = n -> (forall i, (i < n)%nat -> nth i m false = in_window sd n w i) -> length x = n -> length y = n ->
  is_coherence (window_part sd n w x) (window_part sd n w y) (similarity (masked m (nan_to_num x)) (masked m (nan_to_num y))).
Proof.
  intros L H X Y. unfold similarity.
  rewrite !(window_dot sd n w m) by assumption. set (p := window_part sd n w x). set (q := window_part sd n w y).
  assert (P := inner_nonneg p). assert (Q := inner_nonneg q).
  destruct (Req_EM_T (sqrt (inner p p * inner q q)) 0) as [E|E]; cbn.
  - apply sqrt_eq_0 in E; [|now apply Rmult_le_pos]. destruct (Rmult_integral _ _ E) as [K|K]; [left|right]; now apply inner_silent.
  - split; [|split; [|reflexivity]]; intros S; apply E; apply inner_silent in S; rewrite S; rewrite ?Rmult_0_l, ?Rmult_0_r; apply sqrt_0.
Qed.
Lemma all_samples_clean row : all_samples (map Some row) = Some row. Proof. apply all_samples_some. Qed.
Lemma nan_to_num_some (l : list R) : nan_to_num (map Some l) = l.
Proof. unfold nan_to_num. rewrite map_map. apply map_id. Qed.
Local Open Scope nat_scope.
Lemma mapM_F2 {A B} (f : A -> result B) (Q : A -> B -> Prop) l : (forall x, In x l -> exists y, f x = Ok y /\ Q x y) ->
  exists r, mapM f l = Ok r /\ Forall2 Q l r.
Proof.
  induction l as [|x l IH]; intros H; simpl; [eauto|]. destruct (H x (or_introl eq_refl)) as (y & -> & Hy). simpl.
  destruct IH as (r & -> & Hr); [intros; apply H; now right|]. simpl. eauto.
Qed.
Lemma F2_map {A B} (f : A -> B) (Q : A -> B -> Prop) l : (forall x, In x l -> Q x (f x)) -> Forall2 Q l (map f l).
Proof. induction l as [|x l IH]; intros H; constructor; [apply H; now left|apply IH; intros; apply H; now right]. Qed.

Section Values.
  Context (sd : sides) (n : nat) (mat : list (list (option R))) (tw : list (list Z)).
  Hypothesis N : 0 < n.
  Hypothesis W : Forall (good_window sd n) tw.
  Hypothesis M : Forall (fun row => length row = n) mat.

  Lemma compute_wfc_clean ref : length ref = n -> exists a, compute_wfc sd true n mat tw (map Some (nan_to_num ref)) = Ok a /\
    Forall2 (fun w b => Forall2 (fun row v => is_coherence (window_part sd n w row) (window_part sd n w ref) v) mat b) tw a.
  Proof.
    intros L. unfold compute_wfc. rewrite map_length, nan_to_num_length, L, Nat.eqb_refl. cbn [negb].
    apply mapM_F2. intros w I. rewrite Forall_forall in W. destruct (W w I) as [F NE].
    destruct (mask_window sd n w N F NE) as (m & E & LM & H). rewrite E. cbn [bind]. eexists. split; [reflexivity|].
    apply F2_map. intros row J. rewrite Forall_forall in M. specialize (M row J). rewrite all_samples_clean. cbn [coherence samples].
    now apply coherence_spec.
  Qed.
  Lemma compute_wfc_raw ref : length ref = n -> exists a, compute_wfc sd false n mat tw ref = Ok a /\
    Forall2 (fun w b => Forall2 (fun row v => if complete row && complete ref
                                              then is_coherence (window_part sd n w row) (window_part sd n w ref) v
                                              else v = None) mat b) tw a.
  Proof.
    intros L. unfold compute_wfc. rewrite L, Nat.eqb_refl. cbn [negb].
    apply mapM_F2. intros w I. rewrite Forall_forall in W. destruct (W w I) as [F NE].
    destruct (mask_window sd n w N F NE) as (m & E & LM & H). rewrite E. cbn [bind]. eexists. split; [reflexivity|].
    apply F2_map. intros row J. rewrite Forall_forall in M. specialize (M row J). cbn [samples].
    assert (K : forall r, if complete r then all_samples r = Some (nan_to_num r) else all_samples r = None).
    { clear. induction r as [|[v|] r IH]; cbn; [reflexivity| |reflexivity]. fold (complete r). fold (nan_to_num r).
      destruct (complete r); now rewrite IH. }
    assert (K1 := K row). assert (K2 := K ref). destruct (complete row), (complete ref); cbn [andb]; rewrite K1, K2; cbn [coherence]; try reflexivity.
    now apply coherence_spec.
  Qed.
  Lemma wfc_multi_clean refs : Forall (fun ref => length ref = n) refs -> n <> 1 ->
    exists r, wfc_multi sd true n n mat tw refs = Ok r /\
      Forall2 (fun ref a => Forall2 (fun w b => Forall2 (fun row v => is_coherence (window_part sd n w row) (window_part sd n w ref) v) mat b) tw a) refs r.
  Proof.
    intros R K. assert (E : wfc_multi sd true n n mat tw refs = mapM (compute_wfc sd true n mat tw) (map (fun r => map Some (nan_to_num r)) refs)).
    { unfold wfc_multi. replace (n =? 1) with false by (symmetry; now apply Nat.eqb_neq).
      destruct refs as [|r [|r' l]]; [reflexivity| |reflexivity]. cbn [map mapM]. now destruct (compute_wfc _ _ _ _ _ _). }
    rewrite E. clear E. induction R as [|r l L R IH]; cbn [map mapM]; [eexists; split; [reflexivity|constructor]|].
    destruct (compute_wfc_clean r L) as (a & -> & A). destruct IH as (x & -> & X). cbn [bind]. eexists. split; [reflexivity|]. now constructor.
  Qed.
  Lemma wfc_multi_raw refs : Forall (fun ref => length ref = n) refs -> n <> 1 ->
    exists r, wfc_multi sd false n n mat tw refs = Ok r /\
      Forall2 (fun ref a => Forall2 (fun w b => Forall2 (fun row v => if complete row && complete ref
                                              then is_coherence (window_part sd n w row) (window_part sd n w ref) v
                                              else v = None) mat b) tw a) refs r.
  Proof.
    intros R K. assert (E : wfc_multi sd false n n mat tw refs = mapM (compute_wfc sd false n mat tw) refs).
    { unfold wfc_multi. replace (n =? 1) with false by (symmetry; now apply Nat.eqb_neq).
      destruct refs as [|r [|r' l]]; [reflexivity| |reflexivity]. cbn [map mapM]. now destruct (compute_wfc _ _ _ _ _ _). }
    rewrite E. clear E. induction R as [|r l L R IH]; cbn [map mapM]; [eexists; split; [reflexivity|constructor]|].
    destruct (compute_wfc_raw r L) as (a & -> & A). destruct IH as (x & -> & X). cbn [bind]. eexists. split; [reflexivity|]. now constructor.
  Qed.
End Values.

(** ** facts about the specification *)
Local Open Scope R_scope.
Lemma inner_dot x y : inner x y = dot x y.
Proof. unfold inner, dot. generalize (map (fun p : R * R => fst p * snd p) (combine x y)). induction l as [|v l IH]; [reflexivity|]. cbn [total fold_right]. now rewrite IH. Qed.
Lemma cosine_bounded x y : length x = length y -> ~ silent x -> ~ silent y -> -1 <= cosine x y <= 1.
Proof.
  intros L X Y. apply (similarity_bounded x y); [exact L|]. unfold similarity. destruct (Req_EM_T _ _) as [E|E].
  - exfalso. rewrite <- !inner_dot in E. apply sqrt_eq_0 in E; [|apply Rmult_le_pos; apply inner_nonneg].
    destruct (Rmult_integral _ _ E) as [K|K]; apply inner_silent in K; contradiction.
  - unfold cosine. now rewrite (inner_dot x y), (inner_dot x x), (inner_dot y y).
Qed.
Lemma coherence_bounded x y c : length x = length y -> is_coherence x y (Some c) -> -1 <= c <= 1.
Proof. intros L (X & Y & ->). now apply cosine_bounded. Qed.
Lemma coherence_self x v : ~ silent x -> is_coherence x x v -> v = Some 1.
Proof.
  intros S H. destruct v as [c|]; [|destruct H; contradiction]. destruct H as (_ & _ & ->). f_equal. unfold cosine.
  assert (P := inner_nonneg x). assert (Q : inner x x <> 0) by (intros E; apply inner_silent in E; contradiction).
  rewrite sqrt_square by exact P. now field.
Qed.
Lemma silent_scale k x : k <> 0 -> silent (map (Rmult k) x) <-> silent x.
Proof.
  intros K. unfold silent. split; intros H v I.
  - assert (J := H (k * v) (in_map (Rmult k) x v I)). destruct (Rmult_integral _ _ J); [contradiction|assumption].
  - apply in_map_iff in I. destruct I as (u & <- & I). rewrite (H u I). apply Rmult_0_r.
Qed.
Lemma inner_scale_l k x y : inner (map (Rmult k) x) y = k * inner x y.
Proof. rewrite (inner_dot (map (Rmult k) x) y), (inner_dot x y). apply SimilarityFacts.dot_scale_l. Qed.
Lemma inner_comm x y : inner x y = inner y x. Proof. rewrite (inner_dot x y), (inner_dot y x). apply SimilarityFacts.dot_comm. Qed.
Lemma coherence_scale k x y v v' : 0 < k -> is_coherence (map (Rmult k) x) y v -> is_coherence x y v' -> v = v'.
Proof.
  intros K A B. assert (K' : k <> 0) by lra. destruct v as [c|], v' as [c'|]; cbn in A, B.
  - f_equal. destruct A as (_ & _ & ->), B as (SX & SY & ->). unfold cosine.
    rewrite !inner_scale_l, (inner_comm x (map (Rmult k) x)), inner_scale_l.
    assert (P : 0 < inner x x) by (destruct (inner_nonneg x) as [L|E]; [exact L|exfalso; apply SX, inner_silent; now symmetry]).
    assert (Q : 0 < inner y y) by (destruct (inner_nonneg y) as [L|E]; [exact L|exfalso; apply SY, inner_silent; now symmetry]).
    replace (k * (k * inner x x) * inner y y) with ((k * k) * (inner x x * inner y y)) by ring.
    rewrite sqrt_mult by (apply Rmult_le_pos; lra). rewrite sqrt_square by lra.
    assert (S : 0 < sqrt (inner x x * inner y y)) by (apply sqrt_lt_R0, Rmult_lt_0_compat; assumption). field. split; lra.
  - destruct A as (SX & SY & _). rewrite silent_scale in SX by exact K'. tauto.
  - destruct B as (SX & SY & _). rewrite silent_scale in A by exact K'. tauto.
  - reflexivity.
Qed.
Lemma part_ext sd n w row row' : (forall i, (i < n)%nat -> in_window sd n w i = true -> nth i row None = nth i row' None) ->
  window_part sd n w row = window_part sd n w row'.
Proof. intros H. unfold window_part. apply map_ext_in. intros i I. apply filter_In in I. destruct I as [I E]. apply in_seq in I. rewrite H; [reflexivity|lia|exact E]. Qed.
Lemma part_length sd n w row row' : length (window_part sd n w row) = length (window_part sd n w row').
Proof. unfold window_part. now rewrite !map_length. Qed.

(** ** averages *)
Local Open Scope nat_scope.
Lemma nan_mean_is l : is_mean l (nan_mean l).
Proof.
  unfold nan_mean, is_mean. change (existing l) with (values l). destruct (values l) as [|v r] eqn:E; [reflexivity|]. split; [discriminate|].
  apply mean_average.
Qed.
Lemma is_mean_unique l u v : is_mean l u -> is_mean l v -> u = v.
Proof. unfold is_mean. destruct u as [a|], v as [b|]; try reflexivity; [intros [_ ->] [_ ->]; reflexivity|intros [N _] E; contradiction|intros E [N _]; contradiction]. Qed.
Lemma compute_average_spec w : exists v, w_mean (compute_average w) = Some v /\ has_mean (mkWfc (w_net w) (w_sta w) (w_cha w) (w_refs w) (w_start w) (w_len w) (w_fmin w) (w_fmax w) [] None) v /\
  Forall2 (fun a m => is_mean (concat a) m) (w_refs w) (w_av (compute_average w)).
Proof.
  unfold compute_average. cbn [w_mean w_av]. eexists. split; [reflexivity|].
  assert (F : Forall2 (fun (a : list (list (option R))) m => is_mean (concat a) m) (w_refs w) (map (fun v => nan_mean (concat v)) (w_refs w))).
  { apply F2_map. intros x _. apply nan_mean_is. }
  split; [|exact F]. cbn. exists (map (fun v => nan_mean (concat v)) (w_refs w)). split; [exact F|]. apply nan_mean_is.
Qed.
Lemma mean_of_spec w : has_mean w (mean_of w).
Proof.
  unfold has_mean, mean_of. destruct (w_mean w) as [m|]; [reflexivity|]. exists (map (fun v => nan_mean (concat v)) (w_refs w)).
  split; [apply F2_map; intros x _; apply nan_mean_is|apply nan_mean_is].
Qed.
Lemma mean_between lo hi l v : (forall x, In (Some x) l -> lo <= x <= hi)%R -> is_mean l (Some v) -> (lo <= v <= hi)%R.
Proof.
  intros H [N ->]. apply average_between; [exact N|]. intros x I. apply H. unfold values in I. apply in_flat_map in I.
  destruct I as ([y|] & I & J); [|destruct J]. destruct J as [<-|[]]. exact I.
Qed.
Lemma same_parameters_iff a b : same_parameters a b = true <-> same_band a b.
Proof. unfold same_parameters, same_band. rewrite !andb_true_iff, !Qeq_bool_iff. tauto. Qed.
Lemma same_band_refl a : same_band a a. Proof. repeat split; reflexivity. Qed.

Lemma same_dims_iff a b : same_dims a b = true <-> length a = length b /\ forall i u v, nth_error a i = Some u -> nth_error b i = Some v -> length u = length v.
Proof.
  unfold same_dims. rewrite andb_true_iff, Nat.eqb_eq, forallb_forall. split; intros [L H]; (split; [exact L|]).
  - intros i u v A B. specialize (H (u, v)). cbn in H. apply Nat.eqb_eq, H. clear H. revert b i L A B.
    induction a as [|x a IH]; intros [|y b] [|i] L A B; cbn in *; try discriminate.
    + left. congruence.
    + right. apply (IH b i); auto.
  - intros [u v] I. cbn. apply Nat.eqb_eq. apply In_nth_error in I. destruct I as [i I]. clear L. revert b i H I.
    induction a as [|x a IH]; intros [|y b] [|i] H I; cbn in *; try discriminate.
    + injection I as <- <-. apply (H 0); reflexivity.
    + apply (IH b i); [|exact I]. intros j p q P Q. apply (H (S j)); assumption.
Qed.
Lemma nan_mean_arrays_spec a l : (forall b, In b (a :: l) -> same_dims a b = true) ->
  exists m, nan_mean_arrays (a :: l) = Ok m /\ same_dims a m = true /\
    forall i j u, nth_error a i = Some u -> j < length u -> exists b, nth_error m i = Some b /\
      nth_error b j = Some (nan_mean (map (fun b => nth j (nth i b []) None) (a :: l))).
Proof.
  intros H. unfold nan_mean_arrays. replace (forallb (same_dims a) (a :: l)) with true by (symmetry; apply forallb_forall; exact H).
  eexists. split; [reflexivity|]. split.
  - apply same_dims_iff. rewrite map_length, seq_length. split; [reflexivity|]. intros i u v A B.
    assert (I : i < length a) by (apply nth_error_Some; congruence).
    rewrite nth_error_map in B. rewrite (nth_error_nth' (seq 0 (length a)) 0) in B by now rewrite seq_length.
    rewrite seq_nth in B by exact I. cbn in B. injection B as <-. rewrite map_length, seq_length. now rewrite (nth_error_nth a i [] A).
  - intros i j u A J. assert (I : i < length a) by (apply nth_error_Some; congruence).
    eexists. split.
    + rewrite nth_error_map, (nth_error_nth' (seq 0 (length a)) 0) by now rewrite seq_length. rewrite seq_nth by exact I. reflexivity.
    + cbn [Nat.add]. rewrite (nth_error_nth a i [] A). rewrite nth_error_map, (nth_error_nth' (seq 0 (length u)) 0) by now rewrite seq_length.
      rewrite seq_nth by exact J. reflexivity.
Qed.
Lemma same_layout_refl w : same_layout w w.
Proof. split; [reflexivity|]. intros k x y A B. assert (x = y) by congruence. subst. split; [reflexivity|]. intros i u v C D. congruence. Qed.

Lemma average_wfcs_spec w l : Forall (same_layout w) l -> Forall (same_band w) l ->
  exists r, average_wfcs (w :: l) = Ok r /\ w_net r = w_net w /\ w_sta r = w_sta w /\ w_cha r = "av"%string /\ same_band w r /\ same_layout w r /\
    w_mean r = None /\
    forall k i j v0, value_at w k i j v0 -> exists us v, Forall2 (fun x u => value_at x k i j u) (w :: l) us /\ is_mean us v /\ value_at r k i j v.
Proof.
  intros SL SB. unfold average_wfcs.
  replace (forallb (same_parameters w) (w :: l)) with true.
  2:{ symmetry. apply forallb_forall. intros x [<-|I]; apply same_parameters_iff; [apply same_band_refl|]. rewrite Forall_forall in SB. now apply SB. }
  cbn [negb].
  assert (ALL : forall x, In x (w :: l) -> same_layout w x).
  { intros x [<-|I]; [apply same_layout_refl|]. rewrite Forall_forall in SL. now apply SL. }
  assert (STEP : forall k, In k (seq 0 (length (w_refs w))) -> exists y,
    (do arrays <- mapM (fun v => match nth_error (w_refs v) k with Some a => Ok a | None => Raise KeyError end) (w :: l); nan_mean_arrays arrays) = Ok y /\
    (fun k m => exists a, nth_error (w_refs w) k = Some a /\ same_dims a m = true /\
       forall i j u, nth_error a i = Some u -> j < length u -> exists us v b, Forall2 (fun x u => value_at x k i j u) (w :: l) us /\ is_mean us v /\
          nth_error m i = Some b /\ nth_error b j = Some v) k y).
  { intros k K. apply in_seq in K.
    assert (G : forall x, In x (w :: l) -> nth_error (w_refs x) k = Some (nth k (w_refs x) [])).
    { intros x I. apply nth_error_nth'. destruct (ALL x I) as [L _]. lia. }
    assert (MM : mapM (fun v => match nth_error (w_refs v) k with Some a => Ok a | None => Raise KeyError end) (w :: l) = Ok (map (fun v => nth k (w_refs v) []) (w :: l))).
    { clear - G. induction (w :: l) as [|x r IH]; [reflexivity|]. cbn [mapM map]. rewrite G by now left. cbn [bind]. rewrite IH by (intros; apply G; now right). reflexivity. }
    rewrite MM. cbn [bind]. cbn [map].
    destruct (nan_mean_arrays_spec (nth k (w_refs w) []) (map (fun v => nth k (w_refs v) []) l)) as (m & E & D & V).
    { intros b [<-|I]; [apply same_dims_iff; split; [reflexivity|intros; congruence]|]. apply in_map_iff in I. destruct I as (x & <- & I).
      apply same_dims_iff. apply (proj2 (ALL x (or_intror I)) k); apply G; [now left|now right]. }
    exists m. split; [exact E|]. exists (nth k (w_refs w) []). split; [apply G; now left|]. split; [exact D|].
    intros i j u A J. destruct (V i j u A J) as (b & B & C). exists (map (fun b => nth j (nth i b []) None) (map (fun v => nth k (w_refs v) []) (w :: l))).
    eexists. exists b. split; [|split; [apply nan_mean_is|split; [exact B|exact C]]].
    rewrite map_map. apply F2_map. intros x I. exists (nth k (w_refs x) []), (nth i (nth k (w_refs x) []) []). split; [now apply G|].
    assert (DX := proj2 (ALL x I) k (nth k (w_refs w) []) (nth k (w_refs x) []) (G w (or_introl eq_refl)) (G x I)). destruct DX as [LX DX].
    assert (IL : i < length (nth k (w_refs w) [])) by (apply nth_error_Some; congruence).
    assert (NX : nth_error (nth k (w_refs x) []) i = Some (nth i (nth k (w_refs x) []) [])) by (apply nth_error_nth'; lia).
    split; [exact NX|]. apply nth_error_nth'. rewrite <- (DX i u _ A NX). exact J. }
  destruct (mapM_F2 _ _ _ STEP) as (m & E & F). rewrite E. cbn [bind]. eexists. split; [reflexivity|]. cbn [w_net w_sta w_cha w_refs w_mean w_start w_len w_fmin w_fmax].
  assert (LEN : length m = length (w_refs w)) by (rewrite <- (seq_length (length (w_refs w)) 0); symmetry; clear - F; induction F; cbn; congruence).
  assert (AT : forall k a, nth_error (w_refs w) k = Some a -> exists b, nth_error m k = Some b /\ same_dims a b = true /\
     forall i j u, nth_error a i = Some u -> j < length u -> exists us v c, Forall2 (fun x u => value_at x k i j u) (w :: l) us /\ is_mean us v /\
          nth_error b i = Some c /\ nth_error c j = Some v).
  { intros k a A. assert (K : k < length (w_refs w)) by (apply nth_error_Some; congruence).
    assert (GG : forall s p q, Forall2 (fun k m => exists a, nth_error (w_refs w) k = Some a /\ same_dims a m = true /\
       forall i j u, nth_error a i = Some u -> j < length u -> exists us v b, Forall2 (fun x u => value_at x k i j u) (w :: l) us /\ is_mean us v /\
          nth_error m i = Some b /\ nth_error b j = Some v) (seq s p) q -> forall k, k < p -> exists b a, nth_error q k = Some b /\ nth_error (w_refs w) (s + k) = Some a /\ same_dims a b = true /\
       forall i j u, nth_error a i = Some u -> j < length u -> exists us v c, Forall2 (fun x u => value_at x (s + k) i j u) (w :: l) us /\ is_mean us v /\
          nth_error b i = Some c /\ nth_error c j = Some v).
    { clear. intros s p. revert s. induction p as [|p IH]; intros s q F k K; [lia|]. cbn [seq] in F. inversion F as [|? b ? r H T]; subst.
      destruct k as [|k].
      - destruct H as (a & A & D & V). exists b, a. rewrite Nat.add_0_r. now repeat split.
      - destruct (IH _ _ T k ltac:(lia)) as (b' & a' & X). exists b', a'. now replace (s + S k) with (S s + k) by lia. }
    destruct (GG 0 _ _ F k K) as (b & a' & B & A' & D & V). cbn [Nat.add] in A', V. assert (a' = a) by congruence. subst a'. exists b. now repeat split. }
  do 3 (split; [reflexivity|]). split; [repeat split; reflexivity|]. split; [split; [symmetry; exact LEN|]|split; [reflexivity|]].
  - intros k x y A B. destruct (AT k x A) as (b & B' & D & _). cbn [w_refs] in B. assert (y = b) by congruence. subst y. now apply same_dims_iff.
  - intros k i j v0 (a & u & A & U & J). destruct (AT k a A) as (b & B & D & V).
    destruct (V i j u U) as (us & v & c & X & Y & C & Z); [apply nth_error_Some; congruence|]. exists us, v. split; [exact X|]. split; [exact Y|].
    exists b, c. now repeat split.
Qed.

(** ** jobs *)
Lemma run_bands_prepared l : Forall (fun b => fst b = None) l -> run_bands l = (flat_map (fun b => band_windows (snd b)) l, None).
Proof. induction 1 as [|[e ws] l E F IH]; [reflexivity|]. cbn [fst] in E. subst e. cbn [run_bands flat_map snd]. now rewrite IH. Qed.
Lemma collect_prepared jobs : Forall prepared jobs ->
  exists l, collect jobs = Ok l /\ forall w, In w l <-> exists j b, In j jobs /\ In b (j_bands j) /\ In (Ok w) (snd b).
Proof.
  induction 1 as [|j jobs [P B] F (l & E & H)]; [exists []; split; [reflexivity|]; intros w; split; [intros []|intros (j & b & [] & _)]|].
  cbn [collect]. unfold run_job. rewrite P, run_bands_prepared by exact B. rewrite E. cbn [bind]. eexists. split; [reflexivity|].
  intros w. rewrite in_app_iff, H, in_flat_map. split.
  - intros [(b & I & J)|(j' & b & I & J & K)]; [|exists j', b; split; [now right|split; assumption]].
    exists j, b. split; [now left|]. split; [exact I|]. unfold band_windows in J. apply in_flat_map in J. destruct J as ([v|e] & J & K); [|destruct K].
    destruct K as [<-|[]]. exact J.
  - intros (j' & b & [<-|I] & J & K); [left|right; exists j', b; split; [exact I|split; assumption]].
    exists b. split; [exact J|]. unfold band_windows. apply in_flat_map. exists (Ok w). split; [exact K|now left].
Qed.
Lemma collect_failed jobs j e : In j jobs -> j_prepare j = Some e -> exists e', collect jobs = Raise e'.
Proof.
  induction jobs as [|x jobs IH]; [intros []|]. intros I P. cbn [collect]. destruct (run_job x) as [out [e'|]] eqn:E; [now exists e'|].
  destruct I as [->|I]; [unfold run_job in E; rewrite P in E; discriminate|]. destruct (IH I P) as [e' ->]. now exists e'.
Qed.

Local Open Scope nat_scope.
Lemma mapM_nth_ok {A B} (f : A -> result B) l r : mapM f l = Ok r -> forall i a, nth_error l i = Some a -> exists b, f a = Ok b /\ nth_error r i = Some b.
Proof.
  revert r. induction l as [|x l IH]; intros r E i a N; [destruct i; discriminate|]. cbn [mapM] in E.
  destruct (f x) as [y|] eqn:F; [|discriminate]. cbn [bind] in E. destruct (mapM f l) as [r'|] eqn:M; [|discriminate]. cbn [bind] in E. injection E as <-.
  destruct i as [|i]; [injection N as <-; exists y; auto|]. exact (IH r' eq_refl i a N).
Qed.
Lemma same_dims_shape a b : same_dims a b = true -> length a = length b /\ Forall2 (fun u v => length u = length v) a b.
Proof.
  unfold same_dims. intros [L F]%andb_true_iff. apply Nat.eqb_eq in L. split; [exact L|]. revert b L F.
  induction a as [|u a IH]; intros [|v b] L F; try discriminate; constructor; cbn [combine forallb fst snd] in F; apply andb_true_iff in F as [F1 F2].
  - now apply Nat.eqb_eq.
  - apply IH; [now injection L|exact F2].
Qed.
Lemma average_shapes w l r k a x b : average_wfcs (w :: l) = Ok r -> nth_error (w_refs w) k = Some a -> In x l ->
  nth_error (w_refs x) k = Some b -> length a = length b /\ Forall2 (fun u v => length u = length v) a b.
Proof.
  intros E A X B. unfold average_wfcs in E. destruct (negb _); [discriminate|].
  destruct (mapM _ (seq 0 (length (w_refs w)))) as [m|] eqn:M; [|discriminate].
  assert (K : k < length (w_refs w)) by (apply nth_error_Some; congruence).
  assert (SK : nth_error (seq 0 (length (w_refs w))) k = Some k).
  { rewrite (nth_error_nth' _ 0) by now rewrite seq_length. now rewrite seq_nth. }
  destruct (mapM_nth_ok _ _ _ M k k SK) as (y & Y & _).
  destruct (mapM _ (w :: l)) as [arrays|] eqn:AR; [|discriminate]. cbn [bind] in Y.
  destruct (mapM_nth_ok _ _ _ AR 0 w eq_refl) as (a' & A' & N0). rewrite A in A'. injection A' as <-.
  destruct (In_nth_error _ _ X) as [i I].
  destruct (mapM_nth_ok _ _ _ AR (S i) x I) as (b' & B' & N1). rewrite B in B'. injection B' as <-.
  destruct arrays as [|a0 arrays]; [discriminate|]. injection N0 as ->. unfold nan_mean_arrays in Y.
  destruct (forallb (same_dims a) (a :: arrays)) eqn:F; [|discriminate]. rewrite forallb_forall in F.
  apply same_dims_shape, F. eapply nth_error_In. exact N1.
Qed.
Lemma sorted_no_mean f : ~ In "mean"%string (map fst f) -> forall s, s_mean s = None -> s_mean (fold_left sort_member f s) = None.
Proof.
  induction f as [|kv f IH]; intros N s S; [exact S|]. cbn [fold_left]. apply IH; [intros C; apply N; now right|].
  unfold sort_member. destruct (is_av (fst kv)); [exact S|]. destruct (String.eqb_spec (fst kv) "mean") as [E|_].
  - exfalso. apply N. left. exact E.
  - destruct (is_substr "reftr" (fst kv)); exact S.
Qed.
Lemma read_no_mean f : ~ In "mean"%string (map fst f) -> exists e, read_wfc f = Raise e.
Proof.
  intros N. unfold read_wfc. destruct (existsb _ f); [eauto|]. cbv zeta.
  pose proof (sorted_no_mean f N (mkSM [] None [] []) eq_refl) as S. set (s := fold_left sort_member f _) in *. clearbody s.
  repeat match goal with |- context [bind ?x _] => destruct x; cbn [bind]; [|eauto] end. rewrite S. eauto.
Qed.
