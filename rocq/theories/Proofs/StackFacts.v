(** Stacking: groups and averages. *)
From Coq Require Import Permutation Sorted.
From Verif Require Import Lib.Base Lib.Str Lib.StrFacts Lib.Sorting Lib.Time Model.CorrStream Spec.StreamSpec Proofs.StreamFacts.
Local Open Scope nat_scope.

(** ** groups *)
Lemma group_add_keys k t d :
  map fst (group_add k t d) = if existsb (String.eqb k) (map fst d) then map fst d else map fst d ++ [k].
Proof.
  induction d as [|[k' l] d IH]; [reflexivity|]. cbn [group_add map fst existsb].
  destruct (String.eqb k k') eqn:E; [reflexivity|]. cbn [map fst orb]. rewrite IH.
  destruct (existsb (String.eqb k) (map fst d)); reflexivity.
Qed.

Definition key_of (loc : bool) (st : list ctr) (k : string) : list ctr :=
  filter (fun t => String.eqb (group_key loc t) k) st.

Lemma group_add_in k t d k' l' : NoDup (map fst d) -> In (k', l') (group_add k t d) ->
  (k' <> k /\ In (k', l') d) \/
  (k' = k /\ ((exists l, In (k, l) d /\ l' = l ++ [t]) \/ (~ In k (map fst d) /\ l' = [t]))).
Proof.
  induction d as [|[k0 l0] d IH]; intros Hnd Hin.
  - cbn in Hin. destruct Hin as [H|[]]. injection H as <- <-. right. split; [reflexivity|]. right. split; [intros []|reflexivity].
  - cbn [group_add] in Hin. cbn [map fst] in Hnd. apply NoDup_cons_iff in Hnd as [Hn Hnd].
    destruct (String.eqb k k0) eqn:E.
    + apply String.eqb_eq in E. subst k0. destruct Hin as [H|H].
      * apply pair_equal_spec in H as [<- <-]. right. split; [reflexivity|]. left. exists l0. split; [left; reflexivity|reflexivity].
      * left. split; [|right; exact H]. intros ->. apply Hn. apply in_map_iff. exists (k, l'). auto.
    + apply String.eqb_neq in E. destruct Hin as [H|H].
      * apply pair_equal_spec in H as [<- <-]. left. split; [congruence|left; reflexivity].
      * destruct (IH Hnd H) as [[H1 H2]|[H1 [[l [H2 H3]]|[H2 H3]]]].
        -- left. split; [exact H1|right; exact H2].
        -- right. split; [exact H1|]. left. exists l. split; [right; exact H2|exact H3].
        -- right. split; [exact H1|]. right. split; [|exact H3]. cbn [map fst]. intros [X|X]; congruence.
Qed.

Lemma groups_spec loc st :
  NoDup (map fst (groups loc st)) /\
  (forall k l, In (k, l) (groups loc st) -> l = key_of loc st k /\ l <> []) /\
  (forall t, In t st -> In (group_key loc t) (map fst (groups loc st))).
Proof.
  induction st as [|x st [IH1 [IH2 IH3]]] using rev_ind.
  - split; [constructor|]. split; [intros k l []|intros t []].
  - assert (E : groups loc (st ++ [x]) = group_add (group_key loc x) x (groups loc st)).
    { unfold groups. rewrite fold_left_app. reflexivity. }
    rewrite E, group_add_keys.
    assert (Hex : existsb (String.eqb (group_key loc x)) (map fst (groups loc st)) = true <->
                  In (group_key loc x) (map fst (groups loc st))).
    { rewrite existsb_exists. split.
      - intros [y [Hy He]]. apply String.eqb_eq in He. subst. exact Hy.
      - intros H. exists (group_key loc x). split; [exact H|apply String.eqb_refl]. }
    split; [|split].
    + destruct (existsb _ _) eqn:Ex; [exact IH1|].
      apply NoDup_Add with (a := group_key loc x) (l := map fst (groups loc st)).
      * rewrite <- (app_nil_r (map fst (groups loc st))) at 1. apply Add_app.
      * split; [exact IH1|]. intros X. apply Hex in X. discriminate.
    + intros k l Hin. unfold key_of. rewrite filter_app. cbn [filter].
      destruct (group_add_in _ _ _ _ _ IH1 Hin) as [[H1 H2]|[H1 [[l0 [H2 H3]]|[H2 H3]]]].
      * destruct (String.eqb (group_key loc x) k) eqn:Ek; [apply String.eqb_eq in Ek; congruence|].
        rewrite app_nil_r. apply IH2. exact H2.
      * subst k. rewrite String.eqb_refl. destruct (IH2 _ _ H2) as [-> _]. subst l. split; [reflexivity|].
        destruct (key_of loc st (group_key loc x)); discriminate.
      * subst k l. rewrite String.eqb_refl. split; [|discriminate].
        assert (X : filter (fun t => String.eqb (group_key loc t) (group_key loc x)) st = []).
        { destruct (filter _ st) as [|y m] eqn:Ef; [reflexivity|]. exfalso.
          assert (Hy : In y (filter (fun t => String.eqb (group_key loc t) (group_key loc x)) st)) by (rewrite Ef; left; reflexivity).
          apply filter_In in Hy as [Hy Hk]. apply String.eqb_eq in Hk. apply H2. rewrite <- Hk. apply IH3. exact Hy. }
        rewrite X. reflexivity.
    + intros t Ht. apply in_app_iff in Ht. destruct Ht as [Ht|[<-|[]]].
      * specialize (IH3 t Ht). destruct (existsb _ _); [exact IH3|]. apply in_app_iff. left. exact IH3.
      * destruct (existsb _ _) eqn:Ex; [apply Hex; reflexivity|]. apply in_app_iff. right. left. reflexivity.
Qed.

Lemma split_dot a r : has_char "." a = false -> split_on "." (a ++ "." ++ r)%string = a :: split_on "." r.
Proof. intros H. exact (split_on_app "." a r H). Qed.

Lemma key_iff loc a b : dotless a -> dotless b -> (group_key loc a = group_key loc b <-> same_id loc a b).
Proof.
  intros (A1 & A2 & A3 & A4) (B1 & B2 & B3 & B4). unfold group_key, same_id. split.
  - intros H. destruct loc.
    + apply (f_equal (split_on ".")) in H. rewrite !split_dot in H by assumption.
      rewrite !split_on_no in H by assumption. injection H as -> -> -> ->. auto.
    + apply (f_equal (split_on ".")) in H. rewrite !split_dot in H by assumption.
      rewrite !split_on_no in H by assumption. injection H as -> -> ->. repeat split; try discriminate.
  - intros (-> & -> & -> & H). destruct loc; [rewrite (H eq_refl); reflexivity|reflexivity].
Qed.

Lemma same_idb_iff loc a b : same_idb loc a b = true <-> same_id loc a b.
Proof.
  unfold same_idb, same_id. rewrite !andb_true_iff, !String.eqb_eq, orb_true_iff, negb_true_iff, String.eqb_eq.
  destruct loc; intuition (try congruence).
Qed.

Lemma mapM_Forall2 {A B} (f : A -> result B) l r : mapM f l = Ok r <-> Forall2 (fun x y => f x = Ok y) l r.
Proof.
  revert r. induction l as [|x l IH]; intros r; cbn [mapM].
  - split; [intros H; injection H as <-; constructor|inversion 1; reflexivity].
  - split.
    + destruct (f x) as [y|] eqn:E; [|discriminate]. cbn [bind].
      destruct (mapM f l) as [ys|] eqn:El; [|discriminate]. cbn [bind]. intros H. injection H as <-.
      constructor; [exact E|]. apply IH. reflexivity.
    + inversion 1; subst. cbn [bind]. rewrite H2. cbn [bind]. apply IH in H4. rewrite H4. reflexivity.
Qed.

(** ** header of a stack *)
Lemma stack_header w st o : stack_st w st = Ok o ->
  exists h e, In h st /\ In e st /\
    (forall t, In t st -> (t_start h <= t_start t)%Z) /\
    (forall t, In t st -> (t_start t <= t_start e)%Z) /\
    t_net o = t_net h /\ t_sta o = t_sta h /\ t_cha o = t_cha h /\ t_loc o = t_loc h /\
    t_start o = t_start h /\ t_end o = t_end e /\ t_sr o = t_sr h /\ t_lag o = t_lag h /\ t_geo o = t_geo h.
Proof.
  unfold stack_st. destruct (sort_start st) as [|h r] eqn:E; [discriminate|].
  assert (Hmem : forall t, In t (h :: r) <-> In t st).
  { intros t. rewrite <- E. split; apply Permutation_in; [|symmetry]; apply sort_start_perm. }
  pose proof (sort_start_sorted st) as Hsort. rewrite E in Hsort.
  intros H. exists h, (last (h :: r) h).
  split; [apply Hmem; left; reflexivity|]. split; [apply Hmem; apply last_In; discriminate|].
  split.
  { intros t Ht. apply Hmem in Ht as [<-|Ht]; [lia|].
    apply StronglySorted_inv in Hsort as [_ HF]. rewrite Forall_forall in HF. apply HF. exact Ht. }
  split.
  { intros t Ht. apply sorted_last; [exact Hsort|]. apply Hmem. exact Ht. }
  cbv zeta in H.
  destruct (String.eqb w "mean" || String.eqb w "average"); [injection H as <-; cbn; auto 12|].
  destruct (String.eqb w "by_length"); [injection H as <-; cbn; auto 12|discriminate].
Qed.

(** ** averages *)
Lemma npts_leb_total a b : npts_leb a b = true \/ npts_leb b a = true.
Proof. unfold npts_leb. lia. Qed.
Lemma npts_leb_trans a b c : npts_leb a b = true -> npts_leb b c = true -> npts_leb a c = true.
Proof. unfold npts_leb. lia. Qed.

Lemma sorted_npts_last (l : list ctr) d : StronglySorted (le_rel npts_leb) l ->
  forall t, In t l -> npts t <= npts (last l d).
Proof.
  induction 1 as [|x l Hs IH HF]; intros t Ht; [contradiction|].
  destruct l as [|y l].
  - destruct Ht as [<-|[]]. cbn. lia.
  - change (last (x :: y :: l) d) with (last (y :: l) d).
    destruct Ht as [<-|Ht]; [|apply IH; exact Ht].
    rewrite Forall_forall in HF.
    assert (Hin : In (last (y :: l) d) (y :: l)) by (apply last_In; discriminate).
    specialize (HF _ Hin). unfold le_rel, npts_leb in HF. lia.
Qed.

Definition selected (st : list ctr) : list ctr :=
  match sort_start st with
  | [] => []
  | h :: r => let byn := sort npts_leb (h :: r) in filter (fun t => npts t =? npts (last byn h)) byn
  end.
Definition max_npts (st : list ctr) : nat :=
  match sort_start st with [] => 0 | h :: r => npts (last (sort npts_leb (h :: r)) h) end.

Lemma max_npts_spec st : st <> [] ->
  (forall t, In t st -> npts t <= max_npts st) /\ exists t, In t st /\ npts t = max_npts st.
Proof.
  intros Hne. unfold max_npts. destruct (sort_start st) as [|h r] eqn:E.
  { exfalso. apply Hne. apply Permutation_nil. rewrite <- E. apply sort_start_perm. }
  assert (HP : Permutation (sort npts_leb (h :: r)) st).
  { rewrite sort_perm, <- E. apply sort_start_perm. }
  split.
  - intros t Ht. apply sorted_npts_last.
    + apply sort_sorted; [exact npts_leb_total|exact npts_leb_trans].
    + apply (Permutation_in _ (Permutation_sym HP)). exact Ht.
  - exists (last (sort npts_leb (h :: r)) h). split; [|reflexivity].
    apply (Permutation_in _ HP). apply last_In.
    intros X. rewrite X in HP. apply Permutation_nil in HP. congruence.
Qed.

Lemma selected_longest st : Permutation (selected st) (longest st).
Proof.
  destruct st as [|x0 st0]; [constructor|]. set (st := x0 :: st0).
  destruct (max_npts_spec st) as [Hmax [tm [Htm Hn]]]; [discriminate|].
  unfold selected, longest. unfold max_npts in Hmax, Hn.
  destruct (sort_start st) as [|h r] eqn:E.
  { exfalso. assert (X : Permutation [] st) by (rewrite <- E; apply sort_start_perm).
    apply Permutation_nil in X. discriminate. }
  cbv zeta. set (n := npts (last (sort npts_leb (h :: r)) h)) in *.
  assert (HP : Permutation (sort npts_leb (h :: r)) st).
  { rewrite sort_perm, <- E. apply sort_start_perm. }
  rewrite (filter_perm _ _ _ HP).
  rewrite (filter_ext_in _ (fun t => forallb (fun u => length (t_data u) <=? length (t_data t)) st)); [reflexivity|].
  intros t Ht. apply Bool.eq_true_iff_eq. rewrite Nat.eqb_eq, forallb_forall. unfold npts in *. split.
  - intros Heq u Hu. apply Nat.leb_le. rewrite Heq. apply Hmax. exact Hu.
  - intros H. specialize (H tm Htm). apply Nat.leb_le in H. specialize (Hmax t Ht). lia.
Qed.

(** sums *)
Lemma qsum_perm l m : Permutation l m -> (qsum l == qsum m)%Q.
Proof.
  induction 1 as [|x l m H IH|x y l|l m n H1 IH1 H2 IH2]; cbn [qsum fold_right].
  - reflexivity.
  - fold (qsum l) (qsum m). rewrite IH. reflexivity.
  - ring.
  - rewrite IH1. exact IH2.
Qed.
Lemma qsum_ext l m : Forall2 Qeq l m -> (qsum l == qsum m)%Q.
Proof. induction 1 as [|x y l m H1 H2 IH]; cbn [qsum fold_right]; [reflexivity|]. fold (qsum l) (qsum m). rewrite H1, IH. reflexivity. Qed.

Lemma qdiv_same a b c d : (a == b)%Q -> (c == d)%Q -> same_sample (qdiv a c) (qdiv b d).
Proof.
  intros H1 H2. unfold qdiv. destruct (Qeq_bool c 0) eqn:E1, (Qeq_bool d 0) eqn:E2; cbn; auto.
  - apply Qeq_bool_iff in E1. rewrite H2 in E1. apply Qeq_bool_iff in E1. congruence.
  - apply Qeq_bool_iff in E2. rewrite <- H2 in E2. apply Qeq_bool_iff in E2. congruence.
  - rewrite H1, H2. reflexivity.
Qed.
Lemma same_sample_sym a b : same_sample a b -> same_sample b a.
Proof. destruct a, b; cbn; auto. intros H. symmetry. exact H. Qed.
Lemma same_sample_trans a b c : same_sample a b -> same_sample b c -> same_sample a c.
Proof. destruct a, b, c; cbn; auto; try contradiction. intros H1 H2. rewrite H1. exact H2. Qed.
Lemma same_sample_refl a : same_sample a a.
Proof. destruct a; cbn; auto. reflexivity. Qed.

Definition keep (l : list (Q * sample)) : list (Q * Q) :=
  flat_map (fun p => match snd p with Some x => [(fst p, x)] | None => [] end) l.
Lemma wmean_alt l : wmean l = qdiv (qsum (map (fun p => (fst p * snd p)%Q) (keep l))) (qsum (map fst (keep l))).
Proof. reflexivity. Qed.
Lemma flat_map_perm {A B} (f : A -> list B) l m : Permutation l m -> Permutation (flat_map f l) (flat_map f m).
Proof. apply Permutation_flat_map. Qed.
Lemma wmean_perm l m : Permutation l m -> same_sample (wmean l) (wmean m).
Proof.
  intros H. rewrite !wmean_alt. apply qdiv_same; apply qsum_perm, Permutation_map, flat_map_perm; exact H.
Qed.

Lemma nanmean_wmean (st : list ctr) i : same_sample (nanmean (column i st)) (wmean (map (fun t => (1%Q, nth i (t_data t) None)) st)).
Proof.
  unfold nanmean. rewrite wmean_alt. apply qdiv_same.
  - unfold column, keep. induction st as [|t st IH]; [reflexivity|]. cbn [map flat_map defined fst snd].
    destruct (nth i (t_data t) None) as [x|]; cbn [app map qsum fold_right fst snd]; [|exact IH].
    fold (qsum (map (fun p : Q * Q => (fst p * snd p)%Q)
     (flat_map (fun p : Q * sample => match snd p with Some x0 => [(fst p, x0)] | None => [] end)
        (map (fun t0 : ctr => (1%Q, nth i (t_data t0) None)) st)))).
    rewrite <- IH. unfold defined. fold (qsum (flat_map (fun x0 : option Q => match x0 with Some q => [q] | None => [] end)
     (map (fun t0 : ctr => nth i (t_data t0) None) st))). ring.
  - unfold column, keep. induction st as [|t st IH]; [reflexivity|]. cbn [map flat_map defined fst snd].
    destruct (nth i (t_data t) None) as [x|]; cbn [app map qsum fold_right fst snd length]; [|exact IH].
    fold (qsum (map fst
     (flat_map (fun p : Q * sample => match snd p with Some x0 => [(fst p, x0)] | None => [] end)
        (map (fun t0 : ctr => (1%Q, nth i (t_data t0) None)) st)))).
    rewrite <- IH. unfold defined. rewrite Nat2Z.inj_succ. unfold Z.succ. rewrite inject_Z_plus. 
    change (inject_Z 1) with 1%Q. ring.
Qed.

Lemma by_length_wmean (st : list ctr) i :
  (forall t, In t st -> nth i (t_data t) None <> None) ->
  same_sample (by_length (map durat st) (column i st))
              (wmean (map (fun t => (inject_Z (t_end t - t_start t), nth i (t_data t) None)) st)).
Proof.
  intros Hn. unfold by_length. rewrite wmean_alt.
  assert (K : keep (map (fun t => (inject_Z (t_end t - t_start t), nth i (t_data t) None)) st) =
              map (fun t => (inject_Z (t_end t - t_start t), val (nth i (t_data t) None))) st).
  { induction st as [|t st IH]; [reflexivity|]. cbn [map keep flat_map fst snd].
    pose proof (Hn t (or_introl eq_refl)) as Ht. destruct (nth i (t_data t) None) as [x|]; [|congruence].
    cbn [app val]. f_equal. apply IH. intros u Hu. apply Hn. right. exact Hu. }
  rewrite K, !map_map. apply qdiv_same.
  - unfold column. clear. induction st as [|t st IH]; [reflexivity|].
    cbn [map combine qsum fold_right fst snd]. 
    fold (qsum (map (fun p => (val (snd p) * inject_Z (fst p))%Q) (combine (map durat st) (map (fun t => nth i (t_data t) None) st)))).
    cbn [fst snd] in IH. rewrite IH. unfold durat.
    fold (qsum (map (fun x => (inject_Z (t_end x - t_start x) * val (nth i (t_data x) None))%Q) st)). ring.
  - unfold durat. cbn [fst]. reflexivity.
Qed.

(** ** scaling *)
Lemma nanmaxabs_spec (l : list sample) m : nanmaxabs l = Some m ->
  (forall x, In x (defined l) -> (Qabs x <= m)%Q) /\ exists x, In x (defined l) /\ Qabs x = m.
Proof.
  unfold nanmaxabs. destruct (defined l) as [|x r]; [discriminate|]. intros H. injection H as <-.
  assert (G : forall r a, (a <= fold_left (fun a b => if Qle_bool a (Qabs b) then Qabs b else a) r a)%Q /\
     (forall x, In x r -> (Qabs x <= fold_left (fun a b => if Qle_bool a (Qabs b) then Qabs b else a) r a)%Q) /\
     (fold_left (fun a b => if Qle_bool a (Qabs b) then Qabs b else a) r a = a \/
      exists x, In x r /\ Qabs x = fold_left (fun a b => if Qle_bool a (Qabs b) then Qabs b else a) r a)).
  { clear. induction r as [|y r IH]; intros a; cbn [fold_left].
    - split; [apply Qle_refl|]. split; [intros x []|left; reflexivity].
    - destruct (Qle_bool a (Qabs y)) eqn:E.
      + apply Qle_bool_iff in E. destruct (IH (Qabs y)) as (H1 & H2 & H3). split; [eapply Qle_trans; eassumption|]. split.
        * intros x [<-|Hx]; [exact H1|apply H2; exact Hx].
        * right. destruct H3 as [H3|[x [Hx H3]]]; [exists y|exists x]; split; auto; [left; reflexivity|right; exact Hx].
      + assert (E' : (Qabs y <= a)%Q). { apply Qnot_lt_le. intros X. apply Qlt_le_weak, Qle_bool_iff in X. congruence. }
        destruct (IH a) as (H1 & H2 & H3). split; [exact H1|]. split.
        * intros x [<-|Hx]; [eapply Qle_trans; eassumption|apply H2; exact Hx].
        * destruct H3 as [H3|[x [Hx H3]]]; [left; exact H3|right; exists x; split; [right; exact Hx|exact H3]]. }
  destruct (G r (Qabs x)) as (H1 & H2 & H3). split.
  - intros y [<-|Hy]; [exact H1|apply H2; exact Hy].
  - destruct H3 as [H3|[y [Hy H3]]]; [exists x|exists y]; split; auto; [left; reflexivity|right; exact Hy].
Qed.

Lemma in_defined (l : list sample) x : In x (defined l) <-> In (Some x) l.
Proof.
  unfold defined. rewrite in_flat_map. split.
  - intros [[y|] [Hy Hx]]; [|contradiction]. destruct Hx as [<-|[]]. exact Hy.
  - intros H. exists (Some x). split; [exact H|left; reflexivity].
Qed.

Lemma normalise_scaled (l : list sample) :
  (exists i q, nth i l None = Some q /\ ~ (q == 0)%Q) ->
  scaled_to_one (fun i => nth i l None) (normalise l).
Proof.
  intros [i0 [q0 [Hq Hnz]]].
  assert (Hin : In q0 (defined l)).
  { apply in_defined. rewrite <- Hq. apply nth_In. destruct (Nat.lt_ge_cases i0 (length l)) as [|H]; [assumption|].
    rewrite nth_overflow in Hq by exact H. discriminate. }
  destruct (nanmaxabs l) as [m|] eqn:Em.
  2:{ unfold nanmaxabs in Em. destruct (defined l); [contradiction|discriminate]. }
  destruct (nanmaxabs_spec l m Em) as [Hle [x [Hx Hxm]]].
  assert (Hpos : (0 < m)%Q).
  { apply Qlt_le_trans with (Qabs q0); [|apply Hle; exact Hin].
    destruct (Qlt_le_dec 0 (Qabs q0)) as [|H]; [assumption|]. exfalso. apply Hnz.
    assert (Hz : (Qabs q0 == 0)%Q) by (apply Qle_antisym; [exact H|apply Qabs_nonneg]).
    destruct (Qlt_le_dec q0 0) as [Hlt|Hge].
    - rewrite Qabs_neg in Hz by (apply Qlt_le_weak; exact Hlt). rewrite <- (Qopp_opp q0), Hz. reflexivity.
    - rewrite Qabs_pos in Hz by exact Hge. exact Hz. }
  assert (Hne : Qeq_bool m 0 = false).
  { destruct (Qeq_bool m 0) eqn:E; [|reflexivity]. apply Qeq_bool_iff in E. rewrite E in Hpos. apply Qlt_irrefl in Hpos. contradiction. }
  assert (Hm0 : ~ (m == 0)%Q). { intros X. apply Qeq_bool_iff in X. congruence. }
  assert (Hval : forall i, i < length l -> nth i (normalise l) None = match nth i l None with Some q => Some (q / m)%Q | None => None end).
  { intros i Hi. unfold normalise. rewrite Em.
    rewrite (nth_indep _ None (sdiv None (Some m))) by (rewrite map_length; exact Hi).
    rewrite (map_nth (fun x0 => sdiv x0 (Some m))). cbv beta. destruct (nth i l None); cbn [sdiv]; [|reflexivity].
    unfold qdiv. rewrite Hne. reflexivity. }
  assert (Hlen : length (normalise l) = length l) by apply map_length.
  exists m. split; [exact Hpos|]. split.
  - intros i Hi. rewrite Hlen in Hi. rewrite (Hval i Hi). destruct (nth i l None) as [q|] eqn:E; [|exact I].
    split; [field; exact Hm0|].
    assert (Hqin : In q (defined l)). { apply in_defined. rewrite <- E. apply nth_In. exact Hi. }
    unfold Qdiv. rewrite Qabs_Qmult, (Qabs_pos (/ m)) by (apply Qlt_le_weak, Qinv_lt_0_compat; exact Hpos).
    apply Qle_shift_div_r; [exact Hpos|]. rewrite Qmult_1_l. apply Hle. exact Hqin.
  - apply in_defined in Hx. apply In_nth with (d := None) in Hx as [i [Hi E]].
    exists i, (x / m)%Q. rewrite Hlen. split; [exact Hi|]. rewrite (Hval i Hi), E. split; [reflexivity|].
    unfold Qdiv. rewrite Qabs_Qmult, (Qabs_pos (/ m)) by (apply Qlt_le_weak, Qinv_lt_0_compat; exact Hpos).
    rewrite Hxm. apply Qmult_inv_r. exact Hm0.
Qed.

Lemma normalise_zero (l : list sample) :
  (forall i q, nth i l None = Some q -> (q == 0)%Q) -> forall i, nth i (normalise l) None = None.
Proof.
  intros H i. destruct (Nat.lt_ge_cases i (length l)) as [Hi|Hi].
  2:{ apply nth_overflow. unfold normalise. rewrite map_length. exact Hi. }
  unfold normalise. rewrite (nth_indep _ None (sdiv None (nanmaxabs l))) by (rewrite map_length; exact Hi).
  rewrite (map_nth (fun x0 => sdiv x0 (nanmaxabs l))). cbv beta. destruct (nth i l None) as [q|] eqn:E; [|reflexivity].
  destruct (nanmaxabs l) as [m|] eqn:Em; [|reflexivity]. cbn [sdiv]. unfold qdiv.
  destruct (nanmaxabs_spec l m Em) as [_ [x [Hx Hxm]]]. apply in_defined in Hx. apply In_nth with (d := None) in Hx as [j [Hj Ej]].
  pose proof (H j x Ej) as Hz. destruct (Qeq_bool m 0) eqn:E0; [reflexivity|].
  exfalso. assert (X : (m == 0)%Q). { rewrite <- Hxm, Hz. reflexivity. } apply Qeq_bool_iff in X. congruence.
Qed.

(** ** the data of a stack *)
Lemma stack_data w by_len st o : weight_ok w by_len -> stack_st w st = Ok o ->
  (by_len = true -> forall t, In t st -> has_nan t = false) ->
  exists avg, t_data o = normalise avg /\ length avg = max_npts st /\
    forall i, i < length avg -> same_sample (nth i avg None) (average_at by_len st i).
Proof.
  intros Hw Hs Hnan. unfold stack_st in Hs.
  unfold max_npts. pose proof (selected_longest st) as HP. unfold selected in HP.
  destruct (sort_start st) as [|h r] eqn:E; [discriminate|]. cbv zeta in Hs, HP.
  set (n := npts (last (sort npts_leb (h :: r)) h)) in *.
  set (sel := filter (fun t => npts t =? n) (sort npts_leb (h :: r))) in *.
  assert (Hsel : forall t, In t sel -> In t st).
  { intros t Ht. apply filter_In in Ht as [Ht _]. apply sort_in in Ht. rewrite <- E in Ht.
    apply (Permutation_in _ (sort_start_perm st)). exact Ht. }
  assert (Hcol : forall (f : list sample -> sample) i, i < n ->
             nth i (map f (map (fun i => column i sel) (seq 0 n))) None = f (column i sel)).
  { intros f i Hi. rewrite map_map.
    rewrite (nth_indep _ None (f (column 0 sel))) by (rewrite map_length, seq_length; exact Hi).
    rewrite (map_nth (fun i => f (column i sel)) (seq 0 n) 0). rewrite seq_nth by exact Hi. reflexivity. }
  destruct Hw as [[-> ->]|[-> Hw]].
  - cbn in Hs. injection Hs as <-. cbn [t_data].
    exists (map (by_length (map durat sel)) (map (fun i => column i sel) (seq 0 n))).
    split; [reflexivity|]. split; [rewrite !map_length, seq_length; reflexivity|].
    intros i Hi. rewrite !map_length, seq_length in Hi. rewrite (Hcol _ i Hi).
    eapply same_sample_trans; [apply by_length_wmean|].
    + intros t Ht. specialize (Hnan eq_refl t (Hsel t Ht)). apply filter_In in Ht as [_ Ht]. apply Nat.eqb_eq in Ht.
      unfold has_nan in Hnan. intros X.
      assert (Y : existsb (fun x : option Q => match x with Some _ => false | None => true end) (t_data t) = true).
      { apply existsb_exists. exists None. split; [|reflexivity]. rewrite <- X. apply nth_In. unfold npts in Ht. lia. }
      congruence.
    + unfold average_at, weight_of. apply wmean_perm, Permutation_map. exact HP.
  - assert (Hb : (String.eqb w "mean" || String.eqb w "average")%bool = true).
    { destruct Hw as [-> | ->]; reflexivity. }
    rewrite Hb in Hs. injection Hs as <-. cbn [t_data].
    exists (map nanmean (map (fun i => column i sel) (seq 0 n))).
    split; [reflexivity|]. split; [rewrite !map_length, seq_length; reflexivity|].
    intros i Hi. rewrite !map_length, seq_length in Hi. rewrite (Hcol _ i Hi).
    eapply same_sample_trans; [apply nanmean_wmean|].
    unfold average_at, weight_of. apply wmean_perm, Permutation_map. exact HP.
Qed.

Lemma scaled_ext f g out : (forall i, i < length out -> same_sample (f i) (g i)) -> scaled_to_one f out -> scaled_to_one g out.
Proof.
  intros H [c [Hc [H1 H2]]]. exists c. split; [exact Hc|]. split; [|exact H2].
  intros i Hi. specialize (H i Hi). specialize (H1 i Hi).
  destruct (f i), (g i), (nth i out None); cbn in H; try contradiction; auto.
  destruct H1 as [H1 H1']. split; [rewrite H1; exact H|exact H1'].
Qed.

Lemma stack_nonempty w st o : stack_st w st = Ok o -> st <> [].
Proof. intros H ->. discriminate. Qed.

Theorem stack_average w by_len st o : weight_ok w by_len -> stack_st w st = Ok o ->
  (by_len = true -> forall t, In t st -> has_nan t = false) ->
  (forall t, In t st -> length (t_data t) <= length (t_data o)) /\
  (exists t, In t st /\ length (t_data t) = length (t_data o)) /\
  ((exists i q, i < length (t_data o) /\ average_at by_len st i = Some q /\ ~ (q == 0)%Q) ->
   scaled_to_one (average_at by_len st) (t_data o)) /\
  ((forall i q, i < length (t_data o) -> average_at by_len st i = Some q -> (q == 0)%Q) ->
   forall i, nth i (t_data o) None = None).
Proof.
  intros Hw Hs Hn. destruct (stack_data w by_len st o Hw Hs Hn) as [avg [Hd [Hl Ha]]].
  destruct (max_npts_spec st (stack_nonempty _ _ _ Hs)) as [M1 [tm [M2 M3]]]. unfold npts in M1, M3.
  assert (Hlo : length (t_data o) = length avg). { rewrite Hd. apply map_length. }
  rewrite Hlo, Hl. split; [exact M1|]. split; [exists tm; auto|]. split.
  - intros [i [q [Hi [Hq Hnz]]]]. rewrite Hd. apply (scaled_ext (fun i => nth i avg None)).
    + intros j Hj. apply Ha. unfold normalise in Hj. rewrite map_length in Hj. exact Hj.
    + apply normalise_scaled. specialize (Ha i ltac:(lia)). rewrite Hq in Ha.
      destruct (nth i avg None) as [q'|] eqn:E; [|contradiction]. exists i, q'. split; [exact E|].
      cbn in Ha. rewrite Ha. exact Hnz.
  - intros Hz i. rewrite Hd. apply normalise_zero. intros j q Hq.
    assert (Hj : j < length avg).
    { destruct (Nat.lt_ge_cases j (length avg)) as [|X]; [assumption|]. rewrite nth_overflow in Hq by exact X. discriminate. }
    specialize (Ha j Hj). rewrite Hq in Ha. destruct (average_at by_len st j) as [q'|] eqn:E; [|contradiction].
    cbn in Ha. rewrite Ha. apply (Hz j q'); [lia|exact E].
Qed.

(** ** one stack per group *)
Theorem stack_groups loc w st out : (forall t, In t st -> dotless t) ->
  stack_by_group loc w st = Ok out ->
  (forall o, In o out -> stack_st w (filter (same_idb loc o) st) = Ok o) /\
  (forall t, In t st -> exists o, In o out /\ same_id loc t o) /\
  ForallOrdPairs (fun a b => ~ same_id loc a b) out.
Proof.
  intros Hdot Hs. unfold stack_by_group in Hs. apply mapM_Forall2 in Hs.
  destruct (groups_spec loc st) as [G1 [G2 G3]].
  (* every output belongs to its key *)
  assert (Hout : Forall2 (fun g o => stack_st w (snd g) = Ok o /\ snd g = filter (same_idb loc o) st /\
                           dotless o /\ group_key loc o = fst g) (groups loc st) out).
  { assert (X : forall g, In g (groups loc st) -> snd g = key_of loc st (fst g) /\ snd g <> []).
    { intros [k l] Hg. apply G2. exact Hg. }
    clear G1 G2 G3. induction Hs as [|g o gs os Hg Hs IH]; [constructor|].
    constructor; [|apply IH; intros g' Hg'; apply X; right; exact Hg'].
    destruct (X g (or_introl eq_refl)) as [Hk Hne]. split; [exact Hg|].
    destruct (stack_header _ _ _ Hg) as (h & e & Hh & _ & _ & _ & N1 & N2 & N3 & N4 & _).
    rewrite Hk in Hh. apply filter_In in Hh as [Hh Hhk]. apply String.eqb_eq in Hhk.
    assert (Hdo : dotless o).
    { destruct (Hdot h Hh) as (D1 & D2 & D3 & D4). unfold dotless. rewrite N1, N2, N3, N4. auto. }
    assert (Hko : group_key loc o = fst g).
    { rewrite <- Hhk. unfold group_key. rewrite N1, N2, N3, N4. reflexivity. }
    split; [|split; [exact Hdo|exact Hko]].
    rewrite Hk. unfold key_of. apply filter_ext_in. intros t Ht. apply Bool.eq_true_iff_eq.
    rewrite String.eqb_eq, same_idb_iff, <- Hko. split.
    - intros H. apply key_iff; auto.
    - intros H. symmetry. apply key_iff; auto. }
  split; [|split].
  - intros o Ho. clear - Hout Ho. induction Hout as [|g o' gs os [H1 [H2 _]] H IH]; [contradiction|].
    destruct Ho as [<-|Ho]; [|apply IH; exact Ho]. rewrite <- H2. exact H1.
  - intros t Ht. specialize (G3 t Ht). apply in_map_iff in G3 as [g [Hg Hin]].
    assert (X : exists o, In o out /\ dotless o /\ group_key loc o = fst g).
    { clear - Hout Hin. induction Hout as [|g' o gs os [_ [_ H1]] H IH]; [contradiction|].
      destruct Hin as [->|Hin].
      - exists o. split; [left; reflexivity|exact H1].
      - destruct (IH Hin) as [o' [Ho' H']]. exists o'. split; [right; exact Ho'|exact H']. }
    destruct X as [o [Ho [Hd Hk]]]. exists o. split; [exact Ho|]. apply key_iff; auto. congruence.
  - clear - Hout G1. induction Hout as [|g o gs os [_ [_ [Hd Hk]]] H IH]; [constructor|].
    cbn [map] in G1. apply NoDup_cons_iff in G1 as [Hni Hnd]. constructor; [|apply IH; exact Hnd].
    apply Forall_forall. intros o' Ho' Hsame.
    assert (X : exists g', In g' gs /\ dotless o' /\ group_key loc o' = fst g').
    { clear - H Ho'. induction H as [|g' o0 gs os [_ [_ H1]] H IH]; [contradiction|].
      destruct Ho' as [->|Ho'].
      - exists g'. split; [left; reflexivity|exact H1].
      - destruct (IH Ho') as [g1 [Hg1 H2]]. exists g1. split; [right; exact Hg1|exact H2]. }
    destruct X as [g' [Hg' [Hd' Hk']]]. apply Hni. rewrite <- Hk.
    apply (key_iff loc o o' Hd Hd') in Hsame. rewrite Hsame, Hk'. apply in_map. exact Hg'.
Qed.
