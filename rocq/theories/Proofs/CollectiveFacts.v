(** Collective operations of the correlation loop. *)
From Verif Require Import Lib.Base Model.PxcorrLoop Model.Collectives Spec.CollectiveSpec.

Section Machine.
  Context {P R : Type}.
  Implicit Types ps qs : list (prog P R).

  Definition reach ps qs : Prop := exists n, mrun n ps = qs.

  Lemma reach_refl ps : reach ps ps.
  Proof. exists 0. reflexivity. Qed.

  Lemma mrun_stuck n ps : mstep ps = None -> mrun n ps = ps.
  Proof. destruct n; cbn [mrun]; [reflexivity|]. intros ->. reflexivity. Qed.

  Lemma mrun_add m n ps : mrun (m + n) ps = mrun n (mrun m ps).
  Proof.
    revert ps. induction m as [|m IH]; intros ps; [reflexivity|].
    cbn [Nat.add mrun]. destruct (mstep ps) eqn:E; [apply IH|].
    symmetry. apply mrun_stuck. exact E.
  Qed.

  Lemma reach_trans ps qs rs : reach ps qs -> reach qs rs -> reach ps rs.
  Proof. intros [m <-] [n <-]. exists (m + n). apply mrun_add. Qed.

  Lemma ckind_eqb_refl k : ckind_eqb k k = true.
  Proof. destruct k; reflexivity. Qed.

  Lemma contributions_map {A} k (p : A -> P) (f : A -> list P -> prog P R) l :
    contributions k (map (fun a => Coll k (p a) (f a)) l) = Some (map p l).
  Proof.
    induction l as [|a l IH]; [reflexivity|]. cbn [map contributions].
    rewrite ckind_eqb_refl, IH. reflexivity.
  Qed.

  Lemma step_all {A} k (p : A -> P) (f : A -> list P -> prog P R) l :
    l <> [] ->
    reach (map (fun a => Coll k (p a) (f a)) l) (map (fun a => f a (map p l)) l).
  Proof.
    intros Hl. exists 1. cbn [mrun]. destruct l as [|a l]; [congruence|].
    set (m := a :: l) in *.
    assert (E : mstep (map (fun a0 => Coll k (p a0) (f a0)) m)
                = Some (map (resume (map p m)) (map (fun a0 => Coll k (p a0) (f a0)) m))).
    { subst m. cbn [map mstep]. rewrite <- (map_cons (fun a0 => Coll k (p a0) (f a0))), contributions_map.
      reflexivity. }
    rewrite E, map_map. reflexivity.
  Qed.

  Lemma contributions_done k ps p : In p ps -> is_done p -> contributions k ps = None.
  Proof.
    induction ps as [|q ps IH]; [contradiction|].
    intros [-> | Hin] Hd.
    - destruct p; [reflexivity|contradiction].
    - cbn [contributions]. destruct q as [|k' v nx]; [reflexivity|].
      destruct (ckind_eqb k k'); [|reflexivity]. rewrite (IH Hin Hd). reflexivity.
  Qed.

  Lemma mstep_done ps p : In p ps -> is_done p -> mstep ps = None.
  Proof.
    intros Hin Hd. destruct ps as [|[r|k v nx] ps]; try reflexivity.
    unfold mstep. rewrite (contributions_done k _ p Hin Hd). reflexivity.
  Qed.

  Lemma completes_not_deadlocks ps rs : completes ps rs -> ~ deadlocks ps.
  Proof.
    intros [n Hn] [m [Hs [p [Hin Hd]]]].
    assert (E : mrun m ps = map Done rs).
    { destruct (Nat.le_ge_cases m n) as [H|H].
      - rewrite <- Hn. replace n with (m + (n - m)) by lia.
        rewrite mrun_add, (mrun_stuck _ _ Hs). reflexivity.
      - replace m with (n + (m - n)) by lia. rewrite mrun_add, Hn.
        destruct rs as [|r rs]; apply mrun_stuck; reflexivity. }
    rewrite E in Hin. apply in_map_iff in Hin as [r [<- _]]. apply Hd. exact I.
  Qed.
End Machine.

Section Loop.
  Context {T C K : Type}.
  Variable pc : @proc T C K.
  Variable subdiv : bool.
  Variable read_len corr_inc : Z.
  Notation rp := (@rprog T C K).

  (** what a window with the gathered traces w contributes *)
  Definition solo_finish (tm : Z) (w : list T) (c : list C) : option (list K) :=
    if is_nil w then None else Some (corr pc (cut pc tm w) c).
  Definition solo_subdivide (tm : Z) (w : list T) (c : list C) : option (list K) :=
    if subdiv then
      match prep pc tm w with None => None | Some w' => solo_finish tm w' (calc pc w') end
    else solo_finish tm w c.
  Definition solo (tm : Z) (all : list T) : option (list K) :=
    let w := tsort pc all in
    let c := calc pc w in
    if is_nil c then None
    else
      let w1 := prune pc c w in
      if length w1 =? length w then solo_subdivide tm w c
      else let c1 := calc pc w1 in if is_nil c1 then None else solo_subdivide tm w1 c1.

  Variable n : nat.
  Notation ranks := (seq 0 (S n)).

  Lemma ranks_nonnil : ranks <> [].
  Proof. discriminate. Qed.

  Lemma finish_all tm w c (k : nat -> option (list K) -> rp) :
    reach (map (fun r => finish pc r (tm r) w c (k r)) ranks)
          (map (fun r => k r (solo_finish (tm 0) w c)) ranks).
  Proof.
    unfold finish, solo_finish. destruct (is_nil w); [apply reach_refl|].
    unfold inner.
    eapply reach_trans; [apply (step_all Allreduce (fun _ => PM)); apply ranks_nonnil|]. cbv beta.
    eapply reach_trans; [apply (step_all Allreduce (fun _ => PM)); apply ranks_nonnil|]. cbv beta.
    eapply reach_trans; [apply (step_all Allreduce (fun _ => PM)); apply ranks_nonnil|]. cbv beta.
    eapply reach_trans; [apply (step_all Bcast (fun r => PK (on_root r (corr pc (cut pc (tm r) w) c)))); apply ranks_nonnil|].
    apply reach_refl.
  Qed.

  Definition in_step (tm : nat -> Z) : Prop := subdiv = false \/ forall r, In r ranks -> tm r = tm 0.

  Lemma subdivide_all tm w c (k : nat -> option (list K) -> rp) :
    in_step tm ->
    reach (map (fun r => subdivide pc subdiv r (tm r) w c (k r)) ranks)
          (map (fun r => k r (solo_subdivide (tm 0) w c)) ranks).
  Proof.
    unfold in_step, subdivide, solo_subdivide. intros H.
    destruct subdiv; [|apply finish_all].
    destruct H as [H|H]; [discriminate|].
    destruct (prep pc (tm 0) w) as [w'|] eqn:E.
    - rewrite (map_ext_in _ (fun r => Coll Bcast (PC (on_root r (calc pc w')))
                 (fun vs => finish pc r (tm r) w' (root_c vs) (k r)))).
      2:{ intros r Hr. cbv beta. rewrite (H r Hr), E. reflexivity. }
      eapply reach_trans; [apply (step_all Bcast (fun r => PC (on_root r (calc pc w')))); apply ranks_nonnil|].
      cbv beta. cbn [seq map root_c on_root]. apply (finish_all tm w' (calc pc w') k).
    - rewrite (map_ext_in _ (fun r => k r None)); [apply reach_refl|].
      intros r Hr. cbv beta. rewrite (H r Hr), E. reflexivity.
  Qed.

  Lemma window_all (tm : nat -> Z) (win : nat -> list T) (k : nat -> option (list K) -> rp) :
    in_step tm ->
    reach (map (fun r => window pc subdiv r (tm r) (win r) (k r)) ranks)
          (map (fun r => k r (solo (tm 0) (flat_map win ranks))) ranks).
  Proof.
    intros H. unfold window.
    eapply reach_trans; [apply (step_all Allgather (fun r => PW (win r))); apply ranks_nonnil|]. cbv beta zeta.
    assert (E : flat_map get_w (map (fun r => @PW T C K (win r)) ranks) = flat_map win ranks).
    { rewrite flat_map_concat_map, map_map, <- flat_map_concat_map. reflexivity. }
    rewrite E. unfold solo. set (w := tsort pc (flat_map win ranks)). clearbody w. cbv zeta.
    eapply reach_trans; [apply (step_all Bcast (fun r => PC (on_root r (calc pc w)))); apply ranks_nonnil|].
    cbv beta. 
    change (root_c (map (fun r => PC (on_root r (calc pc w))) ranks)) with (calc pc w).
    destruct (is_nil (calc pc w)); [apply reach_refl|].
    destruct (length (prune pc (calc pc w) w) =? length w).
    - apply (subdivide_all tm w (calc pc w) k H).
    - set (w1 := prune pc (calc pc w) w). clearbody w1.
      eapply reach_trans; [apply (step_all Bcast (fun r => PC (on_root r (calc pc w1)))); apply ranks_nonnil|].
      cbv beta.
      change (root_c (map (fun r => PC (on_root r (calc pc w1))) ranks)) with (calc pc w1).
      destruct (is_nil (calc pc w1)); [apply reach_refl|].
      apply (subdivide_all tm w1 (calc pc w1) k H).
  Qed.

  (** one round of the loop on all processes *)
  Lemma loop_round (first : nat -> bool) (tm : nat -> Z) (win : nat -> list T) (its : nat -> list item)
        (fl : nat -> bool) (acc : nat -> list (@event K)) :
    in_step tm ->
    exists fl' acc',
      reach (map (fun r => loop pc subdiv r ((first r, tm r, win r) :: its r) (fl r) (acc r)) ranks)
            (map (fun r => loop pc subdiv r (its r) (fl' r) (acc' r)) ranks) /\
      (forall r, fl' r = match solo (tm 0) (flat_map win ranks) with
                         | None => (if first r then true else fl r) | Some _ => false end) /\
      (forall r, acc' r = match solo (tm 0) (flat_map win ranks) with
                          | None => acc r | Some x => acc r ++ [(x, if first r then true else fl r)] end).
  Proof.
    intros H. cbn [loop].
    set (y := solo (tm 0) (flat_map win ranks)).
    exists (fun r => match y with None => (if first r then true else fl r) | Some _ => false end),
           (fun r => match y with None => acc r | Some x => acc r ++ [(x, if first r then true else fl r)] end).
    split; [|split; reflexivity].
    eapply reach_trans.
    { apply (window_all tm win (fun r y => match y with
                          | None => loop pc subdiv r (its r) (if first r then true else fl r) (acc r)
                          | Some x => loop pc subdiv r (its r) false (acc r ++ [(x, if first r then true else fl r)])
                          end) H). }
    fold y. destruct y; apply reach_refl.
  Qed.

  (** without preprocess_subdiv equal totals suffice *)
  Lemma loop_completes (Hs : subdiv = false) m :
    forall (its : nat -> list item) fl acc,
      (forall r, In r ranks -> length (its r) = m) ->
      exists rs, reach (map (fun r => loop pc subdiv r (its r) (fl r) (acc r)) ranks) (map Done rs).
  Proof.
    induction m as [|m IH]; intros its fl acc Hl.
    - exists (map acc ranks). rewrite map_map.
      rewrite (map_ext_in (fun r => loop pc subdiv r (its r) (fl r) (acc r)) (fun r => Done (acc r))); [apply reach_refl|].
      intros r Hr. specialize (Hl r Hr). destruct (its r); [reflexivity|discriminate].
    - set (hd0 := fun r => match its r with i :: _ => i | [] => (true, 0%Z, []) end).
      destruct (loop_round (fun r => fst (fst (hd0 r))) (fun r => snd (fst (hd0 r))) (fun r => snd (hd0 r))
                  (fun r => tl (its r)) fl acc (or_introl Hs)) as [fl' [acc' [Hr _]]].
      destruct (IH (fun r => tl (its r)) fl' acc') as [rs Hrs].
      { intros r Hin. specialize (Hl r Hin). destruct (its r); [discriminate|]. cbn in *. lia. }
      exists rs. eapply reach_trans; [|exact Hrs].
      rewrite (map_ext_in (fun r => loop pc subdiv r (its r) (fl r) (acc r)) (fun r => loop pc subdiv r ((fst (fst (hd0 r)), snd (fst (hd0 r)), snd (hd0 r)) :: tl (its r)) (fl r) (acc r))); [exact Hr|].
      intros r Hin. specialize (Hl r Hin). subst hd0. cbv beta. destruct (its r) as [|[[a b] c] i]; [discriminate|reflexivity].
  Qed.

  Lemma loop_deadlocks (Hs : subdiv = false) m :
    forall (its : nat -> list item) fl acc r0 r1,
      In r0 ranks -> In r1 ranks -> length (its r0) = m -> m < length (its r1) ->
      deadlocks (map (fun r => loop pc subdiv r (its r) (fl r) (acc r)) ranks).
  Proof.
    induction m as [m IH] using lt_wf_ind. intros its fl acc r0 r1 H0 H1 Hm Hlt.
    destruct (existsb (fun r => match its r with [] => true | _ => false end) ranks) eqn:Ex.
    - apply existsb_exists in Ex as [r [Hr He]].
      exists 0. cbn [mrun]. split.
      + apply (mstep_done _ (loop pc subdiv r (its r) (fl r) (acc r))).
        * apply in_map_iff. exists r. auto.
        * destruct (its r); [exact I|discriminate].
      + exists (loop pc subdiv r1 (its r1) (fl r1) (acc r1)). split.
        * apply in_map_iff. exists r1. auto.
        * destruct (its r1) as [|[[a b] c] i]; [cbn in Hlt; lia|]. cbn. auto.
    - assert (Hne : forall r, In r ranks -> its r <> []).
      { intros r Hr He. assert (X : existsb (fun r => match its r with [] => true | _ => false end) ranks = true).
        { apply existsb_exists. exists r. rewrite He. auto. }
        congruence. }
      set (hd0 := fun r => match its r with i :: _ => i | [] => (true, 0%Z, []) end).
      destruct (loop_round (fun r => fst (fst (hd0 r))) (fun r => snd (fst (hd0 r))) (fun r => snd (hd0 r))
                  (fun r => tl (its r)) fl acc (or_introl Hs)) as [fl' [acc' [Hr _]]].
      assert (Hd : deadlocks (map (fun r => loop pc subdiv r (tl (its r)) (fl' r) (acc' r)) ranks)).
      { apply (IH (pred m)) with (r0 := r0) (r1 := r1); auto.
        - pose proof (Hne r0 H0). destruct (its r0); [congruence|]. cbn in Hm. lia.
        - destruct (its r0); cbn in *; lia.
        - pose proof (Hne r0 H0). pose proof (Hne r1 H1).
          destruct (its r0), (its r1); try congruence; cbn in *; lia. }
      destruct Hr as [a Ha]. destruct Hd as [b [Hb Hp]].
      exists (a + b). rewrite mrun_add.
      rewrite (map_ext_in (fun r => loop pc subdiv r (its r) (fl r) (acc r)) (fun r => loop pc subdiv r ((fst (fst (hd0 r)), snd (fst (hd0 r)), snd (hd0 r)) :: tl (its r)) (fl r) (acc r))).
      2:{ intros r Hin. pose proof (Hne r Hin). subst hd0. cbv beta.
          destruct (its r) as [|[[x y] z] i]; [congruence|reflexivity]. }
      rewrite Ha. auto.
  Qed.
End Loop.

Section Merge.
  Context {T C K : Type}.
  Variable pc : @proc T C K.
  Variable subdiv : bool.
  Variable read_len corr_inc : Z.
  Variable n : nat.
  Notation ranks := (seq 0 (S n)).

  Lemma loop_merged (l : list (bool * Z * (nat -> list T))) :
    forall fl acc, exists evs,
      reach (map (fun r => loop pc subdiv r (map (fun i => (fst i, snd i r)) l) fl acc) ranks)
            (map Done (repeat evs (S n))) /\
      reach [loop pc subdiv 0 (map (fun i => (fst i, flat_map (snd i) ranks)) l) fl acc] [Done evs].
  Proof.
    induction l as [|[[first tm] w] l IH]; intros fl acc.
    - exists acc. split; [|apply reach_refl].
      cbn [map loop]. exists 0. cbn [mrun].
      rewrite map_const_repeat || idtac.
      assert (E : forall m k, map (fun _ : nat => @Done (@payload T C K) _ acc) (seq k m) = map Done (repeat acc m)).
      { induction m as [|m IHm]; intros k; [reflexivity|]. cbn [seq map repeat]. rewrite IHm. reflexivity. }
      apply E.
    - cbn [map fst snd].
      destruct (loop_round pc subdiv n (fun _ => first) (fun _ => tm) w
                 (fun r => map (fun i => (fst i, snd i r)) l) (fun _ => fl) (fun _ => acc)) as [fl1 [acc1 [H1 [F1 A1]]]].
      { right. reflexivity. }
      destruct (loop_round pc subdiv 0 (fun _ => first) (fun _ => tm) (fun _ => flat_map w ranks)
                 (fun _ => map (fun i => (fst i, flat_map (snd i) ranks)) l) (fun _ => fl) (fun _ => acc)) as [fl2 [acc2 [H2 [F2 A2]]]].
      { right. reflexivity. }
      cbn [seq flat_map] in F2, A2. rewrite app_nil_r in F2, A2.
      destruct (IH (fl1 0) (acc1 0)) as [evs [I1 I2]].
      exists evs. split.
      + eapply reach_trans; [exact H1|].
        rewrite (map_ext_in (fun r => loop pc subdiv r (map (fun i => (fst i, snd i r)) l) (fl1 r) (acc1 r))
                            (fun r => loop pc subdiv r (map (fun i => (fst i, snd i r)) l) (fl1 0) (acc1 0))); [exact I1|].
        intros r _. cbv beta. rewrite (F1 r), (F1 0), (A1 r), (A1 0). reflexivity.
      + eapply reach_trans; [exact H2|]. cbn [seq map].
        assert (Ef : fl2 0 = fl1 0). { rewrite (F1 0), (F2 0). reflexivity. }
        assert (Ea : acc2 0 = acc1 0). { rewrite (A1 0), (A2 0). reflexivity. }
        rewrite Ef, Ea. exact I2.
  Qed.

  Lemma number_windows_map t ws : forall ii first,
    number_windows corr_inc t ii first ws =
    map (fun j => (first && (j =? 0), (t + (ii + Z.of_nat j) * corr_inc)%Z, nth j ws ([] : list T))) (seq 0 (length ws)).
  Proof.
    induction ws as [|w ws IH]; intros ii first; [reflexivity|].
    cbn [number_windows length seq map]. f_equal.
    - cbn [nth Nat.eqb]. rewrite andb_true_r, Z.add_0_r. reflexivity.
    - rewrite IH, <- seq_shift, map_map. apply map_ext. intros j. cbn [nth Nat.eqb].
      rewrite andb_false_r. f_equal. f_equal. rewrite Nat2Z.inj_succ. f_equal. f_equal. lia.
  Qed.

  Notation wins := (@windows T read_len corr_inc).

  Definition plan_inc (i : Z * list (@outcome T)) : list (bool * Z * (nat -> list T)) :=
    map (fun j => ((j =? 0), (fst i + Z.of_nat j * corr_inc)%Z, fun r => nth j (wins (nth r (snd i) NoData)) []))
        (seq 0 (match snd i with o :: _ => length (wins o) | [] => 0 end)).

  Lemma flat_map_nth {A B} (f : A -> list B) d (os : list A) :
    flat_map f os = flat_map (fun r => f (nth r os d)) (seq 0 (length os)).
  Proof.
    induction os as [|o os IH]; [reflexivity|]. cbn [flat_map length seq]. f_equal.
    rewrite IH, <- seq_shift. rewrite !flat_map_concat_map, map_map. reflexivity.
  Qed.

  Lemma items_plan (world : list (Z * list (@outcome T))) r :
    balanced read_len corr_inc (S n) world -> In r ranks ->
    items read_len corr_inc (rank_incs world r) = map (fun i => (fst i, snd i r)) (flat_map plan_inc world).
  Proof.
    intros Hb Hr. unfold items, rank_incs. induction Hb as [|i world [Hl Hs] Hb IH]; [reflexivity|].
    cbn [map flat_map fst snd]. rewrite map_app, <- IH. f_equal.
    unfold plan_inc. rewrite map_map, number_windows_map. cbn [fst snd].
    apply in_seq in Hr.
    assert (Hin : In (nth r (snd i) NoData) (snd i)). { apply nth_In. lia. }
    destruct (snd i) as [|o os] eqn:E; [discriminate|].
    rewrite (Hs (nth r (o :: os) NoData) o Hin (or_introl eq_refl)).
    apply map_ext. intros j. repeat f_equal.
  Qed.

  Lemma items_merged (world : list (Z * list (@outcome T))) :
    balanced read_len corr_inc (S n) world ->
    items read_len corr_inc (map (merged_inc read_len corr_inc) world) =
    map (fun i => (fst i, flat_map (snd i) ranks)) (flat_map plan_inc world).
  Proof.
    intros Hb. unfold items. induction Hb as [|i world [Hl Hs] Hb IH]; [reflexivity|].
    cbn [map flat_map]. rewrite map_app, <- IH. f_equal.
    unfold plan_inc, merged_inc. cbn [fst snd windows]. rewrite number_windows_map, map_map.
    rewrite map_length, seq_length. apply map_ext_in. intros j Hj. apply in_seq in Hj. cbn [fst snd].
    rewrite andb_true_l. f_equal. 
    set (m := match snd i with [] => 0 | o :: _ => length (wins o) end) in *.
    rewrite (nth_indep _ [] (flat_map (fun o => nth 0 (wins o) []) (snd i))).
    2:{ rewrite map_length, seq_length. lia. }
    rewrite (map_nth (fun j => flat_map (fun o => nth j (wins o) []) (snd i)) (seq 0 m) 0 j).
    rewrite seq_nth by lia. cbn [Nat.add].
    rewrite (flat_map_nth _ NoData), Hl. reflexivity.
  Qed.

  Theorem merged_run (world : list (Z * list (@outcome T))) :
    balanced read_len corr_inc (S n) world ->
    exists evs,
      completes (processes pc subdiv read_len corr_inc world (S n)) (repeat evs (S n)) /\
      completes [process pc subdiv read_len corr_inc 0 (map (merged_inc read_len corr_inc) world)] [evs].
  Proof.
    intros Hb. destruct (loop_merged (flat_map plan_inc world) true []) as [evs [H1 H2]].
    exists evs. unfold completes, processes, process. split.
    - rewrite (map_ext_in _ (fun r => loop pc subdiv r (map (fun i => (fst i, snd i r)) (flat_map plan_inc world)) true [])).
      + exact H1.
      + intros r Hr. rewrite (items_plan world r Hb Hr). reflexivity.
    - rewrite (items_merged world Hb). exact H2.
  Qed.

  Lemma items_length (world : list (Z * list (@outcome T))) r :
    length (items read_len corr_inc (rank_incs world r)) = total read_len corr_inc world r.
  Proof.
    unfold items, rank_incs, total. induction world as [|i world IH]; [reflexivity|].
    cbn [map flat_map fst snd list_sum fold_right]. rewrite app_length, IH, number_windows_map, map_length, seq_length.
    reflexivity.
  Qed.

  Theorem completes_iff (world : list (Z * list (@outcome T))) :
    subdiv = false ->
    ((exists rs, completes (processes pc subdiv read_len corr_inc world (S n)) rs) <->
     (forall r r', r < S n -> r' < S n -> total read_len corr_inc world r = total read_len corr_inc world r')).
  Proof.
    intros Hs. split.
    - intros [rs Hc] r r' Hr Hr'.
      assert (Hno : forall a b, a < S n -> b < S n ->
                total read_len corr_inc world a < total read_len corr_inc world b -> False).
      { intros a b Ha Hbb Hlt. apply (completes_not_deadlocks _ _ Hc).
        unfold processes, process.
        apply (loop_deadlocks pc subdiv n Hs (total read_len corr_inc world a)
                 (fun r => items read_len corr_inc (rank_incs world r)) (fun _ => true) (fun _ => []) a b).
        - apply in_seq. lia.
        - apply in_seq. lia.
        - apply items_length.
        - rewrite items_length. exact Hlt. }
      destruct (Nat.lt_trichotomy (total read_len corr_inc world r) (total read_len corr_inc world r')) as [H|[H|H]]; auto.
      + destruct (Hno r r' Hr Hr' H).
      + destruct (Hno r' r Hr' Hr H).
    - intros He.
      destruct (loop_completes pc subdiv n Hs (total read_len corr_inc world 0)
                 (fun r => items read_len corr_inc (rank_incs world r)) (fun _ => true) (fun _ => [])) as [rs Hrs].
      + intros r Hr. apply in_seq in Hr. rewrite items_length. apply He; lia.
      + exists rs. exact Hrs.
  Qed.

  Theorem deadlock_when_unequal (world : list (Z * list (@outcome T))) r r' :
    subdiv = false -> r < S n -> r' < S n ->
    total read_len corr_inc world r < total read_len corr_inc world r' ->
    deadlocks (processes pc subdiv read_len corr_inc world (S n)).
  Proof.
    intros Hs Hr Hr' Hlt. unfold processes, process.
    apply (loop_deadlocks pc subdiv n Hs (total read_len corr_inc world r)
             (fun r => items read_len corr_inc (rank_incs world r)) (fun _ => true) (fun _ => []) r r').
    - apply in_seq. lia.
    - apply in_seq. lia.
    - apply items_length.
    - rewrite items_length. exact Hlt.
  Qed.

  (** no process fails, and a process with data cuts as many windows as a process without *)
  Lemma regular_balanced (world : list (Z * list (@outcome T))) :
    regular read_len corr_inc (S n) world -> balanced read_len corr_inc (S n) world.
  Proof.
    intros H. eapply Forall_impl; [|exact H]. intros i [Hl Ho]. split; [exact Hl|].
    assert (E : forall o, In o (snd i) -> length (wins o) = empty_windows read_len corr_inc).
    { intros o Hin. specialize (Ho o Hin). destruct o as [| |ws]; [contradiction| |exact Ho].
      cbn [windows]. apply repeat_length. }
    intros o o' Hin Hin'. rewrite (E o Hin), (E o' Hin'). reflexivity.
  Qed.
End Merge.
