From Coq Require Import Lia Sorted.
From Verif Require Import Lib.Base Lib.Sorting Model.Partition Proofs.PartitionFacts Proofs.MaskFacts Model.Gaps Spec.GapsSpec Proofs.GapsFacts Proofs.WindowFacts
  Model.DataLoop Spec.DataLoopSpec.
Local Open Scope Z_scope.
#[local] Ltac Zify.zify_post_hook ::= Z.div_mod_to_equations.

Lemma ceil_nat a b n : 0 < b -> 0 < a -> ceil_of a b n -> Z.to_nat (- ((- a) / b)) = n.
Proof. unfold ceil_of. intros B P H. assert (- ((- a) / b) = Z.of_nat n) by nia. lia. Qed.
Lemma ceil_nat0 a b n : 0 < b -> ceil_of a b n -> Z.to_nat (- ((- a) / b)) = n.
Proof. unfold ceil_of. intros B H. assert (- ((- a) / b) = Z.of_nat n) by nia. lia. Qed.
Lemma all_some_map {B C} (f : B -> C) l : all_some (map (fun x => Some (f x)) l) = Some (map f l).
Proof. induction l as [|x l IH]; [reflexivity|]. cbn. now rewrite IH. Qed.
Lemma all_some_ext {B C} (g : B -> option C) (f : B -> C) l : (forall x, In x l -> g x = Some (f x)) -> all_some (map g l) = Some (map f l).
Proof. intros H. rewrite <- all_some_map. f_equal. now apply map_ext_in. Qed.
Lemma mapM_ok {B C} (f : B -> result C) (g : B -> C) l : (forall x, In x l -> f x = Ok (g x)) -> mapM f l = Ok (map g l).
Proof. induction l as [|x l IH]; intros H; [reflexivity|]. cbn. rewrite (H x (or_introl eq_refl)), IH by (intros; apply H; now right). reflexivity. Qed.
Lemma enumerate_map_seq {B C} (f : nat -> B) (g : nat * B -> C) n : map g (enumerate (map f (seq 0 n))) = map (fun i => g (i, f i)) (seq 0 n).
Proof.
  unfold enumerate. rewrite map_length, seq_length. generalize 0%nat at 1 2 3. induction n as [|n IH]; intros k; [reflexivity|]. cbn [seq map combine]. f_equal. apply IH.
Qed.
Lemma my_items_in {B} p r (l : list B) x : In x (my_items p r l) -> In x l.
Proof. rewrite my_items_combine. intros H. apply in_map_iff in H. destruct H as ([a b] & <- & H). apply filter_In in H. destruct H as [H _]. now apply in_combine_r in H. Qed.
Lemma enumerate_in {B} (l : list B) c a : In (c, a) (enumerate l) <-> nth_error l c = Some a.
Proof.
  split.
  - intros H. apply In_nth_error in H. destruct H as [k K]. rewrite enumerate_nth in K. destruct (nth_error l k) eqn:E; [|discriminate]. cbn in K. congruence.
  - intros H. apply nth_error_In with c. now rewrite enumerate_nth, H.
Qed.
Lemma concat_concat_map {B C} (f : B -> list C) (ls : list (list B)) : concat (map (fun l => concat (map f l)) ls) = concat (map f (concat ls)).
Proof. induction ls as [|l ls IH]; [reflexivity|]. cbn. now rewrite IH, map_app, concat_app. Qed.

Section Inc.
  Context {A : Type}.
  Implicit Types (st : list (nat * trace A)).
  (** strictly increasing numbers *)
  Definition inc_ids st : Prop := StronglySorted (fun a b => (fst a < fst b)%nat) st.
  Lemma inc_sort st : inc_ids st -> sort (fun a b => (fst a <=? fst b)%nat) st = st.
  Proof.
    intros H. apply sort_id. unfold le_rel. induction H as [|x l S IH F]; constructor; [assumption|]. eapply Forall_impl; [|exact F]. intros y Y. cbn in Y. apply Nat.leb_le. lia.
  Qed.
  Lemma inc_filter (f : nat * trace A -> bool) st : inc_ids st -> inc_ids (filter f st).
  Proof.
    induction 1 as [|x l S IH F]; cbn; [constructor|]. destruct (f x); [|assumption]. constructor; [assumption|]. apply Forall_forall. intros y Y. apply filter_In in Y. rewrite Forall_forall in F. now apply F.
  Qed.
  Lemma inc_map (f : nat * trace A -> nat * trace A) st : (forall x, fst (f x) = fst x) -> inc_ids st -> inc_ids (map f st).
  Proof.
    intros H. induction 1 as [|x l S IH F]; cbn; [constructor|]. constructor; [assumption|]. apply Forall_forall. intros y Y. apply in_map_iff in Y. destruct Y as (z & <- & Z). rewrite !H. rewrite Forall_forall in F. now apply F.
  Qed.
  Lemma inc_concat (f : nat * trace A -> list (nat * trace A)) st : (forall x, f x = [] \/ exists y, f x = [(fst x, y)]) -> inc_ids st -> inc_ids (concat (map f st)).
  Proof.
    intros H. induction 1 as [|x l S IH F]; cbn; [constructor|]. destruct (H x) as [->|[y ->]]; [exact IH|]. cbn. constructor; [assumption|]. apply Forall_forall. intros z Z. apply in_concat in Z. destruct Z as (m & M & Z).
    apply in_map_iff in M. destruct M as (u & <- & U). rewrite Forall_forall in F. specialize (F u U). cbn. destruct (H u) as [E|[v E]]; rewrite E in Z; [contradiction|]. destruct Z as [<-|[]]. exact F.
  Qed.
  Lemma inc_enumerate (l : list (trace A)) : inc_ids (enumerate l).
  Proof.
    unfold enumerate. generalize 0%nat. induction l as [|x l IH]; intros k; cbn; [constructor|]. constructor; [apply IH|]. apply Forall_forall. intros [c w] I. apply in_combine_l in I. apply in_seq in I. cbn. lia.
  Qed.
  Lemma inc_nth st : inc_ids st -> forall i j, (i < j < length st)%nat -> (nth i (map fst st) 0 < nth j (map fst st) 0)%nat.
  Proof.
    induction 1 as [|x l S IH F]; intros i j L; cbn in L; [lia|]. destruct j as [|j]; [lia|]. destruct i as [|i]; cbn [map nth].
    - rewrite Forall_forall in F. destruct (nth_error l j) as [y|] eqn:E; [|apply nth_error_None in E; lia]. rewrite (nth_error_nth (map fst l) j 0%nat (x := fst y)) by (now rewrite nth_error_map, E).
      apply F. now apply nth_error_In in E.
    - apply IH. lia.
  Qed.

End Inc.

Section F.
  Context {A : Type}.
  Implicit Types (st : list (nat * trace A)).
  Variables (o : times) (K n : nat) (proc : trace A -> result (option (trace A))) (archive : list (trace A)).
  Hypothesis SENS : sensible o K n.
  Let RI : 0 < read_inc o := proj1 SENS.
  Let RL : 0 < read_len o := proj1 (proj2 SENS).
  Let CL : 0 < corr_len o := proj1 (proj2 (proj2 SENS)).
  Let CI : 0 < corr_inc o := proj1 (proj2 (proj2 (proj2 SENS))).
  Let CK := proj1 (proj2 (proj2 (proj2 (proj2 SENS)))).
  Let CN := proj2 (proj2 (proj2 (proj2 (proj2 SENS)))).

  Lemma empty_n : empty_windows o = n.
  Proof. unfold empty_windows. now apply ceil_nat. Qed.
  Lemma reads_K : read_starts o = map (fun k => read_start o + Z.of_nat k * read_inc o) (seq 0 K).
  Proof. unfold read_starts, window_starts. now rewrite (ceil_nat0 _ _ _ RI CK). Qed.

  Definition win (s : Z) st : list (nat * trace A) := filter valid (map (cut s (corr_len o)) st).
  Lemma relabel s st : map (fun q => (nth (fst q) (map fst st) 0%nat, snd q)) (filter valid (map (cut s (corr_len o)) (enumerate (map snd st)))) = win s st.
  Proof.
    unfold win, enumerate. rewrite map_length. assert (G : forall pre, map (fun q => (nth (fst q) (pre ++ map fst st) 0%nat, snd q)) (filter valid (map (cut s (corr_len o)) (combine (seq (length pre) (length st)) (map snd st)))) = filter valid (map (cut s (corr_len o)) st)).
    { induction st as [|[c x] r IH]; intros pre; [reflexivity|]. cbn [length seq map combine snd fst filter]. specialize (IH (pre ++ [c])%list). rewrite <- app_assoc, app_length in IH. cbn [app length] in IH. rewrite Nat.add_1_r in IH.
      change (valid (cut s (corr_len o) (length pre, x))) with (valid (cut s (corr_len o) (c, x))). destruct (valid (cut s (corr_len o) (c, x))); [|exact IH].
      cbn [map]. rewrite IH. f_equal. unfold cut. cbn [fst snd]. now rewrite nth_middle. }
    exact (G []).
  Qed.
  (** the windows of traces that all run from [t0] to [t0]+read_len *)
  Lemma cut_closed t0 st : (forall c x, In (c, x) st -> t_start x = t0 /\ last_pos x = t0 + read_len o) ->
    cut_windows o st = map (fun i => win (t0 + Z.of_nat i * corr_inc o) st) (seq 0 n).
  Proof.
    intros H. unfold cut_windows. rewrite empty_n. destruct st as [|[c x] r] eqn:ST.
    - cbn [map generate_corr_inc]. change (map (fun i => win _ [])) with (map (fun _ : nat => @nil (nat * trace A))). generalize n as m. intros m. generalize 0%nat at 2. induction m as [|m IH]; intros k; [reflexivity|]. cbn [repeat map seq snd]. f_equal. apply IH.
    - rewrite <- ST in *. set (ss := map snd st). assert (NE : ss <> []) by (unfold ss; rewrite ST; discriminate).
      assert (IS : forall u, In u ss -> t_start u = t0 /\ last_pos u = t0 + read_len o) by (intros u U; apply in_map_iff in U; destruct U as ([d v] & <- & U); exact (H _ _ U)).
      assert (S : forall u, In u ss -> t_start u = t0) by (intros u U; apply (IS u U)).
      assert (EE : stream_end ss = t0 + read_len o). { destruct (end_spec ss NE) as [(u & U & UE) _]. rewrite <- UE. apply (IS u U). }
      assert (W : slide (corr_len o) (corr_inc o) ss = map (fun i => slices (t0 + Z.of_nat i * corr_inc o) (corr_len o) ss) (seq 0 n)).
      { unfold slide. rewrite (start_same _ _ NE S), EE. unfold window_starts. replace (t0 + read_len o - t0) with (read_len o) by lia. rewrite (ceil_nat _ _ _ CI RL CN), map_map.
        apply filter_id. intros l L. apply in_map_iff in L. destruct L as (i & <- & L). apply in_seq in L.
        assert (N : slices (t0 + Z.of_nat i * corr_inc o) (corr_len o) ss <> []).
        { apply slices_some; [|assumption]. exists x. assert (X : In x ss) by (unfold ss; rewrite ST; now left). split; [exact X|]. destruct (IS x X) as [-> ->]. unfold ceil_of in CN. nia. }
        destruct (slices _ _ _); [contradiction|reflexivity]. }
      assert (G : generate_corr_inc n (corr_len o) (corr_inc o) ss = map (fun p => let s := t0 + Z.of_nat (fst p) * corr_inc o in (Some s, filter valid (map (cut s (corr_len o)) (snd p)))) (enumerate (slide (corr_len o) (corr_inc o) ss))).
      { unfold ss at 1. rewrite ST. cbn [map generate_corr_inc]. cbn [snd]. rewrite (S x) by (unfold ss; rewrite ST; now left). unfold ss. now rewrite ST. }
      rewrite G, W, enumerate_map_seq, map_map. apply map_ext. intros i. cbn [fst snd]. cbv zeta. rewrite slices_cut. apply relabel.
  Qed.

  (** ** what one process reads *)
  Definition readc (t : Z) (c : nat * trace A) : list (nat * trace A) :=
    match slice t (read_len o + 1) (snd c) with Some w => if masked_all (t_data w) then [] else [(fst c, w)] | None => [] end.
  Definition procc (s m : Z) (c : nat * trace A) : list (nat * trace A) :=
    match proc (snd c) with Ok (Some x) => [(fst c, trim_pad s m x)] | _ => [] end.
  Lemma readc_in t c w d a : In (c, w) (readc t (d, a)) <-> c = d /\ slice t (read_len o + 1) a = Some w /\ masked_all (t_data w) = false.
  Proof.
    unfold readc. cbn [fst snd]. destruct (slice t (read_len o + 1) a) as [w'|]; [|split; [contradiction|intros (_ & X & _); discriminate]].
    destruct (masked_all (t_data w')) eqn:M; cbn.
    - split; [contradiction|]. intros (_ & X & Y). congruence.
    - split; [intros [E|[]]; inversion E; subst; auto|]. intros (-> & X & _). left. congruence.
  Qed.
  Lemma read_in p r t c w : In (c, w) (read_channels o archive p r t) -> read_of o archive c t w.
  Proof.
    unfold read_channels. intros H. apply in_concat in H. destruct H as (l & L & H). apply in_map_iff in L. destruct L as ([d a] & <- & L). apply my_items_in in L.
    apply enumerate_in in L. change (In (c, w) (readc t (d, a))) in H. apply readc_in in H. destruct H as (-> & H1 & H2). now exists a.
  Qed.
  Lemma preprocess_ok s m st : (forall c w, In (c, w) st -> exists x, proc w = Ok x) -> preprocess proc s m st = Ok (concat (map (procc s m) st)).
  Proof.
    intros H. unfold preprocess. rewrite (mapM_ok _ (fun c => (fst c, match proc (snd c) with Ok x => x | Raise _ => None end))).
    - cbn [bind]. f_equal. rewrite map_map. f_equal. apply map_ext_in. intros [c w] I. unfold procc. cbn [fst snd]. destruct (H c w I) as [x ->]. reflexivity.
    - intros [c w] I. cbn [fst snd]. destruct (H c w I) as [x ->]. reflexivity.
  Qed.
  Lemma all_sent_closed (subdiv : bool) p r (P : Z -> list (nat * trace A)) :
    (forall k, (k < K)%nat -> let t := read_start o + Z.of_nat k * read_inc o in
       (if subdiv then Ok (read_channels o archive p r t) else preprocess proc t (read_len o + 1) (read_channels o archive p r t)) = Ok (P t) /\
       forall c x, In (c, x) (P t) -> t_start x = t /\ last_pos x = t + read_len o) ->
    all_sent o proc archive subdiv p r = Some (map (fun q => (snd q, win (snd q) (P (fst q)))) (schedule o K n)).
  Proof.
    intros H. unfold all_sent. rewrite reads_K, map_map. rewrite (all_some_ext _ (fun k => let t := read_start o + Z.of_nat k * read_inc o in map (fun i => (t + Z.of_nat i * corr_inc o, win (t + Z.of_nat i * corr_inc o) (P t))) (seq 0 n))).
    - cbn [option_map]. f_equal. unfold schedule. rewrite concat_map, map_map. f_equal. apply map_ext. intros k. cbv zeta. rewrite map_map. reflexivity.
    - intros k I. apply in_seq in I. destruct (H k ltac:(lia)) as [E S]. cbv zeta in *. unfold sent. rewrite E, (cut_closed _ _ S), enumerate_map_seq. reflexivity.
  Qed.

  Lemma win_app s (a b : list (nat * trace A)) : win s (a ++ b)%list = (win s a ++ win s b)%list.
  Proof. unfold win. now rewrite map_app, filter_app. Qed.
  Lemma win_concat s (ls : list (list (nat * trace A))) : concat (map (win s) ls) = win s (concat ls).
  Proof. induction ls as [|l ls IH]; [reflexivity|]. cbn [map concat]. now rewrite win_app, IH. Qed.

  (** all processes together: [P r t] are the traces of process [r], [Q t] those of all processes *)
  Lemma run_closed (subdiv : bool) p r (P : nat -> Z -> list (nat * trace A)) (Q : Z -> list (nat * trace A)) (fin : Z -> list (nat * trace A) -> list (nat * trace A)) : (r < p)%nat ->
    (forall q, (q < p)%nat -> all_sent o proc archive subdiv p q = Some (map (fun ts => (snd ts, win (snd ts) (P q (fst ts)))) (schedule o K n))) ->
    (forall ts, In ts (schedule o K n) -> concat (map (fun q => P q (fst ts)) (seq 0 p)) = Q (fst ts) /\ inc_ids (Q (fst ts)) /\ finish o proc subdiv (snd ts) (win (snd ts) (Q (fst ts))) = Some (fin (snd ts) (win (snd ts) (Q (fst ts))))) ->
    correlation_windows o proc archive subdiv p r = Some (map (fun ts => (snd ts, fin (snd ts) (win (snd ts) (Q (fst ts))))) (schedule o K n)).
  Proof.
    intros R H C. unfold correlation_windows. rewrite (all_some_ext _ (fun q => map (fun ts => (snd ts, win (snd ts) (P q (fst ts)))) (schedule o K n))) by (intros q I; apply in_seq in I; apply H; lia).
    set (f := fun q => map _ (schedule o K n)). assert (L : forall q, length (f q) = length (schedule o K n)) by (intros; unfold f; now rewrite map_length).
    assert (N : forall q, (q < p)%nat -> nth q (map f (seq 0 p)) [] = f q).
    { intros q Q0. rewrite (nth_indep _ [] (f 0%nat)) by (now rewrite map_length, seq_length). rewrite map_nth. now rewrite seq_nth. }
    rewrite !N by lia. replace (forallb _ _) with true.
    2:{ symmetry. apply forallb_forall. intros l I. apply in_map_iff in I. destruct I as (q & <- & _). rewrite !L. apply Nat.eqb_refl. }
    assert (GAT : forall k ts, nth_error (schedule o K n) k = Some ts -> gather (map f (seq 0 p)) k = win (snd ts) (Q (fst ts))).
    { intros k ts E. destruct (C ts (nth_error_In _ _ E)) as (CQ & IQ & _). unfold gather. rewrite map_map.
      replace (map (fun x => snd (nth k (f x) (0, []))) (seq 0 p)) with (map (win (snd ts)) (map (fun q => P q (fst ts)) (seq 0 p))).
      - rewrite win_concat, CQ. apply inc_sort. apply inc_filter. apply inc_map; [reflexivity|exact IQ].
      - rewrite map_map. apply map_ext. intros q. erewrite nth_error_nth by (unfold f; rewrite nth_error_map, E; reflexivity). reflexivity. }
    transitivity (all_some (map (fun q => Some (fst (snd q), fin (fst (snd q)) (gather (map f (seq 0 p)) (fst q)))) (enumerate (f r)))).
    - f_equal. apply map_ext_in. intros [k [s w]] I. apply enumerate_in in I. cbn [fst snd]. unfold f in I at 1. rewrite nth_error_map in I. destruct (nth_error (schedule o K n) k) as [ts|] eqn:E; [|discriminate]. cbn in I.
      assert (s = snd ts) by congruence. subst s. rewrite (GAT _ _ E). destruct (C ts (nth_error_In _ _ E)) as (_ & _ & F). now rewrite F.
    - rewrite all_some_map. f_equal. apply same_nth_error.
      + now rewrite !map_length, enumerate_length, L.
      + intros k _. rewrite !nth_error_map, enumerate_nth. assert (FN : nth_error (f r) k = option_map (fun ts => (snd ts, win (snd ts) (P r (fst ts)))) (nth_error (schedule o K n) k)) by (unfold f; apply nth_error_map). rewrite FN. destruct (nth_error (schedule o K n) k) as [ts|] eqn:E; [|reflexivity]. cbn [option_map fst snd]. now rewrite (GAT _ _ E).
  Qed.

  Lemma schedule_in t s : In (t, s) (schedule o K n) <-> exists k i, (k < K)%nat /\ (i < n)%nat /\ t = read_start o + Z.of_nat k * read_inc o /\ s = t + Z.of_nat i * corr_inc o.
  Proof.
    unfold schedule. rewrite in_concat. split.
    - intros (l & L & I). apply in_map_iff in L. destruct L as (k & <- & L). apply in_seq in L. apply in_map_iff in I. destruct I as (i & E & I). apply in_seq in I. exists k, i. inversion E. lia.
    - intros (k & i & HK & HI & -> & ->). exists (map (fun i => (read_start o + Z.of_nat k * read_inc o, read_start o + Z.of_nat k * read_inc o + Z.of_nat i * corr_inc o)) (seq 0 n)).
      split; [apply in_map_iff; exists k; split; [reflexivity|apply in_seq; lia]|]. apply in_map_iff. exists i. split; [reflexivity|apply in_seq; lia].
  Qed.

  (** ** preprocessing before the windows are cut *)
  Definition chan (t : Z) (c : nat * trace A) : list (nat * trace A) := concat (map (procc t (read_len o + 1)) (readc t c)).
  Definition whole (t : Z) : list (nat * trace A) := concat (map (chan t) (enumerate archive)).
  Lemma chan_one t c : chan t c = [] \/ exists y, chan t c = [(fst c, y)].
  Proof.
    unfold chan, readc. destruct (slice t (read_len o + 1) (snd c)) as [w|]; [|now left]. destruct (masked_all (t_data w)); [now left|]. cbn. unfold procc. cbn [fst snd].
    destruct (proc w) as [[x|]|]; cbn; [right; eauto|now left|now left].
  Qed.
  Lemma chan_in t c x : In (c, x) (whole t) <-> exists y, preprocessed o proc archive c t y /\ x = trim_pad t (read_len o + 1) y.
  Proof.
    unfold whole. rewrite in_concat. split.
    - intros (l & L & I). apply in_map_iff in L. destruct L as ([d a] & <- & L). apply enumerate_in in L. unfold chan in I. apply in_concat in I. destruct I as (l & M & I). apply in_map_iff in M. destruct M as ([e w] & <- & M).
      apply readc_in in M. destruct M as (-> & M1 & M2). unfold procc in I. cbn [fst snd] in I. destruct (proc w) as [[y|]|] eqn:E; try contradiction. destruct I as [I|[]]. inversion I; subst. exists y. split; [|reflexivity].
      exists w. split; [|assumption]. now exists a.
    - intros (y & (w & (a & N & S & M) & E) & ->). exists (chan t (c, a)). split; [apply in_map_iff; exists (c, a); split; [reflexivity|now apply enumerate_in]|].
      unfold chan. apply in_concat. exists (procc t (read_len o + 1) (c, w)). split; [apply in_map_iff; exists (c, w); split; [reflexivity|now apply readc_in]|].
      unfold procc. cbn [fst snd]. rewrite E. now left.
  Qed.
  Hypothesis OKS : all_succeed o proc archive K.
  Definition fin_trim (s : Z) (w : list (nat * trace A)) : list (nat * trace A) := map (fun q => (fst q, trim_pad s (corr_len o + 1) (snd q))) w.
  Lemma trim_last s m (t : trace A) : 0 < m -> t_start (trim_pad s m t) = s /\ last_pos (trim_pad s m t) = s + m - 1.
  Proof. intros M. split; [reflexivity|]. unfold last_pos, trim_pad. cbn [t_start t_data]. rewrite map_length, seq_length. lia. Qed.
  Theorem windows_closed p r : (r < p)%nat ->
    correlation_windows o proc archive false p r = Some (map (fun ts => (snd ts, fin_trim (snd ts) (win (snd ts) (whole (fst ts))))) (schedule o K n)).
  Proof.
    intros R. apply (run_closed false p r (fun q t => concat (map (chan t) (my_items p q (enumerate archive)))) whole fin_trim R).
    - intros q Q0. apply (all_sent_closed false p q (fun t => concat (map (chan t) (my_items p q (enumerate archive))))). intros k HK. cbv zeta. set (t := read_start o + Z.of_nat k * read_inc o). split.
      + rewrite preprocess_ok.
        * f_equal. unfold read_channels. fold (readc t). unfold chan. rewrite <- concat_concat_map. now rewrite map_map.
        * intros c w I. apply (OKS k c w HK). now apply (read_in p q).
      + intros c x I. assert (J : In (c, x) (whole t)).
        { unfold whole. apply in_concat in I. destruct I as (l & L & I). apply in_concat. exists l. split; [|assumption]. apply in_map_iff in L. destruct L as (a & <- & L). apply in_map. now apply my_items_in in L. }
        apply chan_in in J. destruct J as (y & _ & ->). destruct (trim_last t (read_len o + 1) y ltac:(lia)) as [E1 E2]. rewrite E1, E2. lia.
    - intros [t s] I. cbn [fst snd]. split; [|split; [|reflexivity]].
      + unfold whole. rewrite <- (map_map (fun q => my_items p q (enumerate archive)) (fun l => concat (map (chan t) l))), concat_concat_map, partition_concat by lia. reflexivity.
      + unfold whole. apply inc_concat; [apply chan_one|apply inc_enumerate].
  Qed.

  Lemma valid_cut s c (x : trace A) : valid (cut s (corr_len o) (c, x)) = true <-> has_data s (corr_len o) x.
  Proof. unfold valid, cut. cbn [snd]. rewrite <- masked_data. destruct (masked_all _); cbn; intuition congruence. Qed.
  Lemma win_in s st c w : In (c, w) (win s st) <-> exists x, In (c, x) st /\ has_data s (corr_len o) x /\ w = trim_pad s (corr_len o) x.
  Proof.
    unfold win. rewrite filter_In, in_map_iff. split.
    - intros (([d x] & C & I) & V). unfold cut in C. cbn [fst snd] in C. injection C as -> <-. exists x. split; [assumption|]. split; [|reflexivity]. now apply (proj1 (valid_cut s c x)).
    - intros (x & I & H & ->). split; [exists (c, x); split; [reflexivity|assumption]|]. now apply (proj2 (valid_cut s c x)).
  Qed.
  Lemma window_made t s (y : trace A) : window_of o t s y (trim_pad s (corr_len o + 1) (trim_pad s (corr_len o) (trim_pad t (read_len o + 1) y))).
  Proof.
    split; [reflexivity|]. split; [unfold trim_pad at 1; cbn [t_data]; rewrite map_length, seq_length; lia|]. intros q. rewrite !trim_at.
    destruct (Z.leb_spec s q), (Z.ltb_spec q (s + corr_len o)), (Z.ltb_spec q (s + (corr_len o + 1))), (Z.leb_spec t q), (Z.ltb_spec q (t + (read_len o + 1))), (Z.leb_spec q (t + read_len o)); cbn [andb]; try reflexivity; lia.
  Qed.
  Lemma trace_eq (w w' : trace A) : t_start w = t_start w' -> length (t_data w) = length (t_data w') -> (forall q, at_pos w q = at_pos w' q) -> w = w'.
  Proof. intros S L V. apply (window_unique (t_start w) (Z.of_nat (length (t_data w))) w); (split; [auto|split; [auto; lia|auto]]). Qed.
  Lemma window_of_unique t s (y w w' : trace A) : window_of o t s y w -> window_of o t s y w' -> w = w'.
  Proof. intros (S & L & V) (S' & L' & V'). apply trace_eq; [congruence|lia|]. intros q. now rewrite V, V'. Qed.
  Lemma right_whole t s : right_window o proc archive (t, s) (s, fin_trim s (win s (whole t))).
  Proof.
    split; [reflexivity|]. split.
    - apply inc_nth. apply inc_map; [reflexivity|]. apply inc_filter. apply inc_map; [reflexivity|]. unfold whole. apply inc_concat; [apply chan_one|apply inc_enumerate].
    - intros c w. unfold fin_trim. rewrite in_map_iff. split.
      + intros ([d v] & E & I). apply win_in in I. destruct I as (x & I & H & ->). apply chan_in in I. destruct I as (y & Y & ->). cbn [fst snd] in E. injection E as -> <-. exists y. split; [assumption|]. split; [apply window_made|].
        destruct H as (q & Q & D). exists q. rewrite !trim_at in *. destruct (Z.leb_spec s q); [|lia]. destruct (Z.ltb_spec q (s + corr_len o)); [|lia]. destruct (Z.ltb_spec q (s + (corr_len o + 1))); [|lia]. cbn [andb]. exact D.
      + intros (y & Y & W & q & Q). assert (w = trim_pad s (corr_len o + 1) (trim_pad s (corr_len o) (trim_pad t (read_len o + 1) y))) by (eapply window_of_unique; [exact W|apply window_made]). subst w.
        exists (c, trim_pad s (corr_len o) (trim_pad t (read_len o + 1) y)). split; [reflexivity|]. apply win_in. exists (trim_pad t (read_len o + 1) y). split; [apply chan_in; eauto|]. split; [|reflexivity].
        exists q. rewrite (trim_at s (corr_len o + 1)), (trim_at s (corr_len o)) in Q. destruct (Z.leb_spec s q); [|exfalso; apply Q; reflexivity]. destruct (Z.ltb_spec q (s + (corr_len o + 1))); [|exfalso; apply Q; reflexivity]. destruct (Z.ltb_spec q (s + corr_len o)); [|exfalso; apply Q; reflexivity]. cbn [andb] in Q. split; [lia|assumption].
  Qed.
  Theorem windows_right p r : (r < p)%nat -> exists ws, correlation_windows o proc archive false p r = Some ws /\ Forall2 (right_window o proc archive) (schedule o K n) ws.
  Proof.
    intros R. eexists. split; [apply (windows_closed p r R)|]. induction (schedule o K n) as [|[t s] l IH]; cbn [map]; constructor; [apply right_whole|assumption].
  Qed.
End F.

Section Sub.
  Context {A : Type}.
  Variables (o : times) (K n : nat) (proc : trace A -> result (option (trace A))) (archive : list (trace A)).
  Hypothesis SENS : sensible o K n.
  Hypothesis FULL : full_reads o archive K.
  Hypothesis OKS : windows_succeed o proc archive K n.
  Let CL : 0 < corr_len o := proj1 (proj2 (proj2 SENS)).
  Definition raw (t : Z) : list (nat * trace A) := concat (map (readc o t) (enumerate archive)).
  Lemma raw_in t c w : In (c, w) (raw t) <-> read_of o archive c t w.
  Proof.
    unfold raw. rewrite in_concat. split.
    - intros (l & L & I). apply in_map_iff in L. destruct L as ([d a] & <- & L). apply enumerate_in in L. apply readc_in in I. destruct I as (-> & H1 & H2). now exists a.
    - intros (a & N & S & M). exists (readc o t (c, a)). split; [apply in_map; now apply enumerate_in|]. now apply readc_in.
  Qed.
  Lemma readc_one t (c : nat * trace A) : readc o t c = [] \/ exists y, readc o t c = [(fst c, y)].
  Proof. unfold readc. destruct (slice t (read_len o + 1) (snd c)) as [w|]; [|now left]. destruct (masked_all (t_data w)); [now left|]. right. eauto. Qed.
  Lemma procc_one s m (c : nat * trace A) : procc proc s m c = [] \/ exists y, procc proc s m c = [(fst c, y)].
  Proof. unfold procc. destruct (proc (snd c)) as [[x|]|]; [right; eauto|now left|now left]. Qed.
  Definition fin_sub (s : Z) (w : list (nat * trace A)) : list (nat * trace A) := fin_trim o s (concat (map (procc proc s (corr_len o + 1)) w)).
  Lemma sub_closed p r : (r < p)%nat ->
    correlation_windows o proc archive true p r = Some (map (fun ts => (snd ts, fin_sub (snd ts) (win o (snd ts) (raw (fst ts))))) (schedule o K n)).
  Proof.
    intros R. apply (run_closed o K n proc archive true p r (fun q t => concat (map (readc o t) (my_items p q (enumerate archive)))) raw fin_sub R).
    - intros q Q0. apply (all_sent_closed o K n proc archive SENS true p q (fun t => concat (map (readc o t) (my_items p q (enumerate archive))))). intros k HK. cbv zeta. split; [reflexivity|].
      intros c x I. apply (FULL k c x HK). apply (read_in o archive p q). exact I.
    - intros [t s] I. cbn [fst snd]. split; [|split].
      + unfold raw. rewrite <- (map_map (fun q => my_items p q (enumerate archive)) (fun l => concat (map (readc o t) l))), concat_concat_map, partition_concat by lia. reflexivity.
      + unfold raw. apply inc_concat; [apply readc_one|apply inc_enumerate].
      + unfold finish. rewrite preprocess_ok; [reflexivity|]. intros c v V. apply win_in in V. destruct V as (w & W & H & ->). apply raw_in in W. apply (OKS t s c w _ I W); [apply trim_window; lia|].
        destruct H as (q & Q & D). exists q. rewrite trim_at. destruct (Z.leb_spec s q); [|lia]. destruct (Z.ltb_spec q (s + corr_len o)); [assumption|lia].
  Qed.
  Lemma right_raw t s : right_subdivision o proc archive (t, s) (s, fin_sub s (win o s (raw t))).
  Proof.
    split; [reflexivity|]. split.
    - apply inc_nth. apply inc_map; [reflexivity|]. apply inc_concat; [apply procc_one|]. apply inc_filter. apply inc_map; [reflexivity|]. unfold raw. apply inc_concat; [apply readc_one|apply inc_enumerate].
    - intros c u. unfold fin_sub, fin_trim. rewrite in_map_iff. split.
      + intros ([d y] & E & I). cbn [fst snd] in E. injection E as -> <-. apply in_concat in I. destruct I as (l & L & I). apply in_map_iff in L. destruct L as ([e v] & <- & L). apply win_in in L. destruct L as (w & W & H & ->). apply raw_in in W.
        unfold procc in I. cbn [fst snd] in I. destruct (proc (trim_pad s (corr_len o) w)) as [[x|]|] eqn:P; try contradiction. destruct I as [I|[]]. injection I as -> <-. exists w, (trim_pad s (corr_len o) w), x. split; [assumption|]. split; [apply trim_window; lia|].
        split; [|split; [assumption|]].
        * destruct H as (q & Q & D). exists q. rewrite trim_at. destruct (Z.leb_spec s q); [|lia]. destruct (Z.ltb_spec q (s + corr_len o)); [assumption|lia].
        * rewrite (trim_ext s (corr_len o + 1) (trim_pad s (corr_len o + 1) x) x); [apply trim_window; lia|]. intros q Q. rewrite trim_at. destruct (Z.leb_spec s q); [|lia]. destruct (Z.ltb_spec q (s + (corr_len o + 1))); [reflexivity|lia].
      + intros (w & v & x & W & V & NE & P & U). assert (v = trim_pad s (corr_len o) w) by (eapply window_unique; [exact V|apply trim_window; lia]). subst v. assert (u = trim_pad s (corr_len o + 1) x) by (eapply window_unique; [exact U|apply trim_window; lia]). subst u.
        exists (c, trim_pad s (corr_len o + 1) x). split.
        * cbn [fst snd]. f_equal. apply trim_ext. intros q Q. rewrite trim_at. destruct (Z.leb_spec s q); [|lia]. destruct (Z.ltb_spec q (s + (corr_len o + 1))); [reflexivity|lia].
        * apply in_concat. exists (procc proc s (corr_len o + 1) (c, trim_pad s (corr_len o) w)). split.
          -- apply in_map. apply win_in. exists w. split; [now apply raw_in|]. split; [|reflexivity]. destruct NE as (q & Q). exists q. rewrite trim_at in Q. destruct (Z.leb_spec s q); [|exfalso; apply Q; reflexivity]. destruct (Z.ltb_spec q (s + corr_len o)); [|exfalso; apply Q; reflexivity]. split; [lia|assumption].
          -- unfold procc. cbn [fst snd]. rewrite P. now left.
  Qed.
  Theorem subdivision_right p r : (r < p)%nat -> exists ws, correlation_windows o proc archive true p r = Some ws /\ Forall2 (right_subdivision o proc archive) (schedule o K n) ws.
  Proof.
    intros R. eexists. split; [apply (sub_closed p r R)|]. induction (schedule o K n) as [|[t s] l IH]; cbn [map]; constructor; [apply right_raw|assumption].
  Qed.
End Sub.

Lemma processes_irrelevant {A} (o : times) K n proc (archive : list (trace A)) p r p' r' : sensible o K n -> all_succeed o proc archive K -> (r < p)%nat -> (r' < p')%nat ->
  correlation_windows o proc archive false p r = correlation_windows o proc archive false p' r'.
Proof. intros S H R R'. now rewrite (windows_closed o K n proc archive S H p r R), (windows_closed o K n proc archive S H p' r' R'). Qed.

Lemma grid_starts o K n : read_inc o = Z.of_nat n * corr_inc o -> map snd (schedule o K n) = map (fun j => read_start o + Z.of_nat j * corr_inc o) (seq 0 (K * n)).
Proof.
  intros E. unfold schedule. rewrite concat_map, map_map. induction K as [|k IH]; [reflexivity|]. rewrite seq_S, map_app, concat_app, IH. cbn [map concat plus]. rewrite app_nil_r.
  replace (S k * n)%nat with (k * n + n)%nat by lia. rewrite seq_app, map_app. f_equal. rewrite map_map. cbn [snd plus].
  assert (G : forall (g : nat -> Z) b m z, map g (seq (b + z) m) = map (fun i => g (b + i)%nat) (seq z m)).
  { intros g b m. induction m as [|m IHm]; intros z; [reflexivity|]. cbn [seq map]. rewrite <- Nat.add_succ_r. f_equal. apply IHm. }
  rewrite <- (Nat.add_0_r (k * n)), G. apply map_ext. intros i. rewrite E. nia.
Qed.

Lemma windows_complete {A} (o : times) K n (archive : list (trace A)) p r k t s sw c a q : sensible o K n -> (r < p)%nat ->
  nth_error (schedule o K n) k = Some (t, s) -> s + corr_len o <= t + read_len o + 1 ->
  (exists ws, correlation_windows o (fun w => Ok (Some w)) archive false p r = Some ws /\ nth_error ws k = Some sw) ->
  nth_error archive c = Some a -> s <= q < s + corr_len o -> at_pos a q <> None ->
  fst sw = s /\ exists w, In (c, w) (snd sw) /\ at_pos w q = at_pos a q.
Proof.
  intros SE R E L (ws & W & N) CA Q D. assert (OKS : all_succeed o (fun w : trace A => Ok (Some w)) archive K) by (intros ? ? w ? ?; now exists (Some w)).
  destruct (windows_right o K n _ archive SE OKS p r R) as (ws' & W' & F). rewrite W in W'. injection W' as <-. assert (RW : right_window o (fun w : trace A => Ok (Some w)) archive (t, s) sw).
  { clear - F E N. revert k E N. induction F as [|x y l l' H F IH]; intros k E N; [destruct k; discriminate|]. destruct k as [|k]; cbn in E, N; [congruence|eauto]. }
  destruct sw as [s' win0]. destruct RW as (-> & _ & IN). split; [reflexivity|]. cbn [snd].
  assert (T : t <= s). { apply nth_error_In in E. apply (proj1 (schedule_in o K n t s)) in E. destruct E as (k' & i & _ & _ & -> & ->). destruct SE as (? & ? & ? & ? & _). nia. }
  assert (exists w, slice t (read_len o + 1) a = Some w) as [w SW].
  { unfold slice. destruct (Z.ltb_spec (Z.min (t + (read_len o + 1) - 1) (last_pos a)) (Z.max t (t_start a))); [|eauto]. exfalso. apply D, outside_none. unfold inside, last_pos in *. lia. }
  assert (AW : forall z, t <= z <= t + read_len o -> at_pos w z = at_pos a z).
  { intros z Z. pose proof (slice_trim _ _ _ _ SW) as ST. assert (at_pos (trim_pad t (read_len o + 1) w) z = at_pos (trim_pad t (read_len o + 1) a) z) by now rewrite ST. rewrite !trim_at in H. destruct (Z.leb_spec t z); [|lia]. destruct (Z.ltb_spec z (t + (read_len o + 1))); [exact H|lia]. }
  assert (M : masked_all (t_data w) = false).
  { apply not_true_iff_false. intros M. unfold masked_all in M. rewrite forallb_forall in M. apply D. rewrite <- AW by lia. unfold at_pos. destruct (q <? t_start w); [reflexivity|]. destruct (nth (Z.to_nat (q - t_start w)) (t_data w) None) as [v|] eqn:X; [|reflexivity].
    exfalso. destruct (Nat.lt_ge_cases (Z.to_nat (q - t_start w)) (length (t_data w))) as [HL|HL]; [|rewrite nth_overflow in X by lia; discriminate]. pose proof (nth_In (t_data w) None HL) as I. rewrite X in I. apply M in I. discriminate. }
  exists (trim_pad s (corr_len o + 1) (trim_pad s (corr_len o) (trim_pad t (read_len o + 1) w))).
  pose proof (window_made o K n SE t s w) as WM. pose proof (proj2 (proj2 WM)) as V. assert (EV : at_pos (trim_pad s (corr_len o + 1) (trim_pad s (corr_len o) (trim_pad t (read_len o + 1) w))) q = at_pos a q).
  { rewrite V. destruct (Z.leb_spec s q); [|lia]. destruct (Z.ltb_spec q (s + corr_len o)); [|lia]. destruct (Z.leb_spec t q); [|lia]. destruct (Z.leb_spec q (t + read_len o)); [|lia]. cbn [andb]. apply AW. lia. }
  split; [|assumption]. apply IN. exists w. split; [|split; [assumption|exists q; now rewrite EV]]. exists w. split; [|reflexivity]. now exists a.
Qed.
