(** From the windows to the correlations that are written. *)
From Coq Require Import QArith Qround Reals Permutation Sorted Lia.
From Verif Require Import Lib.Base Lib.Str Lib.StrFacts Lib.Sorting Lib.Time Model.Partition Model.H5 Model.CorrTrace Model.CorrDB Model.Combos Spec.ComboSpec Proofs.ComboFacts Proofs.XCombiFacts Proofs.CorrDBFacts
  Model.Rerun Model.Flip Model.WriteOut Model.PxcorrLoop Proofs.PxcorrLoopFacts Spec.HeaderSpec Spec.DBSpec Spec.XCombiSpec Proofs.OutputFacts Proofs.QueryOrder
  Model.Masking Model.Gaps Model.MpiMatrix Model.Spectral Proofs.SpectralFacts Model.DataLoop Spec.DataLoopSpec Proofs.DataLoopFacts Model.WindowCorrelation Spec.WindowCorrelationSpec Proofs.WindowCorrelationFacts
  Model.RunToFiles Spec.RunToFilesSpec Proofs.RunToFilesFacts.
From Verif Require Model.CorrStream Model.MonitorFiles Model.MonitorRun Model.MonitorInput Spec.MonitorInputSpec Proofs.MonitorInputFacts.
From Verif Require Spec.DirSpec Proofs.RerunFacts Proofs.RestartFacts.
Local Open Scope string_scope.
Local Open Scope list_scope.
Local Open Scope nat_scope.

(** ** pairs *)
Lemma select_shape heads ex m rc hs c : select_pairs heads ex m rc = Ok (hs, c) ->
  exists hs1 c1, calc_cross_combis heads ex m rc = Ok (hs1, c1) /\ pair_traces hs c = pair_traces hs1 c1 /\
    (forall h, In h hs -> In h heads) /\ Forall (fun q => fst q < length hs /\ snd q < length hs) c.
Proof.
  intros E. pose proof E as E0. unfold select_pairs in E. destruct (calc_cross_combis heads ex m rc) as [[hs1 c1]|] eqn:C; [|discriminate]. cbn [bind] in E.
  exists hs1, c1. split; [reflexivity|]. split; [exact (prune_same_pairs _ _ _ _ _ _ _ _ C E0)|].
  assert (B : forall st st' cc, calc_cross_combis st ex m rc = Ok (st', cc) -> (forall h, In h st' -> In h st) /\ Forall (fun q => fst q < length st' /\ snd q < length st') cc).
  { intros st st' cc CC. destruct (calc_exact _ _ _ _ _ _ CC) as (P & _ & _ & X). split.
    - intros h I. eapply Permutation_in; [exact P|exact I].
    - apply Forall_forall. intros [i j] I. apply X in I. destruct I as (a & b & A & B & _). cbn [fst snd]. split; [apply (nth_error_Some st' i)|apply (nth_error_Some st' j)]; congruence. }
  destruct c1 as [|c0 cs] eqn:EC.
  - injection E as <- <-. split; [apply (B _ _ _ C)|constructor].
  - rewrite <- EC in *. destruct (length (del_unused c1 hs1) =? length hs1).
    + injection E as <- <-. apply (B _ _ _ C).
    + destruct (B _ _ _ E) as [B1 B2]. split; [|exact B2]. intros h I. apply (proj1 (B _ _ _ C)). apply B1 in I.
      unfold del_unused in I. apply in_map_iff in I. destruct I as ([i t] & <- & I). apply filter_In in I. destruct I as [I _]. unfold enumerate in I. now apply in_combine_r in I.
Qed.

Definition codes3 (h : Combos.trace) : string * string * string := (t_net h, t_sta h, t_cha h).
Definition hbefore (a b : Combos.trace) : Prop :=
  String.compare (t_net a) (t_net b) = Lt \/
  t_net a = t_net b /\ (String.compare (t_sta a) (t_sta b) = Lt \/ t_sta a = t_sta b /\ String.compare (t_cha a) (t_cha b) = Lt).
Lemma key_before a b : key_le a b = true -> codes3 a <> codes3 b -> hbefore a b.
Proof.
  unfold key_le, codes3, hbefore, str_le, String.leb. intros H N. destruct (String.compare (t_net a) (t_net b)) eqn:E1; [|now left|discriminate]. apply compare_eq in E1. right. split; [exact E1|].
  destruct (String.compare (t_sta a) (t_sta b)) eqn:E2; [|now left|discriminate]. apply compare_eq in E2. right. split; [exact E2|].
  destruct (String.compare (t_cha a) (t_cha b)) eqn:E3; [|reflexivity|discriminate]. apply compare_eq in E3. congruence.
Qed.
Lemma before_key a b : hbefore a b -> key_le b a = false.
Proof.
  unfold key_le, hbefore, str_le, String.leb. intros [H|[-> [H|[-> H]]]]; rewrite ?compare_refl.
  - rewrite compare_antisym, H. reflexivity.
  - rewrite (compare_antisym (t_sta b)), H. reflexivity.
  - rewrite (compare_antisym (t_cha b)), H. reflexivity.
Qed.
Lemma sorted_nth {A} (R : A -> A -> Prop) l : StronglySorted R l -> forall i j a b, i < j -> nth_error l i = Some a -> nth_error l j = Some b -> R a b.
Proof.
  induction 1 as [|x l S IH F]; intros i j a b L A1 B1; [destruct i; discriminate|]. destruct j as [|j]; [lia|]. cbn [nth_error] in B1. destruct i as [|i].
  - cbn in A1. injection A1 as <-. rewrite Forall_forall in F. apply F. eapply nth_error_In, B1.
  - cbn in A1. eapply (IH i j); eauto. lia.
Qed.

Section Window.
  Variables (o : times) (origin dt : Z) (sr len : Q) (center : bool) (method : string) (rc : option (list entry)).
  Variables (proc : Gaps.trace R -> result (option (Gaps.trace R))) (archive : list channel) (f32 : R -> Q) (k : Z).
  Variables (sadd : list cplx -> list cplx -> list cplx) (szero : list cplx) (cadd : result (list R) -> result (list R) -> result (list R)) (czero : result (list R)).
  Hypotheses (S1 : forall x, sadd szero x = x) (S2 : forall x, sadd x szero = x) (C1 : forall x, cadd czero x = x) (C2 : forall x, cadd x czero = x).
  Hypotheses (CL : (0 < corr_len o)%Z) (SR : (0 < sr)%Q) (KK : (sr * len == inject_Z k)%Q) (K1 : (1 <= k)%Z) (EV : Z.even (padded_len (Z.to_nat (corr_len o + 1)) sr len) = true).
  Hypotheses (FINE : fine_archive archive) (M : one_each method) (RQ : fine_requests archive rc).
  Variables (t s : Z) (win : list (nat * Gaps.trace R)).
  Let pre := preprocessed o proc (map ch_trace archive).
  Hypothesis (RW : right_window o proc (map ch_trace archive) (t, s) (s, win)).
  Let chan := channel_of archive.
  Let wof (h : Combos.trace) := nth (Z.to_nat (Combos.t_data h)) win no_trace.
  Let hds := pair_heads origin dt archive win.
  (** the pairs that exist already *)
  Variables (ex : ex_dict) (done : nat * nat -> Prop).
  Hypothesis (EX : forall a b, In a hds -> In b hds -> chosen rc method (chan (fst (wof a))) (chan (fst (wof b))) -> (compare_existing_data ex a b = false <-> ~ done (fst (wof a), fst (wof b)))).

  Lemma head_nth i c w : nth_error win i = Some (c, w) ->
    nth_error hds i = Some (mkTr (ch_net (chan c)) (ch_sta (chan c)) (ch_loc (chan c)) (ch_cha (chan c)) (time_of origin dt (Gaps.t_start w)) (Z.of_nat i)).
  Proof. intros E. unfold hds, pair_heads. rewrite nth_error_map, MaskFacts.enumerate_nth, E. reflexivity. Qed.
  Lemma head_in h : In h hds -> exists c w, In (c, w) win /\ wof h = (c, w) /\ codes3 h = (ch_net (chan c), ch_sta (chan c), ch_cha (chan c)).
  Proof.
    intros I. apply In_nth_error in I. destruct I as (i & E). destruct (nth_error win i) as [[c w]|] eqn:W.
    - rewrite (head_nth _ _ _ W) in E. injection E as <-. exists c, w. split; [eapply nth_error_In, W|]. split; [|reflexivity]. unfold wof. cbn [Combos.t_data]. rewrite Nat2Z.id. now apply nth_error_nth.
    - exfalso. unfold hds, pair_heads in E. rewrite nth_error_map, MaskFacts.enumerate_nth, W in E. discriminate.
  Qed.
  Lemma in_head c w : In (c, w) win -> exists h, In h hds /\ wof h = (c, w) /\ codes3 h = (ch_net (chan c), ch_sta (chan c), ch_cha (chan c)).
  Proof.
    intros I. apply In_nth_error in I. destruct I as (i & E). eexists. split; [eapply nth_error_In, head_nth, E|]. split; [|reflexivity]. unfold wof. cbn [Combos.t_data]. rewrite Nat2Z.id. now apply nth_error_nth.
  Qed.
  Lemma head_start h : In h hds -> Combos.t_start h = (origin + s * dt)%Z.
  Proof.
    intros I. apply In_nth_error in I. destruct I as (i & E). destruct (nth_error win i) as [[c w]|] eqn:W.
    - rewrite (head_nth _ _ _ W) in E. injection E as <-. cbn [Combos.t_start]. destruct RW as (_ & _ & H). apply nth_error_In, H in W. destruct W as (x & _ & (-> & _) & _). reflexivity.
    - exfalso. unfold hds, pair_heads in E. rewrite nth_error_map, MaskFacts.enumerate_nth, W in E. discriminate.
  Qed.
  Lemma ids_nodup : NoDup (map fst win).
  Proof.
    destruct RW as (_ & INC & _). apply NoDup_nth with (d := 0). intros i j I J E. rewrite map_length in I, J. destruct (Nat.lt_trichotomy i j) as [L|[L|L]]; [|exact L|].
    - specialize (INC i j ltac:(lia)). lia.
    - specialize (INC j i ltac:(lia)). lia.
  Qed.
  Lemma win_pre c w : In (c, w) win -> exists x, pre c t x /\ window_of o t s x w.
  Proof. destruct RW as (_ & _ & H). intros I. apply H in I. destruct I as (x & X & W & _). exists x. now split. Qed.
  Lemma pre_chan c x : pre c t x -> c < length archive /\ nth_error archive c = Some (chan c) /\ In (chan c) archive.
  Proof.
    intros (w & (a & A & _) & _). assert (L : c < length archive) by (rewrite <- (map_length ch_trace); apply (nth_error_Some (map ch_trace archive) c); congruence).
    split; [exact L|]. unfold chan, channel_of. split; [|now apply nth_In]. now apply nth_error_nth'.
  Qed.
  Lemma win_chan c w : In (c, w) win -> c < length archive /\ nth_error archive c = Some (chan c) /\ In (chan c) archive.
  Proof. intros I. destruct (win_pre c w I) as (x & X & _). eapply pre_chan, X. Qed.
  Lemma codes_inj c1 c2 : c1 < length archive -> c2 < length archive ->
    (ch_net (chan c1), ch_sta (chan c1), ch_cha (chan c1)) = (ch_net (chan c2), ch_sta (chan c2), ch_cha (chan c2)) -> c1 = c2.
  Proof.
    intros L1 L2 E. destruct FINE as (_ & _ & N). set (cd := fun a => (ch_net a, ch_sta a, ch_cha a)) in *. pose proof (proj1 (NoDup_nth (map cd archive) (cd (mkCh "" "" "" "" (mkT 0 [])))) N) as X.
    apply X; rewrite ?map_length; try assumption. rewrite !map_nth. exact E.
  Qed.

  (** the channel numbers of the pairs *)
  Definition chan_no (h : option Combos.trace) : nat := match h with Some h => fst (wof h) | None => 0 end.
  Definition pair_no (q : option Combos.trace * option Combos.trace) : nat * nat := (chan_no (fst q), chan_no (snd q)).

  Lemma pairs_exact hs1 c1 : calc_cross_combis hds ex method (texts rc) = Ok (hs1, c1) ->
    NoDup (map pair_no (pair_traces hs1 c1)) /\
    forall c d, In (c, d) (map pair_no (pair_traces hs1 c1)) <-> In c (map fst win) /\ In d (map fst win) /\ chosen rc method (chan c) (chan d) /\ ~ done (c, d).
  Proof.
    intros E. destruct (calc_exact _ _ _ _ _ _ E) as (P & SS & N & X).
    assert (HI : forall i a, nth_error hs1 i = Some a -> In a hds) by (intros i a A; eapply Permutation_in; [exact P|eapply nth_error_In, A]).
    assert (CN : map (fun h => fst (wof h)) hds = map fst win).
    { unfold hds, pair_heads. rewrite map_map. apply (list_eq_nth 0); [now rewrite !map_length, MaskFacts.enumerate_length|]. intros i I. rewrite map_length, MaskFacts.enumerate_length in I.
      destruct (nth_error win i) as [[c w]|] eqn:W; [|apply nth_error_None in W; lia].
      erewrite (nth_error_nth (map fst win)) by (apply map_nth_error; exact W).
      erewrite nth_error_nth; [|apply map_nth_error; rewrite MaskFacts.enumerate_nth, W; reflexivity]. unfold wof. cbn [fst snd Combos.t_data]. rewrite Nat2Z.id. now rewrite (nth_error_nth _ _ _ W). }
    assert (ND : NoDup (map (fun h => fst (wof h)) hs1)).
    { eapply Permutation_NoDup; [apply Permutation_sym, Permutation_map, P|]. rewrite CN. apply ids_nodup. }
    assert (INJ : forall i j a b, nth_error hs1 i = Some a -> nth_error hs1 j = Some b -> fst (wof a) = fst (wof b) -> i = j).
    { intros i j a b A B Q. apply (proj1 (NoDup_nth_error _) ND).
      - apply nth_error_Some. rewrite (map_nth_error _ _ _ A). discriminate.
      - rewrite (map_nth_error _ _ _ A), (map_nth_error _ _ _ B). now f_equal. }
    (* positions and order *)
    assert (ORD : forall i j a b, nth_error hs1 i = Some a -> nth_error hs1 j = Some b -> (i < j <-> hbefore a b)).
    { intros i j a b A B. split.
      - intros L. apply key_before; [exact (sorted_nth _ _ SS i j a b L A B)|]. intros Q.
        destruct (head_in a (HI _ _ A)) as (c & w & I & W & CC). destruct (head_in b (HI _ _ B)) as (d & v & J & V & DD).
        rewrite CC, DD in Q. apply codes_inj in Q; [|eapply win_chan, I|eapply win_chan, J]. assert (i = j); [|lia]. apply (INJ i j a b A B). now rewrite W, V.
      - intros H. destruct (Nat.lt_trichotomy i j) as [L|[->|L]]; [exact L| |].
        + rewrite A in B. injection B as <-. apply before_key in H. destruct (key_le_total a a); congruence.
        + pose proof (sorted_nth _ _ SS j i b a L B A) as Q. apply before_key in H. unfold le_rel in Q. congruence. }
    assert (EQ : forall i j a b, nth_error hs1 i = Some a -> nth_error hs1 j = Some b -> (i = j <-> chan (fst (wof a)) = chan (fst (wof b)))).
    { intros i j a b A B. split; [intros ->; rewrite A in B; now injection B as <-|]. intros Q. destruct (head_in a (HI _ _ A)) as (c & w & I & W & CC). destruct (head_in b (HI _ _ B)) as (d & v & J & V & DD).
      rewrite W, V in Q. cbn [fst] in Q. apply (INJ i j a b A B). rewrite W, V. cbn [fst]. apply codes_inj; [eapply win_chan, I|eapply win_chan, J|now rewrite Q]. }
    assert (HB : forall a b, In a hds -> In b hds -> (hbefore a b <-> before (chan (fst (wof a))) (chan (fst (wof b))))).
    { intros a b A B. destruct (head_in a A) as (c & w & _ & W & CC). destruct (head_in b B) as (d & v & _ & V & DD). rewrite W, V. cbn [fst]. injection CC as X1 X2 X3. injection DD as Y1 Y2 Y3.
      unfold hbefore, before. now rewrite X1, X2, X3, Y1, Y2, Y3. }
    assert (HS : forall a b, In a hds -> In b hds -> (same_station a b <-> one_station (chan (fst (wof a))) (chan (fst (wof b))))).
    { intros a b A B. destruct (head_in a A) as (c & w & _ & W & CC). destruct (head_in b B) as (d & v & _ & V & DD). rewrite W, V. cbn [fst]. injection CC as X1 X2 X3. injection DD as Y1 Y2 Y3.
      unfold same_station, one_station. now rewrite X1, X2, Y1, Y2. }
    assert (HL : forall a, In a hds -> component a = letter (chan (fst (wof a)))).
    { intros a A. destruct (head_in a A) as (c & w & _ & W & CC). rewrite W. cbn [fst]. injection CC as X1 X2 X3. unfold component, letter. now rewrite X3. }
    assert (DW : forall i j a b, nth_error hs1 i = Some a -> nth_error hs1 j = Some b -> (documented method i j a b <-> wanted method (chan (fst (wof a))) (chan (fst (wof b))))).
    { intros i j a b A B. pose proof (HI _ _ A) as IA. pose proof (HI _ _ B) as IB. unfold documented, wanted. rewrite (ORD i j a b A B), (HB a b IA IB), (HS a b IA IB), (HL a IA), (HL b IB), (EQ i j a b A B).
      assert (NM : method <> "allCombinations") by (intros Q; rewrite Q in M; cbn in M; intuition discriminate).
      assert (LE : i <= j <-> before (chan (fst (wof a))) (chan (fst (wof b))) \/ chan (fst (wof a)) = chan (fst (wof b))).
      { rewrite <- (HB a b IA IB), <- (ORD i j a b A B), <- (EQ i j a b A B). lia. }
      rewrite LE. tauto. }
    assert (AL : forall a b, In a hds -> In b hds -> (allowed method (texts rc) a b <-> requested rc method (chan (fst (wof a))) (chan (fst (wof b))))).
    { intros a b A B. unfold allowed, requested. destruct rc as [es|] eqn:RC; [|split; intros _ _ l Q; discriminate]. destruct (head_in a A) as (c & w & IA & W & CC). destruct (head_in b B) as (d & v & IB & V & DD). rewrite W, V. cbn [fst].
      injection CC as A1 A2 A3. injection DD as B1 B2 B3. destruct (win_chan c w IA) as (_ & _ & KA). destruct (win_chan d v IB) as (_ & _ & KB). destruct FINE as (SEED & _).
      destruct (SEED _ KA) as (U1 & U2 & U3). destruct (SEED _ KB) as (V1 & V2 & V3).
      assert (SA : seed_trace a) by (unfold seed_trace; rewrite A1, A2, A3; auto). assert (SB : seed_trace b) by (unfold seed_trace; rewrite B1, B2, B3; auto).
      assert (SE : Forall seed_entry es) by (apply Forall_forall; intros e1 IE; apply (RQ es e1 eq_refl IE)).
      assert (LE : Forall (fun e => same_length e a /\ same_length e b) es).
      { apply Forall_forall. intros e1 IE. destruct (RQ es e1 eq_refl IE) as (_ & L). unfold same_length. rewrite A2, A3, B2, B3. split; [apply (L _ KA)|apply (L _ KB)]. }
      pose proof (in_xcombis_exact es a b SE SA SB LE) as XE.
      assert (NA : forall e, names e a b <-> asks e (chan c) (chan d) \/ asks e (chan d) (chan c)) by (intros e; unfold names, names_in_order, asks; rewrite A1, A2, A3, B1, B2, B3; reflexivity).
      split; intros H MB l Q; injection Q as <-.
      - destruct (proj1 XE (H MB (map entry_text es) eq_refl)) as (e1 & IE & NE). exists e1. split; [exact IE|now apply NA].
      - apply XE. destruct (H MB es eq_refl) as (e1 & IE & NE). exists e1. split; [exact IE|now apply NA]. }
    split.
    - (* distinct pairs *)
      assert (V : forall q, In q c1 -> exists a b, nth_error hs1 (fst q) = Some a /\ nth_error hs1 (snd q) = Some b).
      { intros [i j] I. apply X in I. destruct I as (a & b & A & B & _). exists a, b. now split. }
      unfold pair_traces. rewrite map_map. clear E X DW. induction c1 as [|[i j] cs IH]; [constructor|]. inversion N as [|? ? NI N']; subst. cbn [map]. constructor; [|apply IH; [exact N'|intros q I; apply V; now right]].
      intros I. apply in_map_iff in I. destruct I as ([i' j'] & Q & I). apply NI.
      destruct (V (i, j) ltac:(now left)) as (a & b & A & B). destruct (V (i', j') ltac:(now right)) as (a' & b' & A' & B'). cbn [fst snd] in *.
      rewrite A, B, A', B' in Q. unfold pair_no in Q. cbn [fst snd chan_no] in Q. injection Q as Q1 Q2. rewrite (INJ i i' a a' A A') by congruence. rewrite (INJ j j' b b' B B') by congruence. exact I.
    - intros c d. split.
      + intros I. apply in_map_iff in I. destruct I as (q & Q & I). unfold pair_traces in I. apply in_map_iff in I. destruct I as ([i j] & <- & I). apply X in I. destruct I as (a & b & A & B & D & CX & RA).
        cbn [fst snd] in Q. rewrite A, B in Q. unfold pair_no in Q. cbn [fst snd chan_no] in Q. injection Q as <- <-.
        destruct (head_in a (HI _ _ A)) as (c & w & I & W & _). destruct (head_in b (HI _ _ B)) as (d & v & J & V & _). apply (DW i j a b A B) in D. apply (AL a b (HI _ _ A) (HI _ _ B)) in RA. apply (EX a b (HI _ _ A) (HI _ _ B) (conj D RA)) in CX.
        rewrite W, V in *. cbn [fst] in *. split; [now apply (in_map fst) in I|]. split; [now apply (in_map fst) in J|]. split; [exact (conj D RA)|exact CX].
      + intros (I & J & D & ND'). apply in_map_iff in I. destruct I as ([c' w] & <- & I). apply in_map_iff in J. destruct J as ([d' v] & <- & J). cbn [fst] in *.
        destruct (in_head _ _ I) as (a & A & W & _). destruct (in_head _ _ J) as (b & B & V & _).
        apply (Permutation_in a (Permutation_sym P)) in A. apply (Permutation_in b (Permutation_sym P)) in B. apply In_nth_error in A. apply In_nth_error in B. destruct A as (i & A). destruct B as (j & B).
        apply in_map_iff. exists (Some a, Some b). split; [unfold pair_no; cbn [fst snd chan_no]; now rewrite W, V|]. unfold pair_traces. apply in_map_iff. exists (i, j). cbn [fst snd]. split; [now rewrite A, B|].
        apply X. exists a, b. split; [exact A|]. split; [exact B|]. split; [apply (DW i j a b A B); rewrite W, V; apply D|]. split; [apply (EX a b (HI _ _ A) (HI _ _ B)); rewrite W, V; [exact D|exact ND']|]. apply (AL a b (HI _ _ A) (HI _ _ B)). rewrite W, V. apply D.
  Qed.

  (** the correlation of channels [c] and [d] *)
  Definition made (q : nat * nat) (tr : ctrace) : Prop :=
    c_start tr = time_of origin dt s /\ c_end tr = time_of origin dt (s + corr_len o) /\
    forall x y, pre (fst q) t x -> pre (snd q) t y -> right_correlation o origin dt sr k f32 t s (chan (fst q)) (chan (snd q)) x y tr.

  Lemma not_flipped a b : In a archive -> In b archive -> before a b \/ a = b -> str_le (ch_net a ++ ch_sta a ++ ch_cha a) (ch_net b ++ ch_sta b ++ ch_cha b) = true.
  Proof.
    intros A B H. destruct FINE as (_ & L & _). destruct (L a b A B) as (L1 & L2 & _). unfold str_le, String.leb. destruct H as [H| ->]; [|now rewrite compare_refl].
    rewrite !compare_app by assumption. destruct H as [->|[-> [->|[-> ->]]]]; rewrite ?compare_refl; reflexivity.
  Qed.
  Lemma lag_value : (start_lag center sr len (inject_Z (s - s) / sr) == - inject_Z k / sr)%Q.
  Proof.
    unfold start_lag. destruct (padded_enough 1 sr len k KK ltac:(lia)) as [_ ->]. rewrite Z2Nat.id by lia.
    assert (Z0 : (roffset center sr (inject_Z (s - s) / sr) == 0)%Q).
    { unfold roffset. destruct center; [reflexivity|]. rewrite Z.sub_diag. assert (E : qfix (inject_Z 0 / sr * sr) = 0%Z).
      { unfold qfix, Qdiv. assert (Q : (inject_Z 0 * / sr * sr == 0)%Q) by (unfold inject_Z; ring). destruct (Qle_bool 0 _); [rewrite (Qfloor_comp _ _ Q)|rewrite (Qceiling_comp _ _ Q)]; reflexivity. }
      rewrite E. unfold Qdiv. unfold inject_Z. ring. }
    rewrite Z0. ring.
  Qed.
  Lemma row_eq row (g : nat -> R) n : length row = n -> (forall i, i < n -> nth i row 0%R = g i) -> row = map g (seq 0 n).
  Proof. intros L H. apply (list_eq_nth 0%R); [now rewrite map_length, seq_length|]. intros i I. rewrite L in I. rewrite H by exact I. symmetry. now apply nth_map_seq. Qed.

  Lemma window_corrs : exists pairs l,
    (forall p, 0 < p -> window_correlations origin dt sr len false center method (texts rc) archive f32 sadd szero cadd czero ex p win = Ok l) /\
    NoDup pairs /\ (forall c d, In (c, d) pairs <-> In c (map fst win) /\ In d (map fst win) /\ chosen rc method (chan c) (chan d) /\ ~ done (c, d)) /\ Forall2 made pairs l.
  Proof.
    destruct (select_pairs_total hds ex method (texts rc)) as (hs & cs & SE).
    { unfold known_method. unfold one_each in M. cbn in *. tauto. }
    { intros h I. destruct (head_in h I) as (c & w & J & _ & CC). injection CC as _ _ ->. destruct FINE as (F & _). destruct (win_chan c w J) as (_ & _ & IA). apply (F _ IA). }
    destruct (select_shape _ _ _ _ _ _ SE) as (hs1 & c1 & CE & PT & SUB & BD).
    destruct (pairs_exact hs1 c1 CE) as (ND & PX). rewrite <- PT in ND, PX.
    set (win' := map wof hs). assert (LW : length win' = length hs) by apply map_length.
    assert (SUBW : forall c w, In (c, w) win' -> In (c, w) win).
    { intros c w I. unfold win' in I. apply in_map_iff in I. destruct I as (h & E & I). apply SUB in I. destruct (head_in h I) as (c' & w' & J & W & _). rewrite W in E. injection E as <- <-. exact J. }
    destruct (window_rows sadd szero cadd czero S1 S2 C1 C2 o proc (map ch_trace archive) t s win' center sr len k cs) as (rows & RE & RF); try assumption.
    { intros c w I. apply (win_pre c w), SUBW, I. }
    { rewrite LW. exact BD. }
    set (mk := fun q : (nat * nat) * result (list R) => let c := fst q in bind (snd q) (fun row =>
       Ok (store_pair (raw_head origin dt archive (nth (fst c) win' no_trace)) (raw_head origin dt archive (nth (snd c) win' no_trace)) sr
             (start_lag center sr len (inject_Z (Gaps.t_start (snd (nth (fst c) win' no_trace)) - Gaps.t_start (snd (nth (snd c) win' no_trace))) / sr)) (map f32 row)))).
    assert (MK : exists l, mapM mk (combine cs rows) = Ok l /\ Forall2 made (map pair_no (pair_traces hs cs)) l).
    { assert (WD : forall c d, In (c, d) (map pair_no (pair_traces hs cs)) -> chosen rc method (chan c) (chan d)) by (intros c d I; now apply PX in I).
      clear RE ND PX SE PT. induction RF as [|[i j] r cs rows (row & -> & LR & V) RF IH]; [exists []; split; [reflexivity|constructor]|].
      inversion BD as [|? ? [BI BJ] BD']; subst. cbn [fst snd] in BI, BJ. destruct (IH BD') as (l & E & F); [intros c d I; apply WD; now right|].
      destruct (nth_error hs i) as [a|] eqn:HA; [|apply nth_error_None in HA; lia]. destruct (nth_error hs j) as [b|] eqn:HB; [|apply nth_error_None in HB; lia].
      destruct (head_in a (SUB a (nth_error_In _ _ HA))) as (c & w & IC & WA & _). destruct (head_in b (SUB b (nth_error_In _ _ HB))) as (d & v & ID & WB & _).
      assert (NI : nth i win' no_trace = (c, w)) by (unfold win'; erewrite nth_error_nth by (apply map_nth_error; exact HA); exact WA).
      assert (NJ : nth j win' no_trace = (d, v)) by (unfold win'; erewrite nth_error_nth by (apply map_nth_error; exact HB); exact WB).
      assert (FI : nth i (map fst win') 0 = c) by (change 0 with (fst no_trace); rewrite map_nth, NI; reflexivity).
      assert (FJ : nth j (map fst win') 0 = d) by (change 0 with (fst no_trace); rewrite map_nth, NJ; reflexivity).
      cbn [fst snd] in V. rewrite FI, FJ in V.
      assert (PN : pair_no (Some a, Some b) = (c, d)) by (unfold pair_no; cbn [fst snd chan_no]; now rewrite WA, WB).
      destruct (win_pre c w IC) as (x & X & (TX & LX & _)). destruct (win_pre d v ID) as (y & Y & (TY & LY & _)).
      destruct (win_chan c w IC) as (_ & _ & AC). destruct (win_chan d v ID) as (_ & _ & AD).
      assert (WN : chosen rc method (chan c) (chan d)) by (apply WD; left; cbn [fst snd]; now rewrite HA, HB, PN).
      assert (NF : before (chan c) (chan d) \/ chan c = chan d) by (unfold chosen, wanted in WN; tauto).
      eexists. cbn [combine mapM]. unfold mk at 1. cbn [fst snd bind]. rewrite NI, NJ. cbn [fst snd]. rewrite E. cbn [bind]. split; [reflexivity|].
      cbn [pair_traces map]. constructor; [|exact F]. cbn [fst snd]. rewrite HA, HB, PN. unfold made. cbn [fst snd].
      unfold store_pair, alphabetical_correlation, raw_head. cbn [fst snd r_net r_sta r_cha]. change (channel_of archive) with chan. rewrite (not_flipped _ _ AC AD NF).
      unfold combine_stats. cbn [r_net r_sta r_loc r_cha r_start r_end c_start c_end].
      assert (EL : last_pos w = (s + corr_len o)%Z) by (unfold last_pos; lia). assert (EM : last_pos v = (s + corr_len o)%Z) by (unfold last_pos; lia).
      rewrite TX, TY, EL, EM, Z.max_id, Z.min_id. split; [reflexivity|]. split; [reflexivity|]. intros x' y' X' Y'.
      unfold right_correlation. cbn [c_net c_sta c_loc c_cha c_start c_end c_lag c_sr c_data]. unfold time_of. repeat split.
      - apply lag_value.
      - rewrite (row_eq row (fun i => lagged_sum o t s x' y' (Z.of_nat i - k)) _ LR (V x' y' X' Y')). now rewrite map_map. }
    destruct MK as (l & E & F). exists (map pair_no (pair_traces hs cs)), l. split; [|split; [exact ND|split; [exact PX|exact F]]].
    intros p P. unfold window_correlations. fold hds. rewrite SE. cbn [bind fst snd]. fold wof win'. rewrite (RE p P). cbn [bind]. exact E.
  Qed.
End Window.

(** ** codes *)
Lemma dash_inj a b a' b' : has_char "-" a = false -> has_char "-" b = false -> has_char "-" a' = false -> has_char "-" b' = false ->
  (a ++ "-" ++ b = a' ++ "-" ++ b')%string -> a = a' /\ b = b'.
Proof.
  intros A B A' B' E. change ("-" ++ b)%string with (String "-" b) in E. change ("-" ++ b')%string with (String "-" b') in E.
  apply (f_equal (split_on "-")) in E. rewrite !split_on_app, !split_on_no in E by assumption. now injection E.
Qed.
Lemma upper_char_dash c : Ascii.eqb (upper_char c) "-" = Ascii.eqb c "-".
Proof. destruct c as [[] [] [] [] [] [] [] []]; reflexivity. Qed.
Lemma upper_dash s : has_char "-" (upper s) = has_char "-" s.
Proof. induction s as [|c s IH]; [reflexivity|]. cbn [upper has_char]. now rewrite IH, upper_char_dash. Qed.
Lemma upper_app a b : upper (a ++ b)%string = (upper a ++ upper b)%string.
Proof. induction a as [|c a IH]; [reflexivity|]. cbn. now rewrite IH. Qed.
Lemma upper_pair a b a' b' : has_char "-" a = false -> has_char "-" b = false -> has_char "-" a' = false -> has_char "-" b' = false ->
  upper (a ++ "-" ++ b)%string = upper (a' ++ "-" ++ b')%string -> upper a = upper a' /\ upper b = upper b'.
Proof. intros A B A' B' E. rewrite !upper_app in E. change (upper "-") with "-" in E. apply dash_inj in E; [exact E|now rewrite upper_dash..]. Qed.

(** ** lists *)
Lemma concat_nonempty {A} (l : list (list A)) : concat (map snd (filter (fun q => match snd q with [] => false | _ => true end) (enumerate l))) = concat l.
Proof.
  unfold enumerate. generalize 0. induction l as [|x l IH]; intros n; [reflexivity|]. cbn [length seq combine filter snd]. destruct x as [|a x]; cbn [map concat snd]; now rewrite IH.
Qed.
Lemma Forall2_keys {A B C} (R : A -> B -> Prop) (key : B -> C) I L : Forall2 R I L -> NoDup I ->
  (forall i j a b, In i I -> In j I -> R i a -> R j b -> key a = key b -> i = j) -> NoDup (map key L).
Proof.
  induction 1 as [|i a I L H F IH]; intros N K; [constructor|]. inversion N as [|? ? NI N']; subst. cbn [map]. constructor.
  - intros X. apply in_map_iff in X. destruct X as (b & E & X). apply NI. assert (Y : exists j, In j I /\ R j b).
    { clear -F X. induction F as [|j b' I L Q F IH]; [contradiction|]. destruct X as [->|X]; [exists j; split; [now left|exact Q]|]. destruct (IH X) as (j' & J & Y). exists j'. split; [now right|exact Y]. }
    destruct Y as (j & J & Y). rewrite (K i j a b); [exact J|now left|now right|exact H|exact Y|now symmetry].
  - apply IH; [exact N'|]. intros i' j' a' b' I1 J1. apply K; now right.
Qed.
Lemma Forall2_len {A B} (R : A -> B -> Prop) I L : Forall2 R I L -> length I = length L.
Proof. induction 1; cbn; congruence. Qed.
Lemma Forall2_left {A B} (R : A -> B -> Prop) I L i : Forall2 R I L -> In i I -> exists a, In a L /\ R i a.
Proof. induction 1 as [|j b I L Q F IH]; intros X; [contradiction|]. destruct X as [->|X]; [exists b; split; [now left|exact Q]|]. destruct (IH X) as (a & J & Y). exists a. split; [now right|exact Y]. Qed.
Lemma Forall2_right {A B} (R : A -> B -> Prop) I L a : Forall2 R I L -> In a L -> exists i, In i I /\ R i a.
Proof. induction 1 as [|j b I L Q F IH]; intros X; [contradiction|]. destruct X as [->|X]; [exists j; split; [now left|exact Q]|]. destruct (IH X) as (i & J & Y). exists i. split; [now right|exact Y]. Qed.

Definition item_dec (a b : (Z * Z) * (nat * nat)) : {a = b} + {a <> b}.
Proof. repeat decide equality. Defined.

Section Whole.
  Variables (o : times) (origin dt : Z) (sr len : Q) (center : bool) (method : string) (rc : option (list entry)) (K n : nat).
  Variables (proc : Gaps.trace R -> result (option (Gaps.trace R))) (archive : list channel) (f32 : R -> Q) (k : Z).
  Variables (sadd : list cplx -> list cplx -> list cplx) (szero : list cplx) (cadd : result (list R) -> result (list R) -> result (list R)) (czero : result (list R)).
  Hypotheses (S1 : forall x, sadd szero x = x) (S2 : forall x, sadd x szero = x) (C1 : forall x, cadd czero x = x) (C2 : forall x, cadd x czero = x).
  Hypotheses (SENS : sensible o K n) (GRID : read_inc o = (Z.of_nat n * corr_inc o)%Z) (OKS : all_succeed o proc (map ch_trace archive) K).
  Hypotheses (SR : (0 < sr)%Q) (KK : (sr * len == inject_Z k)%Q) (K1 : (1 <= k)%Z) (EV : Z.even (padded_len (Z.to_nat (corr_len o + 1)) sr len) = true).
  Hypotheses (FINE : fine_archive archive) (M : one_each method) (RQ : fine_requests archive rc).
  Let pre := preprocessed o proc (map ch_trace archive).
  Let chan := channel_of archive.
  Variable subdiv : bool.
  Let run := run_batches o origin dt sr len false center method (texts rc) proc archive f32 sadd szero cadd czero subdiv.
  Let present (t s : Z) (c : nat) : Prop := exists x, has_data o proc archive t s c (chan c) x.
  Let mk (i : (Z * Z) * (nat * nat)) (tr : ctrace) : Prop := made o origin dt sr proc archive f32 k (fst (fst i)) (snd (fst i)) (snd i) tr.

  Lemma present_iff t s win c : right_window o proc (map ch_trace archive) (t, s) (s, win) -> (In c (map fst win) <-> present t s c).
  Proof.
    intros RW. pose proof RW as (_ & _ & H). split.
    - intros I. apply in_map_iff in I. destruct I as ([c' w] & <- & I). cbn [fst]. pose proof I as J. apply H in I. destruct I as (x & X & (_ & _ & W) & q & Q). exists x.
      destruct (pre_chan o proc archive t c' x X) as (_ & NE & _). split; [exact NE|]. split; [exact X|].
      rewrite W in Q. exists q. destruct (Z.leb_spec s q); [|exfalso; now apply Q]. destruct (Z.ltb_spec q (s + corr_len o)); [|exfalso; now apply Q]. destruct (Z.leb_spec t q); [|exfalso; now apply Q]. destruct (Z.leb_spec q (t + read_len o)); [|exfalso; now apply Q].
      split; [lia|]. split; [lia|]. exact Q.
    - intros (x & _ & X & q & Q1 & Q2 & Q). assert (W : window_of o t s x (trim_pad s (corr_len o + 1) (trim_pad s (corr_len o) (trim_pad t (read_len o + 1) x)))) by (eapply window_made; eassumption).
      apply in_map_iff. exists (c, trim_pad s (corr_len o + 1) (trim_pad s (corr_len o) (trim_pad t (read_len o + 1) x))). split; [reflexivity|]. apply H. exists x. split; [exact X|]. split; [exact W|].
      exists q. destruct W as (_ & _ & W). rewrite W. destruct (Z.leb_spec s q); [|lia]. destruct (Z.ltb_spec q (s + corr_len o)); [|lia]. destruct (Z.leb_spec t q); [|lia]. destruct (Z.leb_spec q (t + read_len o)); [|lia]. exact Q.
  Qed.

  Definition dress (i : (Z * Z) * (nat * nat)) : Prop := let '((t, s), (c, d)) := i in In (t, s) (schedule o K n) /\ present t s c /\ present t s d /\ chosen rc method (chan c) (chan d).
  Definition finds (ex : ex_dict) (done : (Z * Z) * (nat * nat) -> Prop) (l : list (Z * Z)) : Prop :=
    forall t s win, In (t, s) l -> right_window o proc (map ch_trace archive) (t, s) (s, win) ->
    let number a := fst (nth (Z.to_nat (Combos.t_data a)) win no_trace) in
    forall a b, In a (pair_heads origin dt archive win) -> In b (pair_heads origin dt archive win) -> chosen rc method (chan (number a)) (chan (number b)) ->
      (compare_existing_data ex a b = false <-> ~ done ((t, s), (number a, number b))).
  Lemma run_corrs ex done : subdiv_used subdiv ex = false -> finds ex done (schedule o K n) -> exists I L,
    (forall p flag, 0 < p -> exists bs, run ex p flag = Some (Ok bs) /\ concat bs = L) /\ NoDup I /\
    (forall t s c d, In ((t, s), (c, d)) I <-> In (t, s) (schedule o K n) /\ present t s c /\ present t s d /\ chosen rc method (chan c) (chan d) /\ ~ done ((t, s), (c, d))) /\
    Forall2 mk I L.
  Proof.
    intros SU FD. destruct (windows_right o K n proc (map ch_trace archive) SENS OKS 1 0 ltac:(lia)) as (ws & W & F).
    assert (CL : (0 < corr_len o)%Z) by apply SENS.
    assert (NS : NoDup (schedule o K n)).
    { apply (NoDup_map_inv snd). rewrite (grid_starts _ _ _ GRID). apply FinFun.Injective_map_NoDup; [|apply seq_NoDup]. intros i j X. destruct SENS as (_ & _ & _ & C & _). nia. }
    assert (X : exists I ls, (forall p, 0 < p -> mapM (fun w => window_correlations origin dt sr len false center method (texts rc) archive f32 sadd szero cadd czero ex p (snd w)) ws = Ok ls) /\ NoDup I /\
      (forall t s c d, In ((t, s), (c, d)) I <-> In (t, s) (schedule o K n) /\ present t s c /\ present t s d /\ chosen rc method (chan c) (chan d) /\ ~ done ((t, s), (c, d))) /\ Forall2 mk I (concat ls)).
    { clear W. revert NS. induction F as [|[t s] [s' win] ts ws RW F IH]; intros NS.
      - exists [], []. split; [reflexivity|]. split; [constructor|]. split; [|constructor]. intros t s c d. split; [contradiction|intros [[] _]].
      - pose proof RW as (-> & _). inversion NS as [|? ? NI NS']; subst. destruct IH as (I & ls & E & N & X & FI); [intros t' s' win' J; apply FD; now right|exact NS'|].
        destruct (window_corrs o origin dt sr len center method rc proc archive f32 k sadd szero cadd czero S1 S2 C1 C2 CL SR KK K1 EV FINE M RQ t s win RW ex (fun q => done ((t, s), q)) (FD t s win (or_introl eq_refl) RW)) as (pairs & l & PE & PN & PX & PF).
        exists (map (pair (t, s)) pairs ++ I), (l :: ls). split; [intros p P; cbn [mapM snd]; rewrite (PE p P); cbn [bind]; rewrite (E p P); reflexivity|]. split; [|split].
        + apply NoDup_app_intro; [apply FinFun.Injective_map_NoDup; [intros a b Q; now injection Q|exact PN]|exact N|].
          intros [[t' s'] [c d]] J1 J2. apply in_map_iff in J1. destruct J1 as (q & Q & _). injection Q as <- <- _. apply X in J2. now destruct J2.
        + intros t' s' c d. rewrite in_app_iff, X. cbn [In]. split.
          * intros [J|J]; [|tauto]. apply in_map_iff in J. destruct J as (q & Q & J). injection Q as <- <- ->. apply PX in J. rewrite !(present_iff t s win _ RW) in J. tauto.
          * intros ([Q|Q] & A & B & D & D'); [|right; tauto]. injection Q as <- <-. left. apply in_map. apply PX. rewrite !(present_iff t s win _ RW). tauto.
        + cbn [concat]. apply Forall2_app; [|exact FI]. clear -PF. induction PF as [|q tr pairs l Q PF IH]; cbn [map]; constructor; [exact Q|exact IH]. }
    destruct X as (I & ls & E & N & X & FI). exists I, (concat ls). split; [|now split].
    intros p flag P. unfold run, run_batches. rewrite SU, (processes_irrelevant o K n proc (map ch_trace archive) p 0 1 0 SENS OKS P ltac:(lia)), W. cbn [option_map]. rewrite (E p P). cbn [bind].
    eexists. split; [reflexivity|]. rewrite pxcorr_content, map_map. cbn [fst]. apply concat_nonempty.
  Qed.

  Hypotheses (DT : (100000 <= corr_inc o * dt)%Z).
  Hypothesis (TOK : forall t s, In (t, s) (schedule o K n) -> time_ok (origin + s * dt) /\ time_ok (origin + (s + corr_len o) * dt)).
  Lemma present_chan t s c : present t s c -> c < length archive /\ In (chan c) archive /\ seed (ch_net (chan c)) /\ seed (ch_sta (chan c)) /\ seed (ch_cha (chan c)).
  Proof. intros (x & _ & X & _). destruct (pre_chan o proc archive t c x X) as (L & _ & I). split; [exact L|]. split; [exact I|]. destruct FINE as (F & _). now apply F. Qed.
  Lemma schedule_unique t t' s : In (t, s) (schedule o K n) -> In (t', s) (schedule o K n) -> t = t'.
  Proof.
    assert (N : NoDup (map snd (schedule o K n))).
    { rewrite (grid_starts _ _ _ GRID). apply FinFun.Injective_map_NoDup; [|apply seq_NoDup]. intros i j X. destruct SENS as (_ & _ & _ & C & _). nia. }
    clear TOK. revert N. induction (schedule o K n) as [|[u v] l IH]; intros N A B; [contradiction|]. inversion N as [|? ? NI N']; subst. cbn [snd] in NI. destruct A as [A|A], B as [B|B].
    - congruence.
    - injection A as -> ->. exfalso. apply NI. now apply (in_map snd) in B.
    - injection B as -> ->. exfalso. apply NI. now apply (in_map snd) in A.
    - now apply IH.
  Qed.
  Lemma tick_unique t s t' s' : In (t, s) (schedule o K n) -> In (t', s') (schedule o K n) -> tick (origin + s * dt) = tick (origin + s' * dt) -> s = s'.
  Proof.
    intros A B E. apply (in_map snd) in A. apply (in_map snd) in B. rewrite (grid_starts _ _ _ GRID) in A, B. apply in_map_iff in A. apply in_map_iff in B. destruct A as (i & A & _). destruct B as (j & B & _). cbn [snd] in A, B. subst s s'.
    f_equal. f_equal. unfold tick in E. destruct SENS as (_ & _ & _ & C & _).
    pose proof (Z.div_mod (origin + (read_start o + Z.of_nat i * corr_inc o) * dt) 100000 ltac:(lia)) as D1. pose proof (Z.mod_pos_bound (origin + (read_start o + Z.of_nat i * corr_inc o) * dt) 100000 ltac:(lia)) as B1.
    pose proof (Z.div_mod (origin + (read_start o + Z.of_nat j * corr_inc o) * dt) 100000 ltac:(lia)) as D2. pose proof (Z.mod_pos_bound (origin + (read_start o + Z.of_nat j * corr_inc o) * dt) 100000 ltac:(lia)) as B2.
    rewrite E in D1. assert (Q : (-100000 < (Z.of_nat i - Z.of_nat j) * (corr_inc o * dt) < 100000)%Z) by lia. nia.
  Qed.

  Lemma made_codes t s c d tr : dress ((t, s), (c, d)) -> mk ((t, s), (c, d)) tr ->
    c_net tr = (ch_net (chan c) ++ "-" ++ ch_net (chan d))%string /\ c_sta tr = (ch_sta (chan c) ++ "-" ++ ch_sta (chan d))%string /\ c_cha tr = (ch_cha (chan c) ++ "-" ++ ch_cha (chan d))%string /\
    c_start tr = (origin + s * dt)%Z /\ c_end tr = (origin + (s + corr_len o) * dt)%Z.
  Proof.
    intros (_ & (x & _ & X & _) & (y & _ & Y & _) & _) (ST & EN & R). cbn [fst snd] in *. destruct (R x y X Y) as (N1 & N2 & _ & N3 & _). repeat split; assumption.
  Qed.
  Lemma seed_dash s : seed s -> has_char "-" s = false. Proof. now intros (_ & _ & H). Qed.
  Lemma item_unique i j a b : dress i -> dress j -> mk i a -> mk j b -> c_net a = c_net b -> c_sta a = c_sta b -> c_cha a = c_cha b -> tick (c_start a) = tick (c_start b) -> i = j.
  Proof.
    destruct i as [[t s] [c d]]. destruct j as [[t' s'] [c' d']]. intros DI DJ A B E1 E2 E3 E4.
    pose proof (made_codes t s c d a DI A) as (A1 & A2 & A3 & A4 & A5). pose proof (made_codes t' s' c' d' b DJ B) as (B1 & B2 & B3 & B4 & B5).
    destruct DI as (SI & P1 & P2 & _). destruct DJ as (SJ & P3 & P4 & _).
    destruct (present_chan _ _ _ P1) as (L1 & _ & U1 & V1 & W1). destruct (present_chan _ _ _ P2) as (L2 & _ & U2 & V2 & W2). destruct (present_chan _ _ _ P3) as (L3 & _ & U3 & V3 & W3). destruct (present_chan _ _ _ P4) as (L4 & _ & U4 & V4 & W4).
    rewrite A1, B1 in E1. rewrite A2, B2 in E2. rewrite A3, B3 in E3. rewrite A4, B4 in E4.
    apply dash_inj in E1; try (apply seed_dash; assumption). apply dash_inj in E2; try (apply seed_dash; assumption). apply dash_inj in E3; try (apply seed_dash; assumption).
    destruct E1 as [E1 F1]. destruct E2 as [E2 F2]. destruct E3 as [E3 F3].
    assert (s = s') by (eapply tick_unique; eassumption). subst s'. assert (t = t') by (eapply schedule_unique; eassumption). subst t'.
    assert (c = c') by (apply (codes_inj archive FINE); [assumption..|]; unfold chan in *; now rewrite E1, E2, E3). assert (d = d') by (apply (codes_inj archive FINE); [assumption..|]; unfold chan in *; now rewrite F1, F2, F3). now subst.
  Qed.
  Lemma keys_distinct I L : NoDup I -> (forall i, In i I -> dress i) -> Forall2 mk I L -> NoDup (map (key_of "subdivision") L).
  Proof.
    intros N D F. apply (Forall2_keys mk (key_of "subdivision") I L F N). intros i j a b HI HJ A B E.
    unfold key_of in E. injection E as E1 E2 E3 E4 _. exact (item_unique i j a b (D _ HI) (D _ HJ) A B E1 E2 E3 E4).
  Qed.
  Lemma pair_fine a b : seed a -> seed b -> code_fine (a ++ "-" ++ b) /\ name_ok (a ++ "-" ++ b).
  Proof.
    intros ((A1 & A2 & A3) & A4 & _) ((B1 & B2 & B3) & B4 & _). split.
    - split; [rewrite !has_char_app, A4, B4; reflexivity|rewrite !plain_app, A3, B3; reflexivity].
    - apply name_ok_pair; repeat split; assumption.
  Qed.
  Lemma corrs_fine I L : (forall i, In i I -> dress i) -> Forall2 mk I L -> batch_ok L /\ Forall storable L /\ forall tr, In tr L -> canonical (c_net tr) (c_sta tr) (c_cha tr).
  Proof.
    intros D F.
    assert (G : forall tr, In tr L -> exists t s c d, dress ((t, s), (c, d)) /\ mk ((t, s), (c, d)) tr).
    { intros tr T. destruct (Forall2_right _ _ _ _ F T) as ([[t s] [c d]] & HI & H). exists t, s, c, d. split; [now apply D|exact H]. }
    split; [split|split].
    - intros a T. destruct (G a T) as (t & s & c & d & DR & MK). destruct (made_codes _ _ _ _ _ DR MK) as (-> & -> & -> & _). destruct DR as (_ & P1 & P2 & _).
      destruct (present_chan _ _ _ P1) as (_ & _ & U1 & V1 & W1). destruct (present_chan _ _ _ P2) as (_ & _ & U2 & V2 & W2). repeat split; now apply pair_fine.
    - intros a b T T'. destruct (G a T) as (t & s & c & d & DR & MK). destruct (made_codes _ _ _ _ _ DR MK) as (-> & -> & -> & _). destruct DR as (_ & P1 & P2 & _).
      destruct (G b T') as (t' & s' & c' & d' & DR' & MK'). destruct (made_codes _ _ _ _ _ DR' MK') as (-> & -> & -> & _). destruct DR' as (_ & P3 & P4 & _).
      destruct (present_chan _ _ _ P1) as (_ & I1 & U1 & V1 & W1). destruct (present_chan _ _ _ P2) as (_ & I2 & U2 & V2 & W2). destruct (present_chan _ _ _ P3) as (_ & I3 & U3 & V3 & W3). destruct (present_chan _ _ _ P4) as (_ & I4 & U4 & V4 & W4).
      destruct FINE as (_ & FU & _). destruct (FU _ _ I1 I3) as (_ & _ & X1 & X2 & X3). destruct (FU _ _ I2 I4) as (_ & _ & Y1 & Y2 & Y3).
      repeat split; intros E; (apply upper_pair in E; try (apply seed_dash; assumption)); destruct E as [E1 E2].
      + now rewrite (X1 E1), (Y1 E2).
      + now rewrite (X2 E1), (Y2 E2).
      + now rewrite (X3 E1), (Y3 E2).
    - apply Forall_forall. intros a T. destruct (G a T) as (t & s & c & d & DR & MK). unfold storable, valid_op. destruct (made_codes _ _ _ _ _ DR MK) as (-> & -> & -> & -> & ->). destruct DR as (SI & P1 & P2 & _).
      destruct (present_chan _ _ _ P1) as (_ & _ & U1 & V1 & W1). destruct (present_chan _ _ _ P2) as (_ & _ & U2 & V2 & W2). split; [|now apply TOK in SI].
      split; [repeat split; discriminate|]. split; [now apply pair_fine|]. split; now apply pair_fine.
    - intros a T. destruct (G a T) as (t & s & c & d & DR & MK). destruct (made_codes _ _ _ _ _ DR MK) as (-> & -> & -> & _). destruct DR as (_ & P1 & P2 & WN).
      destruct (present_chan _ _ _ P1) as (_ & I1 & U1 & V1 & W1). destruct (present_chan _ _ _ P2) as (_ & I2 & U2 & V2 & W2).
      destruct FINE as (_ & FU & _). destruct (FU _ _ I1 I2) as (LN & LS & _).
      pose proof (stored_canonical (ch_net (chan c)) (ch_sta (chan c)) (ch_cha (chan c)) (ch_net (chan d)) (ch_sta (chan d)) (ch_cha (chan d)) U1 V1 W1 U2 V2 W2 LN LS) as SC.
      unfold stored_names, sort_comb in SC. cbv zeta in SC. rewrite (not_flipped archive FINE _ _ I1 I2) in SC by (unfold chosen, wanted in WN; tauto). exact (proj1 SC).
  Qed.

  (** a correlation that is in the list, seen by the user *)
  Lemma stored_right t s c d tr x y : mk ((t, s), (c, d)) tr -> pre c t x -> pre d t y -> right_correlation o origin dt sr k f32 t s (chan c) (chan d) x y (stored tr).
  Proof.
    intros (_ & _ & R) X Y. destruct (R x y X Y) as (N1 & N2 & N3 & N4 & T1 & T2 & N5 & N6 & N7). cbn [fst snd] in *. unfold right_correlation, stored. cbn [c_net c_sta c_loc c_cha c_start c_end c_lag c_sr c_data].
    unfold file_time. rewrite !CorrDBFacts.tick_mul. repeat split; assumption.
  Qed.
  Lemma own_name sep t s c d tr : dress ((t, s), (c, d)) -> mk ((t, s), (c, d)) tr -> own_file sep tr = file_name sep (chan c) (chan d).
  Proof.
    intros D MK. destruct (made_codes _ _ _ _ _ D MK) as (N1 & N2 & N3 & _). unfold own_file, file_name. rewrite N1, N2, N3. destruct sep; rewrite !append_assoc; reflexivity.
  Qed.

  Notation complete' := (complete o origin dt sr k method rc K n proc archive f32).
  Lemma complete_dir I L sep d : NoDup I -> (forall i, In i I <-> dress i) -> Forall2 mk I L -> holds sep d L -> complete' sep d.
  Proof.
    intros N X F H. assert (D : forall i, In i I -> dress i) by (intros i; apply X).
    destruct (corrs_fine I L D F) as (BO & ST & CA). pose proof (keys_distinct I L N D F) as KD. split.
    - intros t s a b x y (SI & (c & NA & PA & QA) & (e & NB & PB & QB) & WN).
      assert (AC : chan c = a) by (unfold chan, channel_of; now apply nth_error_nth). assert (BE : chan e = b) by (unfold chan, channel_of; now apply nth_error_nth). subst a b.
      assert (J : In ((t, s), (c, e)) I) by (apply X; split; [exact SI|]; split; [now exists x|]; split; [now exists y|exact WN]).
      destruct (Forall2_left _ _ _ _ F J) as (tr & T & MK). pose proof (D _ J) as DR.
      destruct (found sep d L tr H ST KD T (CA tr T)) as (f & DF & GF). exists f, (stored tr).
      destruct (made_codes _ _ _ _ _ DR MK) as (N1 & N2 & N3 & N4 & N5). rewrite (own_name sep _ _ _ _ _ DR MK) in DF. rewrite N1, N2, N3, N4, N5 in GF.
      split; [exact DF|]. split; [exact GF|]. exact (stored_right _ _ _ _ _ _ _ MK PA PB).
    - intros name f DF. destruct (nothing_else sep d L name f H ST DF KD) as ((tr0 & T0 & O0) & NE). split.
      + destruct (Forall2_right _ _ _ _ F T0) as ([[t s] [c e]] & J & MK). pose proof (D _ J) as DR. pose proof DR as (SI & (x & PA) & (y & PB) & WN). exists t, s, (chan c), (chan e), x, y.
        split; [|rewrite <- O0; exact (own_name sep _ _ _ _ _ DR MK)]. split; [exact SI|]. split; [now exists c|]. split; [now exists e|exact WN].
      + intros net sta cha tag st et r NO CN TS TE G. destruct (NE net sta cha tag st et r NO CN TS TE G) as (tr & T & ON & -> & -> & E1 & E2 & E3 & E4 & E5).
        destruct (Forall2_right _ _ _ _ F T) as ([[t s] [c e]] & J & MK). pose proof (D _ J) as DR. pose proof DR as (SI & (x & PA) & (y & PB) & WN). exists (stored tr), t, s, (chan c), (chan e), x, y.
        destruct (made_codes _ _ _ _ _ DR MK) as (N1 & N2 & N3 & N4 & N5).
        split; [reflexivity|]. split; [split; [exact SI|]; split; [now exists c|]; split; [now exists e|exact WN]|].
        split; [rewrite <- ON; exact (own_name sep _ _ _ _ _ DR MK)|]. split; [reflexivity|]. split; [congruence|]. split; [congruence|]. split; [congruence|]. split; [congruence|]. split; [congruence|].
        exact (stored_right _ _ _ _ _ _ _ MK (proj1 (proj2 PA)) (proj1 (proj2 PB))).
  Qed.

  (** *** what exists already *)
  Variable stations : list (string * string).
  Hypothesis (STS : stations_of archive stations).
  Let ln := String.length (ch_net (chan 0)).
  Let ls := String.length (ch_sta (chan 0)).
  Lemma lengths a : In a archive -> String.length (ch_net a) = ln /\ String.length (ch_sta a) = ls.
  Proof.
    intros I. destruct FINE as (_ & FU & _). assert (Z0 : In (chan 0) archive) by (unfold chan, channel_of; destruct archive; [contradiction|now left]). destruct (FU a (chan 0) I Z0) as (X & Y & _). now split.
  Qed.
  Lemma stations_fine : Forall (fun p => (seed (fst p) /\ seed (snd p)) /\ String.length (fst p) = ln /\ String.length (snd p) = ls) stations.
  Proof.
    apply Forall_forall. intros p I. apply STS in I. destruct I as (a & A & ->). cbn [fst snd]. destruct FINE as (F & _). destruct (F a A) as (X & Y & _). destruct (lengths a A). repeat split; try assumption; try apply X; try apply Y.
  Qed.
  Definition hist (sep : bool) (d : dir) (L : list ctrace) : DirSpec.hist_dir := map (fun nf => (fst nf, adds (of_file sep (fst nf) L))) d.
  Lemma dget_in (d : dir) name f : NoDup (map fst d) -> In (name, f) d -> dget d name = Some f.
  Proof.
    induction d as [|[k' v] d IH]; intros N I; [contradiction|]. inversion N as [|? ? NI N']; subst. cbn [dget]. destruct I as [I|I].
    - injection I as -> ->. now rewrite String.eqb_refl.
    - destruct (String.eqb_spec name k') as [->|]; [|now apply IH]. exfalso. apply NI. now apply (in_map fst) in I.
  Qed.
  Lemma dget_some (d : dir) name f : dget d name = Some f -> In (name, f) d.
  Proof. induction d as [|[k' v] d IH]; [discriminate|]. cbn [dget]. destruct (String.eqb_spec name k') as [->|]; [intros E; injection E as ->; now left|intros E; right; auto]. Qed.
  Lemma hist_dir sep d L : NoDup (map fst d) -> holds sep d L -> DirSpec.dir_of (hist sep d L) = d.
  Proof.
    intros N H. unfold DirSpec.dir_of, hist. rewrite map_map. cbn [fst snd]. rewrite <- (map_id d) at 2. apply map_ext_in. intros [name f] I. cbn [fst].
    apply (dget_in _ _ _ N) in I. rewrite H in I. destruct (of_file sep name L); [discriminate|]. injection I as <-. reflexivity.
  Qed.
  Lemma part_files sep L name : batch_ok L -> forall a b, In a (of_file sep name L) -> In b (of_file sep name L) -> c_net b = c_net a /\ c_sta b = c_sta a /\ (sep = true -> c_cha b = c_cha a).
  Proof.
    intros BO a b A B. apply filter_In in A. apply filter_In in B. destruct A as [A EA]. destruct B as [B EB]. apply String.eqb_eq in EA. apply String.eqb_eq in EB.
    pose proof (code_eq sep L a b BO A B) as E. rewrite own_file_eq in EA, EB. rewrite <- EA in EB. apply file_of_code_inj in EB. rewrite EB, String.eqb_refl in E. symmetry in E.
    apply Bool.andb_true_iff in E. destruct E as [E E3]. apply Bool.andb_true_iff in E. destruct E as [E1 E2]. apply String.eqb_eq in E1. apply String.eqb_eq in E2. split; [exact E1|]. split; [exact E2|]. intros ->. now apply String.eqb_eq.
  Qed.
  Lemma spec_in l key : NoDup (map (key_of "subdivision") l) -> (spec_all (adds l) key <> None <-> exists tr, In tr l /\ key = key_of "subdivision" tr).
  Proof.
    intros N. rewrite spec_adds by exact N. split.
    - destruct (find _ l) as [tr|] eqn:E; [|congruence]. intros _. apply find_some in E. destruct E as [I E]. exists tr. split; [exact I|]. now destruct (key_eqb_spec key (key_of "subdivision" tr)).
    - intros (tr & I & ->). rewrite find_key by assumption. discriminate.
  Qed.
  (** a directory with the history [h], in which the correlations [L0] are stored as 'subdivision' *)
  Definition stored_list (h : DirSpec.hist_dir) (L0 : list ctrace) : Prop :=
    forall key, k_tag key = "subdivision" -> ((exists name ops, In (name, ops) h /\ spec_all ops key <> None) <-> exists tr, In tr L0 /\ key = key_of "subdivision" tr).
  Lemma plainly a b ca cb : plain_requests rc -> codes3 a = (ch_net ca, ch_sta ca, ch_cha ca) -> codes3 b = (ch_net cb, ch_sta cb, ch_cha cb) -> In ca archive -> In cb archive -> chosen rc method ca cb ->
    RerunFacts.plainly_asked (texts rc) method a b.
  Proof.
    intros PR CA CB IA IB (WN & RQ') MB l TL. unfold texts in TL. destruct rc as [es|] eqn:RC; [|discriminate]. cbn in TL. injection TL as <-. cbv zeta.
    destruct (RQ' MB es eq_refl) as (e & E & A). destruct (PR es e eq_refl E) as (NC & OR). injection CA as A1 A2 A3. injection CB as B1 B2 B3.
    assert (W : before ca cb /\ ~ one_station ca cb) by (unfold wanted in WN; rewrite MB in WN; destruct WN as [W|[W|[W|W]]]; [tauto|destruct W; discriminate..]). destruct W as [BF NS].
    assert (AS : asks e ca cb).
    { destruct A as [A|A]; [exact A|]. exfalso. destruct A as (X1 & X2 & X3 & X4 & _). unfold before in BF. unfold one_station in NS. rewrite X1, X2, X3, X4 in BF, NS. clear -BF NS OR.
      destruct BF as [BF|[BF BG]].
      - rewrite compare_antisym, BF in OR. cbn in OR. destruct OR as [OR|[OR _]]; [discriminate|]. rewrite OR, compare_refl in BF. discriminate.
      - rewrite BF, compare_refl in OR. destruct OR as [OR|[_ OR]]; [discriminate|]. rewrite compare_antisym in OR. destruct BG as [BG|[BG _]]; [rewrite BG in OR; now apply OR|]. apply NS. now rewrite BF, BG. }
    destruct AS as (X1 & X2 & X3 & X4 & _). destruct (proj1 (proj2 FINE) ca cb IA IB) as (L1 & L2 & _).
    rewrite RerunFacts.pair_codes_ordered by (rewrite ?A1, ?A2, ?B1, ?B2; congruence). unfold RerunFacts.ordered. rewrite A1, A2, A3, B1, B2, B3.
    rewrite (not_flipped archive FINE ca cb IA IB) by now left. cbn [fst snd]. rewrite A1, A2, B1, B2, X1, X2, X3, X4. apply in_map_iff. exists e. split; [|exact E]. unfold entry_text. rewrite NC, !append_nil_r. rewrite <- !append_assoc. cbn [append]. now rewrite ?append_assoc.
  Qed.
  (** the header of a channel in a window *)
  Definition hd (s : Z) (c : nat) : Combos.trace := Combos.mkTr (ch_net (chan c)) (ch_sta (chan c)) "" (ch_cha (chan c)) (origin + s * dt) 0.
  Definition marked (ex : ex_dict) (i : (Z * Z) * (nat * nat)) : Prop := compare_existing_data ex (hd (snd (fst i)) (fst (snd i))) (hd (snd (fst i)) (snd (snd i))) = true.
  Lemma compare_ext ex a b a' b' : codes3 a = codes3 a' -> codes3 b = codes3 b' -> Combos.t_start a = Combos.t_start a' -> Combos.t_start b = Combos.t_start b' -> compare_existing_data ex a b = compare_existing_data ex a' b'.
  Proof. destruct a, b, a', b'. unfold codes3. cbn. intros A B SA SB. injection A as -> -> ->. injection B as -> -> ->. subst. unfold compare_existing_data, sort_comb. cbn. destruct (str_le _ _); cbn [fst snd]; match goal with |- context [negb ?x] => destruct x end; reflexivity. Qed.
  Lemma head_is t s win a : right_window o proc (map ch_trace archive) (t, s) (s, win) -> In a (pair_heads origin dt archive win) ->
    let c := fst (nth (Z.to_nat (Combos.t_data a)) win no_trace) in codes3 a = codes3 (hd s c) /\ Combos.t_start a = Combos.t_start (hd s c) /\ present t s c.
  Proof.
    intros RW A. cbv zeta. destruct (head_in origin dt archive win a A) as (c & w & IA & WA & CA). rewrite WA. cbn [fst]. split; [exact CA|]. split; [exact (head_start o origin dt proc archive t s win RW a A)|].
    apply (present_iff t s win c RW). now apply (in_map fst) in IA.
  Qed.
  Lemma marked_finds ex : finds ex (marked ex) (schedule o K n).
  Proof.
    intros t s win SI RW number a b A B WN. destruct (head_is t s win a RW A) as (CA & SA & _). destruct (head_is t s win b RW B) as (CB & SB & _). unfold marked. cbn [fst snd]. unfold number.
    rewrite <- (compare_ext ex a b _ _ CA CB SA SB). destruct (compare_existing_data ex a b); split; congruence.
  Qed.
  Lemma exact_finds ex I0 : (forall i, dress i -> (marked ex i <-> In i I0)) -> finds ex (fun i => In i I0) (schedule o K n).
  Proof.
    intros H t s win SI RW number a b A B WN. destruct (head_is t s win a RW A) as (_ & _ & PA). destruct (head_is t s win b RW B) as (_ & _ & PB).
    pose proof (marked_finds ex t s win SI RW a b A B WN) as F. fold number in PA, PB. cbv zeta in F. fold number in F. rewrite F, H; [reflexivity|]. split; [exact SI|]. split; [exact PA|]. split; [exact PB|exact WN].
  Qed.
  Lemma search_gen I0 L0 sep h : (forall i, In i I0 -> dress i) -> Forall2 mk I0 L0 -> DirSpec.hist_ok sep ln ls h -> (forall name ops, In (name, ops) h -> exists key, k_tag key = "subdivision" /\ spec_all ops key <> None) -> stored_list h L0 ->
    exists ex, find_existing_times (DirSpec.dir_of h) stations method (texts rc) "subdivision" "*" = Ok ex /\ forall i, dress i -> (marked ex i -> In i I0) /\ (plain_requests rc -> In i I0 -> marked ex i).
  Proof.
    intros D F HO HH SL.
    destruct (RestartFacts.search_succeeds_rc sep ln ls h stations method (texts rc) "subdivision" HO) as (ex & EX).
    { repeat split; discriminate. }
    { unfold known_method. unfold one_each in M. cbn in *. tauto. }
    { exact stations_fine. }
    { exact HH. }
    exists ex. split; [exact EX|].
    intros [[t s] [c e]] DR. pose proof DR as (SI & PC & PE & WN). unfold marked. cbn [fst snd]. set (a := hd s c). set (b := hd s e).
    destruct (present_chan _ _ _ PC) as (LC & IC & U1 & V1 & W1). destruct (present_chan _ _ _ PE) as (LE & IE & U2 & V2 & W2).
    assert (A1 : Combos.t_net a = ch_net (chan c)) by reflexivity. assert (A2 : Combos.t_sta a = ch_sta (chan c)) by reflexivity. assert (A3 : Combos.t_cha a = ch_cha (chan c)) by reflexivity.
    assert (B1 : Combos.t_net b = ch_net (chan e)) by reflexivity. assert (B2 : Combos.t_sta b = ch_sta (chan e)) by reflexivity. assert (B3 : Combos.t_cha b = ch_cha (chan e)) by reflexivity.
    assert (TA : Combos.t_start a = (origin + s * dt)%Z) by reflexivity. assert (TB : Combos.t_start b = (origin + s * dt)%Z) by reflexivity. clearbody a b.
    assert (CS : (compare_existing_data ex a b = true -> DirSpec.corr_stored h "subdivision" a b) /\
                 (DirSpec.method_pair method a b -> RerunFacts.plainly_asked (texts rc) method a b -> DirSpec.corr_stored h "subdivision" a b -> compare_existing_data ex a b = true)).
    { apply (RerunFacts.existing_gen sep ln ls h stations method (texts rc) "subdivision" ex a b HO); try assumption.
      - repeat split; discriminate.
      - exact stations_fine.
      - unfold seed_trace. rewrite A1, A2, A3. repeat split; (apply U1 || apply V1 || apply W1).
      - unfold seed_trace. rewrite B1, B2, B3. repeat split; (apply U2 || apply V2 || apply W2).
      - unfold RerunFacts.codes_of. rewrite A1, A2. apply STS. now exists (chan c).
      - unfold RerunFacts.codes_of. rewrite B1, B2. apply STS. now exists (chan e).
      - rewrite TA. now apply TOK in SI.
      - rewrite TB. now apply TOK in SI. }
    assert (MP : DirSpec.method_pair method a b).
    { unfold DirSpec.method_pair. rewrite A1, A2, B1, B2. unfold chosen, wanted, one_station in WN. destruct WN as [[W|[W|[W|W]]] _].
      + left. tauto.
      + right. left. tauto.
      + right. right. left. destruct W as [-> W]. rewrite W. tauto.
      + right. right. right. left. tauto. }
    assert (EQ : DirSpec.corr_stored h "subdivision" a b <-> In ((t, s), (c, e)) I0).
    { unfold DirSpec.corr_stored, DirSpec.names_of, sort_comb. cbv zeta. rewrite A1, A2, A3, B1, B2, B3, TA, TB, Z.max_id. rewrite (not_flipped archive FINE _ _ IC IE) by (unfold chosen, wanted in WN; tauto). cbn [fst snd]. split.
      - intros (name & ops & e0 & HI & Q).
        match type of Q with spec_all _ ?key <> None => destruct (proj1 (SL key eq_refl)) as (tr & T & Q0); [exists name, ops; split; [exact HI|exact Q]|] end. clear Q. rename Q0 into Q. unfold key_of in Q. injection Q as Q1 Q2 Q3 Q4 _.
        destruct (Forall2_right _ _ _ _ F T) as ([[t' s'] [c' e']] & J & MK). pose proof (made_codes _ _ _ _ _ (D _ J) MK) as (N1 & N2 & N3 & N4 & N5). destruct (D _ J) as (SJ & P3 & P4 & _).
        destruct (present_chan _ _ _ P3) as (L3 & _ & U3 & V3 & W3). destruct (present_chan _ _ _ P4) as (L4 & _ & U4 & V4 & W4).
        rewrite N1 in Q1. rewrite N2 in Q2. rewrite N3 in Q3. rewrite N4 in Q4. apply dash_inj in Q1; try (apply seed_dash; assumption). apply dash_inj in Q2; try (apply seed_dash; assumption). apply dash_inj in Q3; try (apply seed_dash; assumption).
        destruct Q1 as [E1 F1]. destruct Q2 as [E2 F2]. destruct Q3 as [E3 F3].
        assert (s = s') by (eapply tick_unique; eassumption). subst s'. assert (t = t') by (eapply schedule_unique; eassumption). subst t'.
        assert (c = c') by (apply (codes_inj archive FINE); [assumption..|]; unfold chan in *; now rewrite E1, E2, E3). assert (e = e') by (apply (codes_inj archive FINE); [assumption..|]; unfold chan in *; now rewrite F1, F2, F3). now subst.
      - intros J. destruct (Forall2_left _ _ _ _ F J) as (tr & T & MK). destruct (made_codes _ _ _ _ _ DR MK) as (N1 & N2 & N3 & N4 & N5).
        destruct (proj2 (SL (key_of "subdivision" tr) eq_refl)) as (name & ops & HI & Q); [now exists tr|]. exists name, ops, (tick (c_end tr)). split; [exact HI|]. unfold key_of in Q. now rewrite N1, N2, N3, N4 in Q. }
    split.
    - intros X. apply EQ, CS, X.
    - intros PR X. apply CS; [exact MP| |now apply EQ]. apply (plainly a b (chan c) (chan e)); unfold codes3; try congruence. exact PR.
  Qed.
  Lemma search_history I0 L0 sep h : plain_requests rc -> (forall i, In i I0 -> dress i) -> Forall2 mk I0 L0 -> DirSpec.hist_ok sep ln ls h -> (forall name ops, In (name, ops) h -> exists key, k_tag key = "subdivision" /\ spec_all ops key <> None) -> stored_list h L0 ->
    exists ex, find_existing_times (DirSpec.dir_of h) stations method (texts rc) "subdivision" "*" = Ok ex /\ finds ex (fun i => In i I0) (schedule o K n).
  Proof.
    intros PR D F HO HH SL. destruct (search_gen I0 L0 sep h D F HO HH SL) as (ex & EX & MA). exists ex. split; [exact EX|]. apply exact_finds. intros i DI. destruct (MA i DI) as (A & B). split; auto.
  Qed.

  Lemma search_any I0 L0 sep d0 : NoDup I0 -> (forall i, In i I0 -> dress i) -> Forall2 mk I0 L0 -> NoDup (map fst d0) -> holds sep d0 L0 ->
    exists ex, find_existing_times d0 stations method (texts rc) "subdivision" "*" = Ok ex /\ forall i, dress i -> (marked ex i -> In i I0) /\ (plain_requests rc -> In i I0 -> marked ex i).
  Proof.
    intros N D F ND H.
    destruct (corrs_fine I0 L0 D F) as (BO & ST & CA). pose proof (keys_distinct I0 L0 N D F) as KD.
    assert (NE : forall nf, In nf d0 -> exists tr, In tr (of_file sep (fst nf) L0)).
    { intros [name f] I. apply (dget_in _ _ _ ND) in I. rewrite H in I. cbn [fst]. destruct (of_file sep name L0) as [|tr r]; [discriminate|]. exists tr. now left. }
    assert (KF : forall name, NoDup (map (key_of "subdivision") (of_file sep name L0))) by (intros name; apply NoDup_map_filter, KD).
    assert (IN : forall name tr, In tr (of_file sep name L0) -> In tr L0 /\ own_file sep tr = name) by (intros name tr I; apply filter_In in I; destruct I as [I E]; split; [exact I|now apply String.eqb_eq]).
    assert (HO : DirSpec.hist_ok sep ln ls (hist sep d0 L0)).
    { split; [unfold hist; rewrite map_map; exact ND|]. apply Forall_forall. intros nf I. apply in_map_iff in I. destruct I as (nf0 & <- & I). split; [cbn [snd]; now apply valid_adds, storable_sub|].
      split; [cbn [snd]; unfold adds; clear; induction (of_file sep (fst nf0) L0); [reflexivity|assumption]|].
      destruct (NE nf0 I) as (tr & T). destruct (IN _ _ T) as (T0 & O0). exists (c_net tr), (c_sta tr), (c_cha tr). cbn [fst snd]. split; [now rewrite <- O0|].
      destruct (Forall2_right _ _ _ _ F T0) as ([[t s] [c d]] & J & MK). destruct (made_codes _ _ _ _ _ (D _ J) MK) as (N1 & N2 & N3 & _). destruct (D _ J) as (_ & P1 & P2 & _).
      destruct (present_chan _ _ _ P1) as (_ & A1 & _). destruct (present_chan _ _ _ P2) as (_ & A2 & _). destruct (lengths _ A1) as [X1 X2]. destruct (lengths _ A2) as [Y1 Y2].
      rewrite N1, N2. rewrite !length_append, X1, X2, Y1, Y2. split; [cbn [String.length]; lia|]. split; [cbn [String.length]; lia|].
      intros key Q. apply (spec_in _ _ (KF _)) in Q. destruct Q as (tr' & T' & ->). unfold key_of. cbn [k_net k_sta k_cha]. rewrite <- N1, <- N2. exact (part_files sep L0 (fst nf0) BO tr tr' T T'). }
    assert (DH : DirSpec.dir_of (hist sep d0 L0) = d0) by now apply hist_dir. rewrite <- DH. apply (search_gen I0 L0 sep); [exact D|exact F|exact HO| |].
    - intros name ops I. apply in_map_iff in I. destruct I as (nf & E & I). injection E as <- <-. destruct (NE nf I) as (tr & T). exists (key_of "subdivision" tr). split; [reflexivity|]. apply (spec_in _ _ (KF _)). now exists tr.
    - intros key _. split.
      + intros (name & ops & HI & Q). apply in_map_iff in HI. destruct HI as (nf & E & HI). injection E as <- <-. apply (spec_in _ _ (KF _)) in Q. destruct Q as (tr & T & Q). exists tr. split; [apply (IN _ _ T)|exact Q].
      + intros (tr & T & ->). assert (T1 : In tr (of_file sep (own_file sep tr) L0)) by (apply filter_In; split; [exact T|apply String.eqb_refl]).
        exists (own_file sep tr), (adds (of_file sep (own_file sep tr) L0)). split; [|apply (spec_in _ _ (KF _)); now exists tr].
        destruct (of_file sep (own_file sep tr) L0) as [|t0 r0] eqn:OF; [contradiction|]. pose proof (H (own_file sep tr)) as HD. rewrite OF in HD. apply dget_some in HD.
        unfold hist. apply in_map_iff. eexists. split; [|exact HD]. cbn [fst]. now rewrite OF.
  Qed.
  Lemma search I0 L0 sep d0 : plain_requests rc -> NoDup I0 -> (forall i, In i I0 -> dress i) -> Forall2 mk I0 L0 -> NoDup (map fst d0) -> holds sep d0 L0 ->
    exists ex, find_existing_times d0 stations method (texts rc) "subdivision" "*" = Ok ex /\ finds ex (fun i => In i I0) (schedule o K n).
  Proof.
    intros PR N D F ND H. destruct (search_any I0 L0 sep d0 N D F ND H) as (ex & EX & MA). exists ex. split; [exact EX|]. apply exact_finds. intros i DI. destruct (MA i DI) as (A & B). split; auto.
  Qed.

  (** *** runs from a directory with some of the correlations *)
  Notation of_run' := (of_run o origin dt sr k method rc K n proc archive f32).
  Notation part' := (part_of_run o origin dt sr k method rc K n proc archive f32).
  Lemma run_item tr : of_run' tr -> exists i, dress i /\ mk i tr.
  Proof.
    intros (t & s & a & b & x & y & (SI & (c & NA & PA & QA) & (e & NB & PB & QB) & WN) & ST & EN & R).
    assert (AC : chan c = a) by (unfold chan, channel_of; now apply nth_error_nth). assert (BE : chan e = b) by (unfold chan, channel_of; now apply nth_error_nth). subst a b.
    exists ((t, s), (c, e)). split; [split; [exact SI|]; split; [now exists x|]; split; [now exists y|exact WN]|]. split; [exact ST|]. split; [exact EN|]. cbn [fst snd]. intros x' y' X Y.
    rewrite (preprocessed_unique _ _ _ _ _ _ _ X PA), (preprocessed_unique _ _ _ _ _ _ _ Y PB). exact R.
  Qed.
  Lemma item_run i tr : dress i -> mk i tr -> of_run' tr.
  Proof.
    destruct i as [[t s] [c e]]. intros (SI & (x & PA) & (y & PB) & WN) (ST & EN & R). cbn [fst snd] in *. exists t, s, (chan c), (chan e), x, y.
    split; [split; [exact SI|]; split; [now exists c|]; split; [now exists e|exact WN]|]. split; [exact ST|]. split; [exact EN|]. apply R; [apply PA|apply PB].
  Qed.
  Lemma items_of L : Forall of_run' L -> NoDup (map (key_of "subdivision") L) -> exists I, NoDup I /\ (forall i, In i I -> dress i) /\ Forall2 mk I L.
  Proof.
    intros F N. assert (X : exists I, (forall i, In i I -> dress i) /\ Forall2 mk I L).
    { clear N. induction F as [|tr L T F (I & D & X)]; [exists []; split; [intros i []|constructor]|]. destruct (run_item tr T) as (i & DI & MI). exists (i :: I). split; [|now constructor]. intros j [<-|J]; auto. }
    destruct X as (I & D & X). exists I. split; [|now split]. clear F. induction X as [|i tr I L MI X IH]; [constructor|]. inversion N as [|? ? NI N']; subst. constructor; [|apply IH; [exact N'|intros j J; apply D; now right]].
    intros J. destruct (Forall2_left _ _ _ _ X J) as (tr' & T & MI'). apply NI. replace (key_of "subdivision" tr) with (key_of "subdivision" tr'); [now apply in_map|].
    destruct i as [[t s] [c e]]. assert (DI : dress ((t, s), (c, e))) by (apply D; now left).
    destruct (made_codes _ _ _ _ _ DI MI) as (-> & -> & -> & -> & ->) || idtac. unfold key_of.
    destruct (made_codes _ _ _ _ _ DI MI) as (X1 & X2 & X3 & X4 & X5). destruct (made_codes _ _ _ _ _ DI MI') as (Y1 & Y2 & Y3 & Y4 & Y5). now rewrite X1, X2, X3, X4, X5, Y1, Y2, Y3, Y4, Y5.
  Qed.
  Lemma used ex d0 : subdiv = false \/ d0 = [] -> find_existing_times d0 stations method (texts rc) "subdivision" "*" = Ok ex -> subdiv_used subdiv ex = false.
  Proof.
    intros [-> | ->] E; [now destruct ex|]. unfold find_existing_times in E. destruct (station_combinations stations method (texts rc)) as [c|]; [|discriminate]. cbn [bind] in E.
    assert (X : existing_loop [] c "subdivision" "*" [] = Ok []) by (clear; induction c as [|[a b] c IH]; [reflexivity|exact IH]). rewrite X in E. now injection E as <-.
  Qed.
  Lemma items_any L : (forall tr, In tr L -> exists i, dress i /\ mk i tr) -> exists I, (forall i, In i I -> dress i) /\ Forall2 mk I L.
  Proof.
    induction L as [|tr L IH]; intros H; [exists []; split; [intros i []|constructor]|]. destruct IH as (I & D & F); [intros x X; apply H; now right|]. destruct (H tr (or_introl eq_refl)) as (i & DI & MI).
    exists (i :: I). split; [|now constructor]. intros j [<-|J]; auto.
  Qed.
  Lemma runs_from d0 sep : subdiv = false \/ d0 = [] -> part' sep d0 -> exists I0 L0 I1 L1 ex, find_existing_times d0 stations method (texts rc) "subdivision" "*" = Ok ex /\
    NoDup (map fst d0) /\ holds sep d0 L0 /\ (forall i, In i (I0 ++ I1) <-> dress i) /\ Forall2 mk (I0 ++ I1) (L0 ++ L1) /\ (plain_requests rc \/ d0 = [] -> NoDup (I0 ++ I1)) /\
    forall p flag, 0 < p -> exists bs, run ex p flag = Some (Ok bs) /\ concat bs = L1.
  Proof.
    intros SU (ND & L0 & FR & KD & H). destruct (items_of L0 FR KD) as (I0 & N0 & D0 & F0). destruct (search_any I0 L0 sep d0 N0 D0 F0 ND H) as (ex & EX & MA).
    destruct (run_corrs ex (marked ex) (used ex d0 SU EX) (marked_finds ex)) as (I1 & L1 & RB & N1 & X1 & F1). exists I0, L0, I1, L1, ex. split; [exact EX|]. split; [exact ND|]. split; [exact H|]. split; [|split; [now apply Forall2_app|split; [|exact RB]]].
    - intros [[t s] [c e]]. rewrite in_app_iff. split.
      + intros [A|A]; [now apply D0|]. apply X1 in A. unfold dress. tauto.
      + intros D. destruct (in_dec item_dec ((t, s), (c, e)) I0) as [A|A]; [now left|right]. apply X1. destruct (MA _ D) as (MB & _). unfold dress in D. tauto.
    - intros [PR|Z0].
      2: { assert (L0 = []) by (destruct L0 as [|tr L0]; [reflexivity|]; specialize (H (own_file sep tr)); rewrite Z0 in H; cbn in H; rewrite String.eqb_refl in H; discriminate). subst L0. inversion F0; subst I0. exact N1. }
      apply NoDup_app_intro; [exact N0|exact N1|]. intros [[t s] [c e]] A B. apply X1 in B. destruct (MA _ (D0 _ A)) as (_ & MB). specialize (MB PR A). tauto.
  Qed.
  Lemma runs_from_plain d0 sep : subdiv = false \/ d0 = [] -> plain_requests rc \/ d0 = [] -> part' sep d0 -> exists I0 L0 I1 L1 ex, find_existing_times d0 stations method (texts rc) "subdivision" "*" = Ok ex /\
    NoDup (map fst d0) /\ holds sep d0 L0 /\ NoDup (I0 ++ I1) /\ (forall i, In i (I0 ++ I1) <-> dress i) /\ Forall2 mk (I0 ++ I1) (L0 ++ L1) /\
    forall p flag, 0 < p -> exists bs, run ex p flag = Some (Ok bs) /\ concat bs = L1.
  Proof.
    intros SU PR PT. destruct (runs_from d0 sep SU PT) as (I0 & L0 & I1 & L1 & ex & EX & ND & H & X & F & N & RB). exists I0, L0, I1, L1, ex. auto 10.
  Qed.
  Lemma part_intro sep d L : NoDup (map fst d) -> (forall tr, In tr L -> exists i, dress i /\ mk i tr) -> holds sep d L -> part' sep d.
  Proof.
    intros ND D H. destruct (items_any L D) as (I & DI & F). destruct (corrs_fine I L DI F) as (_ & ST & _). split; [exact ND|]. exists (firsts [] L). split; [|split; [apply firsts_keys|now apply firsts_holds]].
    apply Forall_forall. intros tr T. apply firsts_in in T. destruct (D tr T) as (i & DR & MI). exact (item_run i tr DR MI).
  Qed.
  (** correlations that were computed more than once *)
  Lemma same_item i tr tr' : dress i -> mk i tr -> mk i tr' -> key_of "subdivision" tr = key_of "subdivision" tr'.
  Proof.
    destruct i as [[t s] [c e]]. intros D A B. destruct (made_codes _ _ _ _ _ D A) as (A1 & A2 & A3 & A4 & A5). destruct (made_codes _ _ _ _ _ D B) as (B1 & B2 & B3 & B4 & B5). unfold key_of. now rewrite A1, A2, A3, A4, A5, B1, B2, B3, B4, B5.
  Qed.
  Lemma once sep d I L : (forall i, In i I <-> dress i) -> Forall2 mk I L -> holds sep d L ->
    exists I', NoDup I' /\ (forall i, In i I' <-> dress i) /\ Forall2 mk I' (firsts [] L) /\ holds sep d (firsts [] L).
  Proof.
    intros X F H. assert (D : forall i, In i I -> dress i) by (intros i; apply X). destruct (corrs_fine I L D F) as (_ & ST & _).
    destruct (items_of (firsts [] L)) as (I' & N' & D' & F'); [|apply firsts_keys|].
    { apply Forall_forall. intros tr T. apply firsts_in in T. destruct (Forall2_right _ _ _ _ F T) as (i & J & MI). exact (item_run i tr (D i J) MI). }
    exists I'. split; [exact N'|]. split; [|split; [exact F'|now apply firsts_holds]]. intros i. split; [apply D'|]. intros DI. pose proof DI as J. apply X in J. destruct (Forall2_left _ _ _ _ F J) as (tr & T & MI).
    destruct (firsts_all L [] tr T) as [[]|(tr' & T' & E)]. destruct (Forall2_right _ _ _ _ F' T') as (i' & J' & MI'). replace i with i'; [exact J'|].
    unfold key_of in E. injection E as E1 E2 E3 E4 _. exact (item_unique i' i tr' tr (D' _ J') DI MI' MI E1 E2 E3 E4).
  Qed.

  Theorem run_from_part d0 sep : subdiv = false \/ d0 = [] -> part' sep d0 -> exists files : string -> option file, forall p flag, 0 < p ->
    exists d, run_files o origin dt sr len false center method (texts rc) proc archive f32 sadd szero cadd czero subdiv stations d0 p sep flag = Some (Ok d) /\
      (forall name, dget d name = files name) /\ complete' sep d /\ part' sep d.
  Proof.
    intros SU PT. destruct (runs_from d0 sep SU PT) as (I0 & L0 & I1 & L1 & ex & EX & ND & H & X & F & _ & RB).
    assert (D : forall i, In i (I0 ++ I1) -> dress i) by (intros i; apply X). destruct (corrs_fine _ _ D F) as (BO & _).
    exists (fun name => match of_file sep name (L0 ++ L1) with [] => None | trs => Some (exec_all (adds trs)) end).
    intros p flag P. destruct (RB p flag P) as (bs & RE & CE). rewrite <- CE in BO. destruct (batches_hold p sep P bs d0 L0 BO H) as (d & WE & HD). rewrite CE in HD.
    exists d. split; [unfold run_files, with_existing; rewrite EX; unfold run in RE; rewrite RE; cbn [option_map bind]; now rewrite WE|]. split; [exact HD|]. split.
    - destruct (once sep d _ _ X F HD) as (I' & N' & X' & F' & H'). exact (complete_dir _ _ sep d N' X' F' H').
    - apply (part_intro sep d (L0 ++ L1)); [exact (batches_names _ _ _ _ _ WE ND)| |exact HD].
      intros tr T. destruct (Forall2_right _ _ _ _ F T) as (i & I & MI). exists i. split; [now apply X|exact MI].
  Qed.
  Theorem run_from_part_again d0 sep : subdiv = false -> part' sep d0 -> exists files : string -> option file, forall p flag, 0 < p ->
    exists d, run_files o origin dt sr len false center method (texts rc) proc archive f32 sadd szero cadd czero subdiv stations d0 p sep flag = Some (Ok d) /\
      (forall name, dget d name = files name) /\ complete' sep d /\
      forall p' flag', 0 < p' -> exists e, run_files o origin dt sr len false center method (texts rc) proc archive f32 sadd szero cadd czero subdiv stations d p' sep flag' = Some (Ok e) /\
        (forall name, dget e name = files name) /\
        (plain_requests rc -> e = d /\ exists bs, with_existing method (texts rc) stations d (fun ex => run_batches o origin dt sr len false center method (texts rc) proc archive f32 sadd szero cadd czero subdiv ex p' flag') = Some (Ok bs) /\ concat bs = []).
  Proof.
    intros SU PT. destruct (runs_from d0 sep (or_introl SU) PT) as (I0 & L0 & I1 & L1 & ex & EX & ND & H & X & F & _ & RB).
    assert (D : forall i, In i (I0 ++ I1) -> dress i) by (intros i; apply X). destruct (corrs_fine _ _ D F) as (BO & _).
    exists (fun name => match of_file sep name (L0 ++ L1) with [] => None | trs => Some (exec_all (adds trs)) end).
    intros p flag P. destruct (RB p flag P) as (bs & RE & CE). rewrite <- CE in BO. destruct (batches_hold p sep P bs d0 L0 BO H) as (d & WE & HD). rewrite CE in HD.
    exists d. split; [unfold run_files, with_existing; rewrite EX; unfold run in RE; rewrite RE; cbn [option_map bind]; now rewrite WE|]. split; [exact HD|].
    destruct (once sep d _ _ X F HD) as (I' & N' & X' & F' & H'). split; [exact (complete_dir _ _ sep d N' X' F' H')|].
    intros p' flag' P'. assert (D' : forall i, In i I' -> dress i) by (intros i; apply X').
    destruct (search_any _ _ sep d N' D' F' (batches_names _ _ _ _ _ WE ND) H') as (ex2 & EX2 & MA). destruct (run_corrs ex2 (marked ex2) (used ex2 d (or_introl SU) EX2) (marked_finds ex2)) as (I2 & L2 & RB2 & _ & X2 & F2).
    destruct (RB2 p' flag' P') as (bs2 & RE2 & CE2). assert (D2 : forall i, In i I2 -> dress i) by (intros [[t s] [c e]] J; apply X2 in J; unfold dress; tauto).
    assert (DD : forall i, In i (I' ++ I2) -> dress i) by (intros i; rewrite in_app_iff; intros [J|J]; auto). pose proof (Forall2_app F' F2) as FF. destruct (corrs_fine _ _ DD FF) as (BO2 & ST2 & _). rewrite <- CE2 in BO2.
    destruct (batches_hold p' sep P' bs2 d (firsts [] (L0 ++ L1)) BO2 H') as (e & WE2 & HE). rewrite CE2 in HE. exists e.
    split; [unfold run_files, with_existing; rewrite EX2; unfold run in RE2; rewrite RE2; cbn [option_map bind]; now rewrite WE2|]. split.
    - apply (firsts_holds _ _ _ ST2) in HE. rewrite firsts_again in HE; [|apply firsts_keys|intros tr _ []|].
      + intros name. rewrite HE, <- HD. symmetry. apply H'.
      + intros tr T. destruct (Forall2_right _ _ _ _ F2 T) as (i & J & MI). pose proof (D2 i J) as DI. pose proof DI as J'. apply X' in J'. destruct (Forall2_left _ _ _ _ F' J') as (tr' & T' & MI'). apply in_map_iff. exists tr'. split; [|exact T']. exact (same_item i tr' tr DI MI' MI).
    - intros PR. destruct I2 as [|[[t s] [c g]] I2].
      + assert (concat bs2 = []) as CN by (rewrite CE2; now inversion F2). rewrite (nothing_to_write p' sep d bs2 P' CN) in WE2. split; [congruence|]. exists bs2. split; [|exact CN]. unfold with_existing. rewrite EX2. exact RE2.
      + exfalso. assert (In ((t, s), (c, g)) (((t, s), (c, g)) :: I2)) as Y by (now left). pose proof (D2 _ Y) as DY. apply X2 in Y. destruct (MA _ DY) as (_ & MB). specialize (MB PR (proj2 (X' _) DY)). tauto.
  Qed.
  Theorem stopped_part d0 sep p flag m cut : subdiv = false \/ d0 = [] -> part' sep d0 -> 0 < p -> (forall r, snd (cut r) <> Some 0) ->
    exists d, stopped_run o origin dt sr len false center method (texts rc) proc archive f32 sadd szero cadd czero subdiv stations d0 p sep flag m cut = Some (Ok d) /\ part' sep d.
  Proof.
    intros SU PT P NZ. destruct (runs_from d0 sep SU PT) as (I0 & L0 & I1 & L1 & ex & EX & ND & H & X & F & _ & RB).
    assert (D : forall i, In i (I0 ++ I1) -> dress i) by (intros i; apply X). destruct (corrs_fine _ _ D F) as (BO & _).
    destruct (RB p flag P) as (bs & RE & CE). unfold stopped_run, with_existing. rewrite EX. unfold run in RE. rewrite RE. cbn [option_map bind]. unfold stopped_batches.
    assert (SP : bs = firstn m bs ++ skipn m bs) by (symmetry; apply firstn_skipn).
    assert (BS : L0 ++ L1 = (L0 ++ concat (firstn m bs)) ++ concat (skipn m bs)) by (rewrite <- CE, SP at 1; now rewrite concat_app, app_assoc).
    assert (IT : forall tr, In tr (L0 ++ L1) -> exists i, dress i /\ mk i tr) by (intros tr T; destruct (Forall2_right _ _ _ _ F T) as (i & I & MI); exists i; split; [now apply X|exact MI]).
    rewrite BS in BO, IT.
    assert (B1 : batch_ok (L0 ++ concat (firstn m bs))) by (apply (batch_sub [] _ (concat (skipn m bs))); exact BO).
    destruct (batches_hold p sep P (firstn m bs) d0 L0 B1 H) as (d1 & WE & H1). rewrite WE. cbn [bind]. pose proof (batches_names _ _ _ _ _ WE ND) as ND1.
    assert (PN : forall q, (forall x, In x q -> In x (concat (skipn m bs))) -> forall d, NoDup (map fst d) -> holds sep d ((L0 ++ concat (firstn m bs)) ++ q) -> part' sep d).
    { intros q QI d DN DH. apply (part_intro sep d ((L0 ++ concat (firstn m bs)) ++ q)); [exact DN| |exact DH].
      intros tr. rewrite in_app_iff. intros I. apply IT. apply in_app_iff. destruct I as [I|I]; [now left|right; auto]. }
    destruct (nth_error bs m) as [b|] eqn:E.
    - assert (SK : exists r, skipn m bs = b :: r).
      { apply nth_error_split in E. destruct E as (l1 & l2 & -> & <-). exists l2. now rewrite skipn_app, skipn_all, Nat.sub_diag. }
      destruct SK as (r & SK). assert (BB : batch_ok b) by (rewrite SK in BO; cbn [concat] in BO; exact (batch_sub _ _ _ BO)).
      destruct (stopped_step p sep d1 _ b cut P BB H1 NZ) as (d & q & SE & HD & NDd & QI & QN). exists d. split; [now rewrite SE|].
      apply (PN q); [intros x I; rewrite SK; cbn [concat]; apply in_app_iff; left; now apply QI|now apply NDd|exact HD].
    - exists d1. split; [reflexivity|]. apply (PN []); [intros x []|exact ND1|]. now rewrite app_nil_r.
  Qed.

  (** *** what the monitoring finds *)
  Notation found_all := (MonitorInputSpec.all_found o origin dt sr k method rc K n proc archive f32).
  Lemma seed_dashed a b : seed a -> seed b -> MonitorInputFacts.dashed (a ++ "-" ++ b)%string.
  Proof. intros ((A1 & _) & A2 & _) (_ & B2 & _). exists a, b. split; [reflexivity|]. split; [exact A1|]. rewrite !has_char_app, A2, B2. reflexivity. Qed.
  Lemma nodup_map_on {A B} (f : A -> B) l : (forall x y, In x l -> In y l -> f x = f y -> x = y) -> NoDup l -> NoDup (map f l).
  Proof.
    intros I. induction 1 as [|x l X N IH]; [constructor|]. cbn. constructor; [|apply IH; intros; apply I; cbn; tauto].
    intros M0. apply in_map_iff in M0. destruct M0 as (y & E & Y). rewrite (I y x) in Y; [contradiction|now right|now left|exact E].
  Qed.
  Lemma out_split a b c d e f : seed a -> seed b -> seed c -> seed d -> seed e -> seed f ->
    split_on "." ("DV-" ++ (a ++ "-" ++ b) ++ "." ++ (c ++ "-" ++ d) ++ "." ++ (e ++ "-" ++ f) ++ ".npz")%string = [("DV-" ++ (a ++ "-" ++ b))%string; (c ++ "-" ++ d)%string; (e ++ "-" ++ f)%string; "npz"%string].
  Proof.
    intros (_ & A & _) (_ & B & _) (_ & C & _) (_ & D & _) (_ & E & _) (_ & F & _).
    assert (P : has_char "." ("DV-" ++ (a ++ "-" ++ b))%string = false) by (rewrite !has_char_app, A, B; reflexivity).
    assert (Q : has_char "." (c ++ "-" ++ d)%string = false) by (rewrite !has_char_app, C, D; reflexivity).
    assert (T : has_char "." (e ++ "-" ++ f)%string = false) by (rewrite !has_char_app, E, F; reflexivity).
    rewrite <- (append_assoc "DV-"). revert P Q T. generalize ("DV-" ++ (a ++ "-" ++ b))%string (c ++ "-" ++ d)%string (e ++ "-" ++ f)%string. intros x y z P Q T. cbn [append].
    rewrite !split_on_app by assumption. reflexivity.
  Qed.
  Lemma chan_item t s c x : has_data o proc archive t s c (chan c) x -> present t s c.
  Proof. intros X. now exists x. Qed.
  Lemma corr_item t s a b x y : correlated o method rc K n proc archive t s a b x y ->
    exists c e, a = chan c /\ b = chan e /\ dress ((t, s), (c, e)) /\ pre c t x /\ pre e t y.
  Proof.
    intros (SI & (c & NA & PA & QA) & (e & NB & PB & QB) & WN).
    assert (AC : chan c = a) by (unfold chan, channel_of; now apply nth_error_nth). assert (BE : chan e = b) by (unfold chan, channel_of; now apply nth_error_nth). subst a b.
    exists c, e. split; [reflexivity|]. split; [reflexivity|]. split; [|now split]. split; [exact SI|]. split; [now exists x|]. split; [now exists y|exact WN].
  Qed.
  Lemma item_corr t s c e : dress ((t, s), (c, e)) -> exists x y, correlated o method rc K n proc archive t s (chan c) (chan e) x y /\ pre c t x /\ pre e t y.
  Proof.
    intros (SI & (x & PA) & (y & PB) & WN). exists x, y. split; [|split; [apply PA|apply PB]]. split; [exact SI|]. split; [now exists c|]. split; [now exists e|exact WN].
  Qed.
  Lemma found_dir I L sep d : NoDup I -> (forall i, In i I <-> dress i) -> Forall2 mk I L -> holds sep d L -> NoDup (map fst d) -> found_all sep d.
  Proof.
    intros N X F H NDD. assert (D : forall i, In i I -> dress i) by (intros i; apply X).
    destruct (corrs_fine I L D F) as (BO & ST & CA). pose proof (keys_distinct I L N D F) as KD.
    assert (DA : forall tr, In tr L -> MonitorInputFacts.dashed (c_net tr) /\ MonitorInputFacts.dashed (c_sta tr)).
    { intros tr T. destruct (Forall2_right _ _ _ _ F T) as ([[t s] [c e]] & J & MK). destruct (made_codes _ _ _ _ _ (D _ J) MK) as (-> & -> & _). destruct (D _ J) as (_ & P1 & P2 & _).
      destruct (present_chan _ _ _ P1) as (_ & _ & U1 & V1 & _). destruct (present_chan _ _ _ P2) as (_ & _ & U2 & V2 & _). split; now apply seed_dashed. }
    assert (IT : forall tr t s c e, In tr L -> dress ((t, s), (c, e)) -> mk ((t, s), (c, e)) tr -> MonitorInputFacts.item_of sep tr = MonitorInputSpec.combination sep (chan c) (chan e)).
    { intros tr t s c e T DR MK. unfold MonitorInputFacts.item_of, MonitorInputSpec.combination. rewrite (own_name sep _ _ _ _ _ DR MK). destruct (made_codes _ _ _ _ _ DR MK) as (-> & -> & -> & _). reflexivity. }
    split.
    - destruct (MonitorInputFacts.listed sep d L H NDD ST KD DA) as (l & E & NL & IL). exists l. split; [exact E|]. split; [exact NL|].
      assert (IFF : forall i, In i l <-> exists t s a b x y, correlated o method rc K n proc archive t s a b x y /\ i = MonitorInputSpec.combination sep a b).
      { intros i. rewrite IL. split.
      + intros (tr & T & ->). destruct (Forall2_right _ _ _ _ F T) as ([[t s] [c e]] & J & MK). destruct (item_corr _ _ _ _ (D _ J)) as (x & y & C & _). exists t, s, (chan c), (chan e), x, y. split; [exact C|]. exact (IT _ _ _ _ _ T (D _ J) MK).
      + intros (t & s & a & b & x & y & C & ->). destruct (corr_item _ _ _ _ _ _ C) as (c & e & -> & -> & DR & _). apply X in DR. destruct (Forall2_left _ _ _ _ F DR) as (tr & T & MK). exists tr. split; [exact T|]. symmetry. exact (IT _ _ _ _ _ T (D _ DR) MK). }
      split; [|exact IFF]. apply nodup_map_on; [|exact NL]. intros i j II J EO. apply IFF in II. apply IFF in J. destruct II as (t & s & a & b & x & y & C & ->). destruct J as (t' & s' & a' & b' & x' & y' & C' & ->).
      assert (SE : forall t s a b x y, correlated o method rc K n proc archive t s a b x y -> (seed (ch_net a) /\ seed (ch_sta a) /\ seed (ch_cha a)) /\ (seed (ch_net b) /\ seed (ch_sta b) /\ seed (ch_cha b))).
      { clear -FINE. intros t s a b x y (_ & (c & NA & _) & (e & NB & _) & _). destruct FINE as (FS & _). split; apply FS; eapply nth_error_In; eassumption. }
      destruct (SE _ _ _ _ _ _ C) as ((A1 & A2 & A3) & B1 & B2 & B3). destruct (SE _ _ _ _ _ _ C') as ((A1' & A2' & A3') & B1' & B2' & B3').
      unfold MonitorRun.out_name, MonitorInputSpec.combination in EO. cbn [MonitorRun.i_net MonitorRun.i_sta MonitorRun.i_cha] in EO.
      assert (EQ := f_equal (split_on ".") EO). rewrite !out_split in EQ by assumption. injection EQ as E1 E2 E3.
      unfold MonitorInputSpec.combination. apply dash_inj in E1; try (apply seed_dash; assumption). apply dash_inj in E2; try (apply seed_dash; assumption). apply dash_inj in E3; try (apply seed_dash; assumption).
      destruct E1 as [E1 F1], E2 as [E2 F2], E3 as [E3 F3]. unfold file_name. now rewrite E1, E2, E3, F1, F2, F3.
    - intros a b (t0 & s0 & x0 & y0 & C0). destruct (corr_item _ _ _ _ _ _ C0) as (c & e & -> & -> & DR0 & _). pose proof DR0 as J0. apply X in J0. destruct (Forall2_left _ _ _ _ F J0) as (tr0 & T0 & MK0).
      destruct (MonitorInputFacts.read_pair sep L ST KD tr0 T0 (CA tr0 T0)) as (trs & G & SS & IN).
      destruct (MonitorInputFacts.has_file sep d L H tr0 T0) as (_ & DF). rewrite (own_name sep _ _ _ _ _ DR0 MK0) in DF. pose proof (made_codes _ _ _ _ _ DR0 MK0) as (N1 & N2 & N3 & _).
      (* the windows of the traces *)
      set (goes := fun (tr : ctrace) (w : MonitorInputSpec.pair_window) => let t := MonitorInputSpec.pw_read w in let s := MonitorInputSpec.pw_start w in
        dress ((t, s), (c, e)) /\ mk ((t, s), (c, e)) tr /\ pre c t (MonitorInputSpec.pw_first w) /\ pre e t (MonitorInputSpec.pw_second w)).
      assert (GO : forall tr, In tr trs -> exists w, goes tr w).
      { intros tr I0. apply IN in I0. destruct I0 as (T & P1 & P2 & P3). destruct (Forall2_right _ _ _ _ F T) as ([[t s] [c' e']] & J & MK). pose proof (D _ J) as DR. pose proof (made_codes _ _ _ _ _ DR MK) as (A1 & A2 & A3 & _).
        assert (c' = c /\ e' = e) as [-> ->].
        { destruct DR as (_ & P4 & P5 & _). destruct DR0 as (_ & P6 & P7 & _). destruct (present_chan _ _ _ P4) as (L3 & _ & U3 & V3 & W3). destruct (present_chan _ _ _ P5) as (L4 & _ & U4 & V4 & W4).
          destruct (present_chan _ _ _ P6) as (L1 & _ & U1 & V1 & W1). destruct (present_chan _ _ _ P7) as (L2 & _ & U2 & V2 & W2).
          rewrite A1, N1 in P1. rewrite A2, N2 in P2. rewrite A3, N3 in P3. apply dash_inj in P1; try (apply seed_dash; assumption). apply dash_inj in P2; try (apply seed_dash; assumption). apply dash_inj in P3; try (apply seed_dash; assumption).
          destruct P1 as [E1 F1]. destruct P2 as [E2 F2]. destruct P3 as [E3 F3]. split; (apply (codes_inj archive FINE); [assumption..|]; unfold chan in *; congruence). }
        destruct (item_corr _ _ _ _ DR) as (x & y & _ & PX & PY). exists (MonitorInputSpec.mkPW t s x y). unfold goes. cbn [MonitorInputSpec.pw_read MonitorInputSpec.pw_start MonitorInputSpec.pw_first MonitorInputSpec.pw_second]. tauto. }
      assert (WS : exists ws, Forall2 goes trs ws).
      { clear -GO. induction trs as [|tr l IH]; [now exists []|]. destruct IH as (ws & W); [intros; apply GO; now right|]. destruct (GO tr (or_introl eq_refl)) as (w & G0). exists (w :: ws). now constructor. }
      destruct WS as (ws & WS).
      assert (WIN : MonitorInputSpec.windows_of o method rc K n proc archive (chan c) (chan e) ws).
      { split.
        - clear -WS SS DT SENS OKS. assert (DP : (0 < dt)%Z) by (destruct SENS as (_ & _ & _ & C & _); nia).
          revert ws WS. induction SS as [|tr l S IH FE]; intros ws WS; inversion WS as [|? w ? ws' G W]; subst; [constructor|]. constructor; [now apply IH|]. apply Forall_forall. intros v V.
          destruct (Forall2_right _ _ _ _ W V) as (tr' & T' & G'). rewrite Forall_forall in FE. specialize (FE _ T'). destruct G as (D1 & M1 & _). destruct G' as (D2 & M2 & _).
          destruct (made_codes _ _ _ _ _ D1 M1) as (_ & _ & _ & X1 & X2). destruct (made_codes _ _ _ _ _ D2 M2) as (_ & _ & _ & Y1 & Y2). unfold MonitorInputFacts.earlier in FE. rewrite X1, X2, Y1, Y2 in FE.
          assert (MO : forall p q, (tick p < tick q -> p < q)%Z) by (intros p q PQ; unfold tick in PQ; destruct (Z_lt_le_dec p q); [assumption|]; pose proof (Z.div_le_mono q p 100000 ltac:(lia) ltac:(lia)); lia).
          destruct FE as [FE|[_ FE]]; apply MO in FE; nia.
        - intros w. split.
          + intros V. destruct (Forall2_right _ _ _ _ WS V) as (tr & T & DR & MK & PX & PY). destruct (item_corr _ _ _ _ DR) as (x & y & C & PX' & PY').
            rewrite (preprocessed_unique _ _ _ _ _ _ _ PX PX'), (preprocessed_unique _ _ _ _ _ _ _ PY PY'). exact C.
          + intros C. destruct (corr_item _ _ _ _ _ _ C) as (c' & e' & CE & EE & DR & PX & PY).
            assert (c' = c /\ e' = e) as [-> ->].
            { destruct DR as (_ & P4 & P5 & _). destruct DR0 as (_ & P6 & P7 & _). destruct (present_chan _ _ _ P4) as (L3 & _). destruct (present_chan _ _ _ P5) as (L4 & _). destruct (present_chan _ _ _ P6) as (L1 & _). destruct (present_chan _ _ _ P7) as (L2 & _).
              split; (apply (codes_inj archive FINE); [assumption..|]; unfold chan in *; congruence). }
            pose proof DR as J. apply X in J. destruct (Forall2_left _ _ _ _ F J) as (tr & T & MK). destruct (made_codes _ _ _ _ _ DR MK) as (A1 & A2 & A3 & A4 & A5).
            assert (TI : In tr trs) by (apply IN; split; [exact T|]; unfold MonitorInputFacts.one_pair; rewrite A1, A2, A3, N1, N2, N3; tauto).
            destruct (Forall2_left _ _ _ _ WS TI) as (w' & W' & DR' & MK' & PX' & PY').
            assert (IJ := item_unique _ _ _ _ DR DR' MK MK' eq_refl eq_refl eq_refl eq_refl). injection IJ as E1 E2. destruct w as [t s x y], w' as [t' s' x' y']. cbn [MonitorInputSpec.pw_read MonitorInputSpec.pw_start MonitorInputSpec.pw_first MonitorInputSpec.pw_second] in *. subst t' s'.
            rewrite (preprocessed_unique _ _ _ _ _ _ _ PX PX'), (preprocessed_unique _ _ _ _ _ _ _ PY PY'). exact W'. }
      assert (RR : Forall2 (fun tr w => right_correlation o origin dt sr k f32 (MonitorInputSpec.pw_read w) (MonitorInputSpec.pw_start w) (chan c) (chan e) (MonitorInputSpec.pw_first w) (MonitorInputSpec.pw_second w) (stored tr)) trs ws).
      { clear -WS. induction WS as [|tr w l ws G W IH]; [constructor|]. constructor; [|exact IH]. destruct G as (_ & MK & PX & PY). exact (stored_right _ _ _ _ _ _ _ MK PX PY). }
      assert (T1 : In tr0 trs) by (apply IN; split; [exact T0|]; unfold MonitorInputFacts.one_pair; tauto).
      assert (PL : plain (c_net tr0) = true /\ plain (c_sta tr0) = true /\ plain (c_cha tr0) = true) by (destruct BO as (BO & _); destruct (BO tr0 T0) as ((_ & P1) & (_ & P2) & (_ & P3)); tauto).
      destruct trs as [|h r]; [contradiction|].
      destruct (MonitorInputFacts.matrix_of (stored h) (map stored r) (c_net tr0) (c_sta tr0) (c_cha tr0) sr (- inject_Z k / sr)%Q (2 * Z.to_nat k + 1)) as (m & EM & B1 & B2 & B3 & B4 & B5 & B6 & B7 & B8 & B9 & B10 & B11); try apply PL.
      { change (stored h :: map stored r) with (map stored (h :: r)). apply Forall_forall. intros y Y. apply in_map_iff in Y. destruct Y as (tr & <- & Y). destruct (Forall2_left _ _ _ _ RR Y) as (w & _ & R1 & R2 & R3 & R4 & R5 & R6 & R7 & R8 & R9).
        rewrite R1, R2, R4, N1, N2, N3, R9, map_length, seq_length. repeat split; assumption. }
      change (stored h :: map stored r) with (map stored (h :: r)) in *.
      exists (exec_all (adds (of_file sep (own_file sep tr0) L))), ws, m. split; [unfold MonitorInput.opened; rewrite DF, <- (own_name sep _ _ _ _ _ DR0 MK0); reflexivity|]. split; [exact WIN|]. split; [inversion WS; discriminate|].
      rewrite <- N1, <- N2, <- N3. split; [unfold MonitorInput.read_matrix; rewrite G; cbn [bind]; exact EM|].
      unfold MonitorInputSpec.matrix_of_windows. rewrite <- N1, <- N2, <- N3, B1, B2, B3, B5, B6, B7, B9, B10, B11, !map_map, !map_length. 
      split; [reflexivity|]. split; [reflexivity|]. split; [reflexivity|]. split; [reflexivity|]. split; [exact B8|]. split; [reflexivity|]. split; [exact (Forall2_len _ _ _ RR)|].
      assert (MF : forall (Y : Type) (f : ctrace -> Y) (g : MonitorInputSpec.pair_window -> Y),
        (forall tr w, right_correlation o origin dt sr k f32 (MonitorInputSpec.pw_read w) (MonitorInputSpec.pw_start w) (chan c) (chan e) (MonitorInputSpec.pw_first w) (MonitorInputSpec.pw_second w) (stored tr) -> f tr = g w) -> map f (h :: r) = map g ws).
      { clear -RR. intros Y f g E. induction RR as [|tr w l ws' R0 RR0 IH]; [reflexivity|]. cbn [map]. now rewrite (E _ _ R0), IH. }
      split; [|split]; apply MF; intros tr w (R1 & R2 & R3 & R4 & R5 & R6 & R7 & R8 & R9); [change (c_start (stored tr)) with (file_time (c_start tr)) in *|change (c_end (stored tr)) with (file_time (c_end tr)) in *|rewrite R9, map_map; reflexivity]; unfold file_time in *; f_equal; [rewrite <- R5|rewrite <- R6]; symmetry; apply tick_mul.
  Qed.
  Theorem run_found d0 sep : subdiv = false \/ d0 = [] -> part' sep d0 -> forall p flag, 0 < p ->
    exists d, run_files o origin dt sr len false center method (texts rc) proc archive f32 sadd szero cadd czero subdiv stations d0 p sep flag = Some (Ok d) /\ found_all sep d.
  Proof.
    intros SU PT. destruct (runs_from d0 sep SU PT) as (I0 & L0 & I1 & L1 & ex & EX & ND & H & X & F & _ & RB).
    assert (D : forall i, In i (I0 ++ I1) -> dress i) by (intros i; apply X). destruct (corrs_fine _ _ D F) as (BO & _).
    intros p flag P. destruct (RB p flag P) as (bs & RE & CE). rewrite <- CE in BO. destruct (batches_hold p sep P bs d0 L0 BO H) as (d & WE & HD). rewrite CE in HD.
    exists d. split; [unfold run_files, with_existing; rewrite EX; unfold run in RE; rewrite RE; cbn [option_map bind]; now rewrite WE|].
    destruct (once sep d _ _ X F HD) as (I' & N' & X' & F' & H'). exact (found_dir _ _ sep d N' X' F' H' (batches_names _ _ _ _ _ WE ND)).
  Qed.
End Whole.

(** no requests *)
Lemma none_fine archive : fine_requests archive None. Proof. intros l e Q. discriminate. Qed.
Lemma none_plain : plain_requests None. Proof. intros l e Q. discriminate. Qed.
