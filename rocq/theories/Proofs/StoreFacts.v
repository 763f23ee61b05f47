From Coq Require Import Sorted.
From Verif Require Import Lib.Base Lib.Time Lib.TimeFacts Model.Archive Model.StoreClient Spec.ArchiveSpec Spec.StoreSpec Proofs.ArchiveFacts.
Local Open Scope Z_scope.
#[local] Ltac Zify.zify_post_hook ::= Z.div_mod_to_equations.

Lemma key_eqb_spec a b : reflect (a = b) (key_eqb a b).
Proof.
  destruct a as [a1 a2], b as [b1 b2]. unfold key_eqb. cbn [fst snd].
  destruct (Z.eqb_spec a1 b1), (Z.eqb_spec a2 b2); constructor; congruence.
Qed.
Lemma find_filter_ne k k' d : k <> k' -> find (fun x : (Z * Z) * piece => key_eqb (fst x) k') (filter (fun x => negb (key_eqb (fst x) k)) d) = find (fun x => key_eqb (fst x) k') d.
Proof.
  intros N. induction d as [|[q p] d IH]; [reflexivity|]. cbn [filter find fst].
  destruct (key_eqb_spec q k) as [->|Q]; cbn [negb].
  - rewrite IH. destruct (key_eqb_spec k k'); [contradiction|reflexivity].
  - cbn [find fst]. destruct (key_eqb q k'); [reflexivity|exact IH].
Qed.
Lemma file_put k p d k' : file (put k p d) k' = if key_eqb k k' then Some p else file d k'.
Proof.
  unfold file, put. cbn [find fst]. destruct (key_eqb_spec k k') as [->|N]; [reflexivity|]. now rewrite find_filter_ne.
Qed.

(** ** sorted samples *)
Lemma ascending_lookup p n v : ascending p -> (In (n, v) p <-> lookup n p = Some v).
Proof.
  intros S. unfold lookup. induction S as [|[m u] p S IH F]; [cbn; split; [tauto|discriminate]|].
  cbn [filter fst]. destruct (Z.eqb_spec m n) as [->|N].
  - cbn [snd]. split.
    + intros [E|I]; [congruence|]. rewrite Forall_forall in F. specialize (F _ I). cbn in F. lia.
    + intros [= ->]. now left.
  - rewrite <- IH. split; [intros [E|I]; [congruence|exact I]|now right].
Qed.
Lemma ascending_first p x : ascending p -> In x p -> first_no p <= fst x.
Proof.
  intros S I. destruct S as [|y p S F]; [destruct I|]. cbn [first_no]. destruct I as [<-|I]; [lia|].
  rewrite Forall_forall in F. specialize (F _ I). lia.
Qed.
Lemma ascending_snoc p y : ascending (p ++ [y]) -> forall x, In x p -> fst x < fst y.
Proof.
  induction p as [|z p IH]; intros S x I; [destruct I|]. cbn in S. inversion S as [|? ? S' F]; subst.
  destruct I as [<-|I]; [|now apply IH]. rewrite Forall_forall in F. apply F. apply in_or_app. right. now left.
Qed.
Lemma ascending_last p x : ascending p -> In x p -> fst x <= last_no p.
Proof.
  intros S I. destruct p as [|y p] using rev_ind; [destruct I|]. unfold last_no. rewrite rev_app_distr. cbn.
  apply in_app_iff in I as [I|[<-|[]]]; [|lia]. pose proof (ascending_snoc p y S x I). lia.
Qed.
Lemma last_no_in p : p <> [] -> exists v, In (last_no p, v) p.
Proof.
  intros N. destruct p as [|[m v] p] using rev_ind; [contradiction|]. unfold last_no. rewrite rev_app_distr. cbn. exists v.
  apply in_or_app. right. now left.
Qed.
Lemma first_no_in p : p <> [] -> exists v, In (first_no p, v) p.
Proof. destruct p as [|[m v] p]; [contradiction|]. intros _. exists v. now left. Qed.
Lemma sorted_map_seq (g : nat -> Z * Z) : (forall i j, (i < j)%nat -> fst (g i) < fst (g j)) -> forall m lo, ascending (map g (seq lo m)).
Proof.
  intros H. induction m as [|m IH]; intros lo; [constructor|]. cbn [seq map]. constructor; [apply IH|].
  rewrite Forall_forall. intros x I. apply in_map_iff in I as (j & <- & J). apply in_seq in J. apply H. lia.
Qed.
Lemma ascending_filter f p : ascending p -> ascending (filter f p).
Proof.
  intros S. induction S as [|x p S IH F]; [constructor|]. cbn [filter]. destruct (f x); [|exact IH]. constructor; [exact IH|].
  rewrite Forall_forall in *. intros y I. apply filter_In in I as [I _]. auto.
Qed.
Lemma mapM_numbers (f : Z -> result (Z * Z)) l r : (forall x y, f x = Ok y -> fst y = x) -> mapM f l = Ok r -> map fst r = l.
Proof.
  intros H. revert r. induction l as [|x l IH]; intros r E; cbn in E; [now injection E as <-|].
  destruct (f x) as [y|] eqn:F; [|discriminate]. cbn in E. destruct (mapM f l) as [q|]; [|discriminate]. cbn in E. injection E as <-.
  cbn. f_equal; [eauto|auto].
Qed.
Lemma ascending_numbers p : StronglySorted Z.lt (map fst p) -> ascending p.
Proof.
  induction p as [|x p IH]; intros S; [constructor|]. cbn in S. inversion S as [|? ? S' F]; subst. constructor; [exact (IH S')|].
  apply Forall_forall. intros y I. rewrite Forall_forall in F. apply F, in_map, I.
Qed.
Lemma arange_sorted lo hi : StronglySorted Z.lt (arange lo hi 1).
Proof.
  unfold arange. generalize (arange_len lo hi 1) as m. intros m. generalize 0%nat as i. induction m as [|m IH]; intros i; [constructor|].
  cbn [seq map]. constructor; [apply IH|]. rewrite Forall_forall. intros x I. apply in_map_iff in I as (j & <- & J). apply in_seq in J. lia.
Qed.

Lemma sds_write_stored old new c : (forall a, old = Some a -> a <> [] /\ ascending a) -> new <> [] -> ascending new ->
  sds_write old new = Ok c -> c <> [] /\ ascending c /\
  forall n v, In (n, v) c <-> (exists a, old = Some a /\ In (n, v) a) \/ In (n, v) new.
Proof.
  intros O N A E. destruct old as [a|].
  2:{ injection E as <-. split; [exact N|]. split; [exact A|]. intros n v. split; [now right|]. intros [(a & X & _)|I]; [discriminate|exact I]. }
  destruct (O a eq_refl) as [Na Aa]. cbn [sds_write] in E.
  set (f := fun n => match merged_at a new n with Some v => Ok (n, v) | None => Raise NotImplementedError end) in E.
  assert (Hf : forall n nv, f n = Ok nv -> fst nv = n /\ merged_at a new n = Some (snd nv)).
  { intros n nv. unfold f. destruct (merged_at a new n); intros X; inversion X; auto. }
  assert (MEM : forall n v, In (n, v) c <-> (exists a0, Some a = Some a0 /\ In (n, v) a0) \/ In (n, v) new).
  { intros n v. rewrite (mapM_ok_in _ _ _ E). split.
    - intros (x & _ & F). apply Hf in F as [<- M]. cbn [fst snd] in *. unfold merged_at in M.
      destruct (lookup n a) as [y|] eqn:LA.
      + left. exists a. split; [reflexivity|]. apply ascending_lookup; [exact Aa|]. rewrite LA. destruct (lookup n new); [|exact M].
        destruct (y =? z); [exact M|discriminate].
      + right. apply ascending_lookup; [exact A|exact M].
    - intros H. assert (R : Z.min (first_no a) (first_no new) <= n < Z.max (last_no a) (last_no new) + 1).
      { destruct H as [(a0 & [= <-] & I)|I].
        - pose proof (ascending_first _ _ Aa I). pose proof (ascending_last _ _ Aa I). cbn in *. lia.
        - pose proof (ascending_first _ _ A I). pose proof (ascending_last _ _ A I). cbn in *. lia. }
      apply in_arange_1 in R. exists n. split; [exact R|].
      destruct (proj1 (mapM_ok_iff f _) (ex_intro _ _ E) n R) as [y Y]. rewrite Y. destruct (Hf _ _ Y) as [Y1 Y2].
      destruct y as [y1 y2]. cbn [fst snd] in *. subst y1. f_equal. f_equal. unfold merged_at in Y2.
      destruct H as [(a0 & [= <-] & I)|I].
      + apply (ascending_lookup _ _ _ Aa) in I. rewrite I in Y2. destruct (lookup n new); [|congruence]. destruct (v =? z); congruence.
      + apply (ascending_lookup _ _ _ A) in I. rewrite I in Y2. destruct (lookup n a); [|congruence].
        destruct (Z.eqb_spec z v); congruence. }
  split; [|split; [|exact MEM]].
  - destruct (first_no_in new N) as [v V]. intros ->. apply (proj2 (MEM _ _) (or_intror V)).
  - apply ascending_numbers. rewrite (mapM_numbers f _ _ (fun x y X => proj1 (Hf x y X)) E). apply arange_sorted.
Qed.

(** ** pieces of a trace *)
Lemma all_of_in tr n v : In (n, v) (all_of tr) <-> t_lo tr <= n /\ nth_error (t_vals tr) (Z.to_nat (n - t_lo tr)) = Some v.
Proof.
  unfold all_of, piece_of. rewrite in_map_iff. split.
  - intros (k & [= <- <-] & K). apply in_seq in K. split; [lia|]. replace (Z.to_nat (t_lo tr + Z.of_nat k - t_lo tr)) with k by lia.
    apply nth_error_nth'. lia.
  - intros [L N]. assert (Z.to_nat (n - t_lo tr) < length (t_vals tr))%nat by (apply nth_error_Some; congruence).
    exists (Z.to_nat (n - t_lo tr)). split; [|apply in_seq; lia]. f_equal; [lia|]. now apply nth_error_nth.
Qed.
Lemma piece_of_in tr ks n v : (forall k, In k ks -> (k < length (t_vals tr))%nat) -> In (n, v) (piece_of tr ks) -> In (n, v) (all_of tr).
Proof.
  intros B I. unfold piece_of in I. apply in_map_iff in I as (k & E & K). unfold all_of, piece_of. apply in_map_iff. exists k.
  split; [exact E|]. apply in_seq. specialize (B k K). lia.
Qed.
Lemma piece_of_trim_ascending tr w s e : ascending (piece_of tr (trim_idx w s e)).
Proof.
  unfold piece_of, trim_idx. generalize (w_npts w) as m. generalize 0%nat as lo.
  assert (H : forall m lo (f : nat -> bool), ascending (map (fun k => (t_lo tr + Z.of_nat k, nth k (t_vals tr) 0)) (filter f (seq lo m))) /\
    Forall (fun k => (lo <= k)%nat) (filter f (seq lo m))).
  { induction m as [|m IH]; intros lo f; [split; constructor|]. cbn [seq filter]. destruct (IH (S lo) f) as [A B]. destruct (f lo).
    - cbn [map]. split.
      + constructor; [exact A|]. rewrite Forall_forall in *. intros x I. apply in_map_iff in I as (k & <- & K). cbn [fst]. specialize (B k K). lia.
      + constructor; [lia|]. rewrite Forall_forall in *. intros k K. specialize (B k K). lia.
    - split; [exact A|]. rewrite Forall_forall in *. intros k K. specialize (B k K). lia. }
  intros lo m. apply H.
Qed.

Lemma write_loop_pieces w (Hd : 0 < w_delta w <= day) (Hn : (0 < w_npts w)%nat) : forall m start ps, write_loop m w start = Some ps ->
  (start = w_start w \/ w_start w <= start /\ is_midnight start) ->
  (forall s ks, In (s, ks) ps -> ks = trim_idx w s (next_midnight s) /\ ks <> [] /\ start <= s) /\
  (start < w_end w -> forall k, (k < w_npts w)%nat -> start <= w_time w k -> exists s ks, In (s, ks) ps /\ In k ks).
Proof.
  induction m as [|m IH]; intros start ps E ST; cbn [write_loop] in E; destruct (Z.ltb_spec start (w_end w)) as [L|L];
    try discriminate; try (injection E as <-; split; [intros s ks []|lia]).
  destruct (write_loop m w (next_midnight start)) as [r|] eqn:R; [|discriminate]. cbn in E. injection E as <-.
  pose proof (next_midnight_eq start) as NM.
  assert (NL : start < next_midnight start) by (rewrite NM, day_val; lia).
  assert (S0 : w_start w <= start) by (destruct ST as [->|[H _]]; lia).
  destruct (IH _ _ R) as [A B].
  { right. split; [lia|]. exists (start / day + 1). exact NM. }
  split.
  - intros s ks [X|X].
    + injection X as <- <-. split; [reflexivity|]. split; [|lia].
      (* the first sample not before start *)
      set (k := Z.to_nat ((start - w_start w + w_delta w - 1) / w_delta w)).
      assert (K0 : 0 <= (start - w_start w + w_delta w - 1) / w_delta w) by (apply Z.div_pos; lia).
      assert (K1 : start <= w_time w k < start + w_delta w).
      { unfold w_time, k. rewrite Z2Nat.id by exact K0. pose proof (Z.div_mod (start - w_start w + w_delta w - 1) (w_delta w)).
        pose proof (Z.mod_pos_bound (start - w_start w + w_delta w - 1) (w_delta w)). nia. }
      assert (K2 : (k < w_npts w)%nat).
      { destruct (Nat.lt_ge_cases k (w_npts w)) as [G|G]; [exact G|exfalso].
        assert (w_time w (w_npts w - 1) < start); [|unfold w_end in L; lia].
        assert (w_time w (k - 1) < start).
        { unfold w_time in *. destruct k as [|k']; [lia|]. replace (S k' - 1)%nat with k' by lia. rewrite Nat2Z.inj_succ in K1. lia. }
        unfold w_time in *. nia. }
      intros Z0. assert (I : In k (trim_idx w start (next_midnight start))); [|rewrite Z0 in I; destruct I].
      apply in_trim. split; [exact K2|]. split; [lia|].
      destruct ST as [ST|[_ [q Q]]].
      * assert (k = 0)%nat. { unfold k. rewrite ST. replace (w_start w - w_start w + w_delta w - 1) with (w_delta w - 1) by lia. now rewrite Z.div_small by lia. }
        rewrite H in K1. unfold w_time in *. rewrite H. cbn. cbn in K1. lia.
      * rewrite NM, Q. rewrite Z.div_mul by (rewrite day_val; lia). lia.
    + destruct (A s ks X) as (A1 & A2 & A3). split; [exact A1|]. split; [exact A2|lia].
  - intros _ k K T. destruct (Z_le_gt_dec (w_time w k) (next_midnight start)) as [M|M].
    + exists start, (trim_idx w start (next_midnight start)). split; [now left|]. apply in_trim. lia.
    + destruct (B) with (k := k) as (s & ks & X & Y); [|exact K|lia|exists s, ks; split; [now right|exact Y]].
      assert (w_time w k <= w_end w) by (unfold w_end, w_time; nia). lia.
Qed.

Section Facts.
  Variables t0 delta buffer : Z.
  Hypothesis HD : 0 < delta <= day.
  Notation stime := (stime t0 delta).
  Notation in_order := (in_order t0 delta).

  Lemma day_pieces_spec tr : t_vals tr <> [] -> exists ps, day_pieces t0 delta tr = Some ps /\
    (forall k p, In (k, p) ps -> p <> [] /\ ascending p /\
       (forall n v, In (n, v) p -> In (n, v) (all_of tr)) /\
       (forall n v, In (n, v) p -> exists t, file_of t = k /\ (same_day t (stime n) \/ ends_day_of (stime n) t))) /\
    ((2 <= length (t_vals tr))%nat -> forall n v, In (n, v) (all_of tr) -> exists k p, In (k, p) ps /\ In (n, v) p).
  Proof.
    intros N. unfold day_pieces. cbv zeta. set (w := wave_of t0 delta tr).
    assert (L : (0 < w_npts w)%nat) by (cbn; destruct (t_vals tr); [contradiction|cbn; lia]).
    destruct (write_loop_correct w (proj1 HD) _ (w_start w) (le_n _)) as (ps & E & A & _). rewrite E. cbn [option_map].
    destruct (write_loop_pieces w HD L _ _ _ E (or_introl eq_refl)) as [B C].
    eexists. split; [reflexivity|].
    assert (T : forall k, w_time w k = stime (t_lo tr + Z.of_nat k)). { intros k. unfold w_time, w, wave_of, StoreClient.stime. cbn. lia. }
    split.
    - intros k p I. apply in_map_iff in I as ([s ks] & X & I). cbn [fst snd] in X. injection X as <- <-.
      destruct (B s ks I) as (B1 & B2 & _). split; [|split; [|split]].
      + intros Z0. apply map_eq_nil in Z0. contradiction.
      + rewrite B1. apply piece_of_trim_ascending.
      + intros n v. apply piece_of_in. intros k K. exact (proj1 (A s ks k I K)).
      + intros n v J. unfold piece_of in J. apply in_map_iff in J as (k & [= <- <-] & K). exists s. split; [reflexivity|].
        rewrite <- T. exact (proj2 (A s ks k I K)).
    - intros L2 n v I. unfold all_of, piece_of in I. apply in_map_iff in I as (k & X & K). apply in_seq in K.
      destruct (C) with (k := k) as (s & ks & I & J).
      + unfold w_end, w_time, w, wave_of. cbn [w_npts w_delta w_start]. nia.
      + unfold w, wave_of. cbn. lia.
      + unfold w_time, w, wave_of. cbn. nia.
      + exists (file_of s), (piece_of tr ks). split; [apply in_map_iff; exists (s, ks); auto|]. unfold piece_of. apply in_map_iff. eauto.
  Qed.

  (** what an operation does to the archive *)
  Definition grows (d d' : disk) (sent : Z -> Z -> Prop) : Prop :=
    in_order d' /\ (forall n v, archived d n v -> archived d' n v) /\ (forall n v, archived d' n v -> archived d n v \/ sent n v).
  Lemma grows_refl d sent : in_order d -> grows d d sent.
  Proof. intros I. repeat split; auto; apply I in H; tauto. Qed.
  Lemma grows_trans d d' d'' s1 s2 : grows d d' s1 -> grows d' d'' s2 -> grows d d'' (fun n v => s1 n v \/ s2 n v).
  Proof.
    intros (_ & K1 & O1) (I & K2 & O2). split; [exact I|]. split; [auto|]. intros n v A. destruct (O2 n v A) as [B|B]; [|auto].
    destruct (O1 n v B); auto.
  Qed.
  Lemma grows_weaken d d' (s1 s2 : Z -> Z -> Prop) : (forall n v, s1 n v -> s2 n v) -> grows d d' s1 -> grows d d' s2.
  Proof. intros H (I & K & O). split; [exact I|]. split; [exact K|]. intros n v A. destruct (O n v A); auto. Qed.

  Lemma put_grows d k c (sent : Z -> Z -> Prop) : in_order d -> c <> [] -> ascending c ->
    (forall n v, In (n, v) c -> exists t, file_of t = k /\ (same_day t (stime n) \/ ends_day_of (stime n) t)) ->
    (forall p, file d k = Some p -> forall n v, In (n, v) p -> In (n, v) c) ->
    (forall n v, In (n, v) c -> (exists p, file d k = Some p /\ In (n, v) p) \/ sent n v) ->
    grows d (put k c d) sent.
  Proof.
    intros I N A P K O. split; [|split].
    - intros k' p F. rewrite file_put in F. destruct (key_eqb_spec k k') as [<-|Q]; [injection F as <-; auto|exact (I k' p F)].
    - intros n v (k' & p & F & J). destruct (key_eqb_spec k k') as [<-|Q].
      + exists k, c. rewrite file_put. destruct (key_eqb_spec k k); [|contradiction]. split; [reflexivity|]. exact (K p F n v J).
      + exists k', p. rewrite file_put. destruct (key_eqb_spec k k'); [contradiction|]. auto.
    - intros n v (k' & p & F & J). rewrite file_put in F. destruct (key_eqb_spec k k') as [<-|Q].
      + injection F as <-. destruct (O n v J) as [(p & G & H)|H]; [left; exists k, p; auto|now right].
      + left. exists k', p. auto.
  Qed.

  Definition good_pieces (ps : list ((Z * Z) * piece)) : Prop := forall k p, In (k, p) ps -> p <> [] /\ ascending p /\
    (forall n v, In (n, v) p -> exists t, file_of t = k /\ (same_day t (stime n) \/ ends_day_of (stime n) t)).
  Lemma write_pieces_grows ps : good_pieces ps -> forall d, in_order d ->
    grows d (fst (write_pieces d ps)) (fun n v => exists k p, In (k, p) ps /\ In (n, v) p) /\
    (snd (write_pieces d ps) = None -> forall k p n v, In (k, p) ps -> In (n, v) p -> archived (fst (write_pieces d ps)) n v).
  Proof.
    induction ps as [|[k p] ps IH]; intros G d I; cbn [write_pieces].
    - split; [now apply grows_refl|]. intros _ k p n v [].
    - destruct (G k p (or_introl eq_refl)) as (N & A & P).
      destruct (sds_write (file d k) p) as [c|e] eqn:W; cbn [fst snd].
      2:{ split; [now apply grows_refl|discriminate]. }
      destruct (sds_write_stored (file d k) p c) as (C1 & C2 & C3); [|exact N|exact A|exact W|].
      { intros a Fa. destruct (I k a Fa) as (X & Y & _). auto. }
      assert (G1 : grows d (put k c d) (fun n v => In (n, v) p)).
      { apply put_grows; auto.
        - intros n v J. apply C3 in J as [(a & Fa & J)|J]; [|exact (P n v J)]. destruct (I k a Fa) as (_ & _ & Q). exact (Q n v J).
        - intros a Fa n v J. apply C3. left. eauto.
        - intros n v J. apply C3 in J as [(a & Fa & J)|J]; eauto. }
      destruct (IH (fun k' p' X => G k' p' (or_intror X)) _ (proj1 G1)) as [IH1 IH2]. split.
      + eapply grows_weaken; [|eapply grows_trans; [exact G1|exact IH1]]. intros n v [X|(k' & p' & X & Y)].
        * exists k, p. split; [now left|exact X].
        * exists k', p'. split; [now right|exact Y].
      + intros E k' p' n v [X|X] Y; [|exact (IH2 E k' p' n v X Y)]. injection X as <- <-.
        apply (proj1 (proj2 IH1)). exists k, c. rewrite file_put. destruct (key_eqb_spec k k); [|contradiction]. split; [reflexivity|].
        apply C3. now right.
  Qed.
  Lemma write_local_grows st : (forall tr, In tr st -> t_vals tr <> []) -> forall d, in_order d ->
    grows d (fst (write_local t0 delta d st)) (fun n v => exists tr, In tr st /\ In (n, v) (all_of tr)) /\
    (snd (write_local t0 delta d st) = None -> forall tr n v, In tr st -> (2 <= length (t_vals tr))%nat -> In (n, v) (all_of tr) ->
       archived (fst (write_local t0 delta d st)) n v).
  Proof.
    induction st as [|tr st IH]; intros N d I; cbn [write_local].
    - split; [now apply grows_refl|]. intros _ tr n v [].
    - destruct (day_pieces_spec tr (N tr (or_introl eq_refl))) as (ps & E & A & B). rewrite E.
      assert (G : good_pieces ps). { intros k p X. destruct (A k p X) as (A1 & A2 & _ & A4). auto. }
      destruct (write_pieces_grows ps G d I) as [G1 G2]. destruct (write_pieces d ps) as [d' [e|]] eqn:W; cbn [fst snd] in *.
      + split; [|discriminate]. eapply grows_weaken; [|exact G1]. intros n v (k & p & X & Y). exists tr. split; [now left|]. now apply (A k p X).
      + destruct (IH (fun x X => N x (or_intror X)) d' (proj1 G1)) as [IH1 IH2]. split.
        * eapply grows_weaken; [|eapply grows_trans; [exact G1|exact IH1]]. intros n v [(k & p & X & Y)|(t & X & Y)].
          -- exists tr. split; [now left|]. now apply (A k p X).
          -- exists t. split; [now right|exact Y].
        * intros Z0 t n v [<-|X] L Y; [|exact (IH2 Z0 t n v X L Y)]. apply (proj1 (proj2 IH1)).
          destruct (B L n v Y) as (k & p & P1 & P2). exact (G2 eq_refl k p n v P1 P2).
  Qed.

  Lemma request_grows ro s e a d : sound_op (Request ro s e a) -> in_order d ->
    grows d (fst (get_waveforms t0 delta buffer ro s e a d)) (sends (Request ro s e a)).
  Proof.
    intros S I. unfold get_waveforms. cbv zeta. destruct (use_local _ _ _ _); [now apply grows_refl|].
    destruct a as [st|]; [|now apply grows_refl]. destruct (negb _ && negb ro); [|now apply grows_refl].
    destruct (write_local_grows st S d I) as [G _]. destruct (write_local t0 delta d st) as [d' [x|]]; exact G.
  Qed.
  Lemma chunk_grows data c d : ascending data -> is_midnight (fst c) -> snd c <= fst c + day -> in_order d ->
    grows d (download_chunk t0 delta data d c) (fun n v => In (n, v) data) /\
    (file d (file_of (fst c)) = None -> forall n v, In (n, v) data -> fst c <= stime n <= snd c ->
       archived (download_chunk t0 delta data d c) n v) /\
    (forall k, k <> file_of (fst c) -> file (download_chunk t0 delta data d c) k = file d k).
  Proof.
    intros A [q Q] L I. unfold download_chunk. destruct (file d (file_of (fst c))) as [p|] eqn:F.
    { split; [now apply grows_refl|]. split; [discriminate|reflexivity]. }
    set (f := fun x : Z * Z => _). pose proof (ascending_filter f data A) as AF.
    assert (IN : forall n v, In (n, v) (filter f data) <-> In (n, v) data /\ fst c <= stime n <= snd c).
    { intros n v. rewrite filter_In. unfold f. cbn [fst]. rewrite andb_true_iff, !Z.leb_le. reflexivity. }
    destruct (filter f data) as [|x p] eqn:P.
    { split; [now apply grows_refl|]. split; [|reflexivity]. intros _ n v J T. destruct (proj2 (IN n v) (conj J T)). }
    rewrite <- P in *. split; [|split].
    - apply put_grows; auto.
      + rewrite P. discriminate.
      + intros n v J. apply IN in J as [_ T]. exists (fst c). split; [reflexivity|].
        destruct (Z.eq_dec (stime n) (fst c + day)) as [X|X].
        * right. split; [exists (q + 1); lia|]. rewrite day_val in *. lia.
        * left. exists q. rewrite Q in *. lia.
      + intros a Fa. congruence.
      + intros n v J. right. now apply IN in J.
    - intros _ n v J T. exists (file_of (fst c)), (filter f data). rewrite file_put.
      destruct (key_eqb_spec (file_of (fst c)) (file_of (fst c))); [|contradiction]. split; [reflexivity|]. now apply IN.
    - intros k K. rewrite file_put. destruct (key_eqb_spec (file_of (fst c)) k); congruence.
  Qed.
  Lemma chunks_spec s e : is_midnight s -> forall c, In c (chunks s e) -> is_midnight (fst c) /\ snd c <= fst c + day /\ s <= fst c < e /\ snd c = Z.min (fst c + day) e.
  Proof.
    intros [q Q] c I. unfold chunks, arange in I. rewrite map_map in I. apply in_map_iff in I as (k & <- & K). apply in_seq in K. cbn [fst snd].
    split; [exists (q + Z.of_nat k); lia|]. split; [lia|]. split; [|reflexivity]. split; [rewrite day_val; lia|].
    unfold arange_len in K. rewrite day_val in *. lia.
  Qed.
  Lemma download_grows data s e d : ascending data -> is_midnight s -> in_order d -> grows d (download t0 delta data s e d) (fun n v => In (n, v) data).
  Proof.
    intros A M. unfold download. pose proof (chunks_spec s e M) as C. revert C d. generalize (chunks s e) as cs.
    induction cs as [|c cs IH]; intros C d I; cbn [fold_left]; [now apply grows_refl|].
    destruct (C c (or_introl eq_refl)) as (C1 & C2 & _). destruct (chunk_grows data c d A C1 C2 I) as (G & _).
    eapply grows_weaken; [|eapply grows_trans; [exact G|apply (IH (fun x X => C x (or_intror X)) _ (proj1 G))]]. cbn. tauto.
  Qed.
  Lemma step_grows o d : sound_op o -> in_order d -> grows d (step t0 delta buffer d o) (sends o).
  Proof.
    intros S I. destruct o as [ro s e a|s e data]; cbn [step]; [now apply request_grows|]. destruct S as [A M]. now apply download_grows.
  Qed.
  Lemma history_grows ops : (forall o, In o ops -> sound_op o) -> forall d, in_order d ->
    grows d (history t0 delta buffer d ops) (fun n v => exists o, In o ops /\ sends o n v).
  Proof.
    unfold history. induction ops as [|o ops IH]; intros S d I; cbn [fold_left]; [now apply grows_refl|].
    pose proof (step_grows o d (S o (or_introl eq_refl)) I) as G.
    eapply grows_weaken; [|eapply grows_trans; [exact G|apply (IH (fun x X => S x (or_intror X)) _ (proj1 G))]].
    intros n v [H|(o' & H & H')]; [exists o; split; [now left|exact H]|exists o'; split; [now right|exact H']].
  Qed.
End Facts.
