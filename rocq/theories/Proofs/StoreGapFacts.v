From Coq Require Import Sorted.
From Verif Require Import Lib.Base Lib.Time Lib.TimeFacts Model.Archive Model.StoreClient Spec.ArchiveSpec Spec.StoreSpec Proofs.ArchiveFacts
  Proofs.StoreFacts Proofs.StoreReadFacts.
Local Open Scope Z_scope.
#[local] Ltac Zify.zify_post_hook ::= Z.div_mod_to_equations.

Lemma all_of_samples tr : all_of tr = samples_from (t_lo tr) (t_vals tr).
Proof.
  unfold all_of, piece_of, samples_from. generalize (t_lo tr) as lo. generalize (t_vals tr) as l. intros l lo.
  rewrite <- (map_id l) at 3. 
  assert (H : forall (l : list Z) i, map (fun k => (lo + Z.of_nat (i + k), nth k l 0)) (seq 0 (length l)) = combine (map (fun k => lo + Z.of_nat (i + k)) (seq 0 (length l))) l).
  { clear l. induction l as [|x l IH]; intros i; [reflexivity|]. cbn [length seq map combine]. rewrite <- seq_shift, !map_map. f_equal.
    specialize (IH (S i)). rewrite (map_ext _ (fun k => lo + Z.of_nat (S i + k))) by (intros; f_equal; lia).
    rewrite <- IH. apply map_ext. intros k. cbn [nth]. f_equal. f_equal. lia. }
  rewrite map_id. exact (H l 0%nat).
Qed.
Lemma ascending_ext p q : ascending p -> ascending q -> (forall n v, In (n, v) p <-> In (n, v) q) -> p = q.
Proof.
  intros P. revert q. induction P as [|[n v] p P IH F]; intros q Q H.
  - destruct q as [|[m u] q]; [reflexivity|]. destruct (proj2 (H m u) (or_introl eq_refl)).
  - destruct Q as [|[m u] q Q G]; [destruct (proj1 (H n v) (or_introl eq_refl))|].
    rewrite Forall_forall in F, G. assert (E : (n, v) = (m, u)).
    { destruct (proj1 (H n v) (or_introl eq_refl)) as [E|I]; [congruence|]. destruct (proj2 (H m u) (or_introl eq_refl)) as [E|J]; [congruence|].
      specialize (F _ J). specialize (G _ I). cbn in *. lia. }
    injection E as <- <-. f_equal. apply IH; [exact Q|]. intros a b. specialize (H a b). split; intros I.
    + destruct (proj1 H (or_intror I)) as [E|J]; [|exact J]. injection E as <- <-. specialize (F _ I). cbn in F. lia.
    + destruct (proj2 H (or_intror I)) as [E|J]; [|exact J]. injection E as <- <-. specialize (G _ I). cbn in G. lia.
Qed.

Section Facts.
  Variables t0 delta buffer : Z.
  Hypothesis HD : 0 < delta <= day.
  Hypothesis HB : 0 < buffer.
  Notation stime := (stime t0 delta).
  Notation in_order := (in_order t0 delta).

  (** a trace within one day is written in one piece *)
  Lemma one_day_pieces tr : (2 <= length (t_vals tr))%nat -> same_day (stime (t_lo tr)) (stime (t_lo tr + Z.of_nat (length (t_vals tr)) - 1)) ->
    day_pieces t0 delta tr = Some [(file_of (stime (t_lo tr)), all_of tr)].
  Proof.
    intros L S. unfold day_pieces. cbv zeta. set (w := wave_of t0 delta tr).
    assert (WE : w_end w = stime (t_lo tr + Z.of_nat (length (t_vals tr)) - 1)).
    { unfold w_end, w_time, w, wave_of, StoreClient.stime. cbn [w_start w_delta w_npts]. rewrite Nat2Z.inj_sub by lia. lia. }
    assert (WS : w_start w = stime (t_lo tr)) by reflexivity.
    apply same_day_div in S. rewrite <- WE, <- WS in S.
    replace (w_end w / day - w_start w / day + 1) with 1 by lia. cbn [Z.to_nat Pos.to_nat Pos.iter_op write_loop].
    assert (LT : w_start w < w_end w). { rewrite WE, WS. unfold StoreClient.stime. nia. }
    destruct (Z.ltb_spec (w_start w) (w_end w)) as [_|]; [|lia].
    assert (NM : w_end w < next_midnight (w_start w)). { rewrite next_midnight_eq. rewrite day_val in *. lia. }
    change (Pos.to_nat 1) with 1%nat. cbn [write_loop].
    destruct (Z.ltb_spec (w_start w) (w_end w)) as [_|]; [|lia].
    destruct (Z.ltb_spec (next_midnight (w_start w)) (w_end w)) as [|_]; [lia|]. cbn [option_map map fst snd]. f_equal. f_equal.
    unfold all_of. f_equal. f_equal. unfold trim_idx. change (w_npts w) with (length (t_vals tr)).
    assert (G : forall l, (forall k, In k l -> (k < length (t_vals tr))%nat) -> filter (fun k => (w_start w <=? w_time w k) && (w_time w k <=? next_midnight (w_start w))) l = l).
    { induction l as [|k l IH]; intros B; [reflexivity|]. cbn [filter]. rewrite IH by (intros; apply B; now right).
      assert (K := B k (or_introl eq_refl)).
      assert (w_start w <= w_time w k) by (unfold w_time; cbn [w_delta w wave_of]; nia).
      assert (w_time w k <= w_end w) by (unfold w_end, w_time, w, wave_of; cbn [w_delta w_npts w_start]; nia).
      replace ((w_start w <=? w_time w k) && (w_time w k <=? next_midnight (w_start w))) with true by lia. reflexivity. }
    apply G. intros k K. apply in_seq in K. lia.
  Qed.

  Lemma put_same k p : put k p [(k, p)] = [(k, p)].
  Proof. unfold put. cbn [filter fst]. destruct (key_eqb_spec k k); [reflexivity|contradiction]. Qed.
  Lemma file_same k p : file [(k, p)] k = Some p.
  Proof. unfold file. cbn [find fst]. destruct (key_eqb_spec k k); [reflexivity|contradiction]. Qed.
  Lemma all_of_ascending tr : ascending (all_of tr).
  Proof. unfold all_of, piece_of. apply sorted_map_seq. intros i j H. cbn. lia. Qed.
  Lemma all_of_nonempty tr : t_vals tr <> [] -> all_of tr <> [].
  Proof. intros N. unfold all_of, piece_of. destruct (t_vals tr); [contradiction|discriminate]. Qed.
  Lemma sds_write_again tr : t_vals tr <> [] -> sds_write (Some (all_of tr)) (all_of tr) = Ok (all_of tr).
  Proof.
    intros N. destruct (sds_append (t_lo tr) (t_vals tr) (t_lo tr) (t_vals tr) N N) as (I & _). rewrite <- all_of_samples in I.
    destruct (proj2 I) as [c C].
    { split; [lia|]. split; [lia|]. intros n x y X Y. apply (ascending_lookup _ _ _ (all_of_ascending tr)) in X, Y. congruence. }
    rewrite C. f_equal. destruct (sds_write_stored (Some (all_of tr)) (all_of tr) c) as (_ & A & M); try exact C;
      try apply all_of_ascending; try now apply all_of_nonempty.
    { intros a [= <-]. split; [now apply all_of_nonempty|apply all_of_ascending]. }
    apply ascending_ext; [exact A|apply all_of_ascending|]. intros n v. rewrite M. split; [|now right].
    intros [(a & [= <-] & J)|J]; exact J.
  Qed.
  Lemma sds_write_gap a b : t_vals a <> [] -> t_vals b <> [] -> t_lo a + Z.of_nat (length (t_vals a)) < t_lo b ->
    sds_write (Some (all_of a)) (all_of b) = Raise NotImplementedError.
  Proof.
    intros Na Nb G. destruct (sds_append (t_lo a) (t_vals a) (t_lo b) (t_vals b) Na Nb) as (I & _ & R). rewrite <- !all_of_samples in *.
    destruct (sds_write (Some (all_of a)) (all_of b)) as [c|e] eqn:E; [|now rewrite (R e)].
    destruct (proj1 I (ex_intro _ c eq_refl)) as (X & _). lia.
  Qed.

  (** two traces of a day with a gap between them *)
  Lemma gap_request a b s e d ro' :
    let k := file_of (stime (t_lo a)) in
    (2 <= length (t_vals a))%nat -> (2 <= length (t_vals b))%nat -> t_lo a + Z.of_nat (length (t_vals a)) < t_lo b ->
    same_day (stime (t_lo a)) (stime (t_lo b + Z.of_nat (length (t_vals b)) - 1)) ->
    stime (t_lo a + Z.of_nat (length (t_vals a)) - 1) + delta < e ->
    d = [] \/ d = [(k, all_of a)] -> ro' = false ->
    get_waveforms t0 delta buffer ro' s e (Some [a; b]) d = ([(k, all_of a)], Raise NotImplementedError).
  Proof.
    intros k La Lb G S Te Hd ->.
    assert (Na : t_vals a <> []) by (intros X; rewrite X in La; cbn in La; lia).
    assert (Nb : t_vals b <> []) by (intros X; rewrite X in Lb; cbn in Lb; lia).
    assert (mono : forall x y, x <= y -> stime x <= stime y) by (intros; unfold StoreClient.stime; nia).
    assert (Sa : same_day (stime (t_lo a)) (stime (t_lo a + Z.of_nat (length (t_vals a)) - 1))).
    { destruct S as (q & Q1 & Q2). exists q. split; [exact Q1|]. pose proof (mono (t_lo a) (t_lo a + Z.of_nat (length (t_vals a)) - 1) ltac:(lia)).
      pose proof (mono (t_lo a + Z.of_nat (length (t_vals a)) - 1) (t_lo b + Z.of_nat (length (t_vals b)) - 1) ltac:(lia)). lia. }
    assert (Sb : same_day (stime (t_lo b)) (stime (t_lo b + Z.of_nat (length (t_vals b)) - 1))).
    { destruct S as (q & Q1 & Q2). exists q. split; [|exact Q2]. pose proof (mono (t_lo a) (t_lo b) ltac:(lia)).
      pose proof (mono (t_lo b) (t_lo b + Z.of_nat (length (t_vals b)) - 1) ltac:(lia)). lia. }
    assert (Kb : file_of (stime (t_lo b)) = k).
    { unfold k. symmetry. apply same_day_file. destruct S as (q & Q1 & Q2), Sb as (q' & Q1' & Q2'). exists q. rewrite day_val in *. split; [exact Q1|]. lia. }
    assert (IO : in_order [(k, all_of a)]).
    { intros k' p F. unfold file in F. cbn [find fst] in F. destruct (key_eqb_spec k k') as [<-|]; [|discriminate]. injection F as <-.
      split; [now apply all_of_nonempty|]. split; [apply all_of_ascending|]. intros n v I. exists (stime (t_lo a)). split; [reflexivity|]. left.
      apply all_of_in in I as [I1 I2]. assert (Z.to_nat (n - t_lo a) < length (t_vals a))%nat by (apply nth_error_Some; congruence).
      destruct Sa as (q & Q1 & Q2). exists q. split; [exact Q1|]. pose proof (mono (t_lo a) n ltac:(lia)).
      pose proof (mono n (t_lo a + Z.of_nat (length (t_vals a)) - 1) ltac:(lia)). lia. }
    unfold get_waveforms. cbv zeta.
    assert (U : use_local true (map (seg_of t0 delta) (runs (read_samples t0 delta buffer d s e))) s e = false).
    { destruct (use_local _ _ _ _) eqn:U; [exfalso|reflexivity]. apply use_local_iff in U as (f & l & F & L & _ & U).
      set (p := read_samples t0 delta buffer d s e) in *.
      assert (N : p <> []) by (intros X; rewrite X in F; discriminate).
      assert (P : forall n v, In (n, v) p -> In (n, v) (all_of a)).
      { intros n v I. destruct Hd as [-> | ->].
        - apply read_in in I as [_ I]. apply first_value_some in I as (q & I & _). apply in_map_iff in I as (x & I & _). discriminate.
        - destruct (read_only_archived t0 delta buffer HD _ s e n v IO I) as [(k' & q & Fq & J) _]. unfold file in Fq. cbn [find fst] in Fq.
          destruct (key_eqb_spec k k'); [|discriminate]. injection Fq as <-. exact J. }
      destruct (runs_ends p N) as (f' & l' & _ & L' & _ & E'). rewrite <- map_rev in L. destruct (rev (runs p)) as [|x r]; [discriminate|].
      cbn in L, L'. injection L as <-. injection L' as ->. cbn [seg_of s_end s_delta] in U. rewrite E' in U.
      destruct (last_no_in p N) as [v V]. apply P, all_of_in in V as [V1 V2].
      assert (Z.to_nat (last_no p - t_lo a) < length (t_vals a))%nat by (apply nth_error_Some; congruence).
      pose proof (mono (last_no p) (t_lo a + Z.of_nat (length (t_vals a)) - 1) ltac:(lia)). lia. }
    rewrite U. cbn [length Nat.eqb negb andb write_local]. rewrite (one_day_pieces a La Sa), (one_day_pieces b Lb Sb), Kb. fold k.
    assert (W : write_pieces d [(k, all_of a)] = ([(k, all_of a)], None)).
    { cbn [write_pieces]. destruct Hd as [-> | ->]; [reflexivity|]. rewrite file_same, sds_write_again by exact Na. now rewrite put_same. }
    rewrite W. cbn [write_pieces]. rewrite file_same, sds_write_gap by assumption. reflexivity.
  Qed.

  (** days without files *)
  Lemma write_pieces_new ps : NoDup (map fst ps) -> forall d, (forall k, In k (map fst ps) -> file d k = None) -> snd (write_pieces d ps) = None.
  Proof.
    induction ps as [|[k p] ps IH]; intros N d F; [reflexivity|]. cbn [write_pieces]. cbn [map fst] in N. inversion N as [|? ? N1 N2]; subst.
    rewrite (F k) by now left. cbn [sds_write]. apply IH; [exact N2|]. intros k' K. rewrite file_put. destruct (key_eqb_spec k k') as [<-|_]; [contradiction|].
    apply F. now right.
  Qed.
  Lemma loop_piece_day w : 0 < w_delta w < day -> (0 < w_npts w)%nat -> forall m start ps, write_loop m w start = Some ps ->
    (start = w_start w \/ w_start w <= start /\ is_midnight start) ->
    forall s ks, In (s, ks) ps -> w_start w <= s /\ exists k, (k < w_npts w)%nat /\ same_day s (w_time w k).
  Proof.
    intros D N. induction m as [|m IH]; intros start ps E ST s ks I; cbn [write_loop] in E; destruct (Z.ltb_spec start (w_end w)) as [L|L];
      try discriminate; try (injection E as <-; destruct I).
    destruct (write_loop m w (next_midnight start)) as [r|] eqn:R; [|discriminate]. cbn in E. injection E as <-.
    pose proof (next_midnight_eq start) as NM.
    assert (S0 : w_start w <= start) by (destruct ST as [->|[H _]]; lia).
    destruct I as [X|X].
    - injection X as <- <-. split; [exact S0|]. destruct ST as [ST|[_ [q Q]]]; [rewrite ST|].
      + exists 0%nat. split; [lia|]. replace (w_time w 0) with (w_start w) by (unfold w_time; cbn; lia). exists (w_start w / day). rewrite day_val. lia.
      + set (k := Z.to_nat ((start - w_start w + w_delta w - 1) / w_delta w)).
        assert (K0 : 0 <= (start - w_start w + w_delta w - 1) / w_delta w) by (apply Z.div_pos; lia).
        assert (K1 : start <= w_time w k < start + w_delta w).
        { unfold w_time, k. rewrite Z2Nat.id by exact K0. pose proof (Z.div_mod (start - w_start w + w_delta w - 1) (w_delta w)).
          pose proof (Z.mod_pos_bound (start - w_start w + w_delta w - 1) (w_delta w)). nia. }
        exists k. split; [|exists q; lia].
        destruct (Nat.lt_ge_cases k (w_npts w)) as [G|G]; [exact G|exfalso].
        assert (w_time w (k - 1) < start).
        { unfold w_time in *. destruct k as [|k']; [lia|]. replace (S k' - 1)%nat with k' by lia. rewrite Nat2Z.inj_succ in K1. lia. }
        unfold w_end, w_time in *. nia.
    - apply (IH _ _ R) with (ks := ks); [|exact X]. right. split; [rewrite NM, day_val; lia|]. exists (start / day + 1). exact NM.
  Qed.
  Lemma write_pieces_other ps : forall d k, ~ In k (map fst ps) -> file (fst (write_pieces d ps)) k = file d k.
  Proof.
    induction ps as [|[k' p] ps IH]; intros d k N; [reflexivity|]. cbn [write_pieces]. destruct (sds_write (file d k') p) as [c|x]; [|reflexivity].
    rewrite IH by (intros X; apply N; now right). rewrite file_put. destruct (key_eqb_spec k' k) as [<-|_]; [destruct N; now left|reflexivity].
  Qed.
  Lemma day_pieces_keys tr : t_vals tr <> [] -> delta < day -> - epoch_day * day <= stime (t_lo tr) ->
    exists ps, day_pieces t0 delta tr = Some ps /\ NoDup (map fst ps) /\ forall k, In k (map fst ps) -> exists n v, In (n, v) (all_of tr) /\ k = file_of (stime n).
  Proof.
    intros N D T. unfold day_pieces. cbv zeta. set (w := wave_of t0 delta tr).
    assert (L : (0 < w_npts w)%nat) by (cbn; destruct (t_vals tr); [contradiction|cbn; lia]).
    destruct (write_loop_correct w (proj1 HD) _ (w_start w) (le_n _)) as (ps & E & _ & _ & _ & SS & _). rewrite E. cbn [option_map].
    pose proof (loop_piece_day w (conj (proj1 HD) D) L _ _ _ E (or_introl eq_refl)) as P.
    eexists. split; [reflexivity|]. split.
    - rewrite map_map. cbn [fst]. change (w_start w) with (stime (t_lo tr)) in P. clear - SS P T. induction SS as [|[s1 k1] ps S IH G]; [constructor|]. cbn [map fst].
      constructor; [|apply IH; intros; eapply P; right; eassumption]. intros I. apply in_map_iff in I as ([s2 k2] & Q & I). cbn [fst] in Q.
      rewrite Forall_forall in G. specialize (G _ I). cbn [fst] in G.
      destruct (P s1 k1 (or_introl eq_refl)) as [P1 _]. destruct (P s2 k2 (or_intror I)) as [P2 _].
      apply file_of_inj in Q; lia.
    - intros k K. rewrite map_map in K. cbn [fst] in K. apply in_map_iff in K as ([s1 k1] & <- & I). cbn [fst].
      destruct (P s1 k1 I) as (_ & i & B & Q). rewrite (same_day_file _ _ Q).
      exists (t_lo tr + Z.of_nat i), (nth i (t_vals tr) 0). split.
      + unfold all_of, piece_of. apply in_map_iff. exists i. split; [reflexivity|]. apply in_seq. cbn in B. lia.
      + f_equal. unfold w_time, w, wave_of, StoreClient.stime. cbn. lia.
  Qed.
  Lemma write_local_new trs : delta < day ->
    Forall (fun tr => t_vals tr <> [] /\ - epoch_day * day <= stime (t_lo tr)) trs ->
    ForallOrdPairs (fun a b => forall n v m u, In (n, v) (all_of a) -> In (m, u) (all_of b) -> file_of (stime n) <> file_of (stime m)) trs ->
    forall d, (forall tr n v, In tr trs -> In (n, v) (all_of tr) -> file d (file_of (stime n)) = None) -> snd (write_local t0 delta d trs) = None.
  Proof.
    intros D. induction trs as [|tr trs IH]; intros G O d F; [reflexivity|]. inversion G as [|? ? [N T] G']; subst. inversion O as [|? ? O1 O2]; subst.
    destruct (day_pieces_keys tr N D T) as (ps & E & ND & K). cbn [write_local]. rewrite E.
    assert (X : snd (write_pieces d ps) = None).
    { apply write_pieces_new; [exact ND|]. intros k I. destruct (K k I) as (n & v & J & ->). apply (F tr n v); [now left|exact J]. }
    pose proof (write_pieces_other ps d) as Q. destruct (write_pieces d ps) as [d' [x|]]; [discriminate|]. cbn [fst] in Q.
    apply IH; [exact G'|exact O2|]. intros b m u Ib Im. rewrite Q; [apply (F b m u); [now right|exact Im]|].
    intros I. destruct (K _ I) as (n & v & J & Y). rewrite Forall_forall in O1. exact (O1 b Ib n v m u J Im (eq_sym Y)).
  Qed.
  Lemma new_days_several trs d s e : trs <> [] -> delta < day ->
    Forall (fun tr => t_vals tr <> [] /\ - epoch_day * day <= stime (t_lo tr)) trs ->
    ForallOrdPairs (fun a b => forall n v m u, In (n, v) (all_of a) -> In (m, u) (all_of b) -> file_of (stime n) <> file_of (stime m)) trs ->
    (forall tr n v, In tr trs -> In (n, v) (all_of tr) -> file d (file_of (stime n)) = None) ->
    in_order d -> (forall n v, archived d n v -> ~ (2 * s - delta <= 2 * stime n <= 2 * e + delta)) ->
    snd (get_waveforms t0 delta buffer false s e (Some trs) d) = Ok (map all_of trs).
  Proof.
    intros NE D G O F IO A. unfold get_waveforms. cbv zeta.
    assert (R : read_samples t0 delta buffer d s e = []).
    { destruct (read_samples t0 delta buffer d s e) as [|[n v] p] eqn:E; [reflexivity|exfalso].
      destruct (read_only_archived t0 delta buffer HD d s e n v IO) as [X Y]; [rewrite E; now left|]. exact (A n v X Y). }
    rewrite R. cbn [runs map use_local]. pose proof (write_local_new trs D G O d F) as W.
    destruct trs as [|tr trs]; [congruence|]. cbn [length Nat.eqb negb andb]. destruct (write_local t0 delta d (tr :: trs)) as [d' [x|]]; [discriminate|reflexivity].
  Qed.

  (** mass downloads *)
  Lemma download_keeps data s e d k p : file d k = Some p -> file (download t0 delta data s e d) k = Some p.
  Proof.
    unfold download. revert d. induction (chunks s e) as [|c cs IH]; intros d F; [exact F|]. cbn [fold_left]. apply IH. unfold download_chunk.
    destruct (file d (file_of (fst c))) eqn:G; [exact F|]. destruct (filter _ data); [exact F|]. rewrite file_put.
    destruct (key_eqb_spec (file_of (fst c)) k) as [<-|_]; [congruence|exact F].
  Qed.
  Lemma download_complete data s e d n v : ascending data -> is_midnight s -> - epoch_day * day <= s -> in_order d ->
    In (n, v) data -> s <= stime n < e -> file d (file_of (stime n)) = None -> archived (download t0 delta data s e d) n v.
  Proof.
    intros A M T0 IO I T F. unfold download.
    set (c0 := (date (stime n), Z.min (date (stime n) + day) e)).
    assert (IC : In c0 (chunks s e)).
    { unfold chunks, arange. rewrite map_map. apply in_map_iff. destruct M as [q Q]. exists (Z.to_nat (stime n / day - q)). unfold c0. rewrite date_eq.
      assert (q <= stime n / day) by (rewrite Q, day_val in *; lia).
      replace (s + Z.of_nat (Z.to_nat (stime n / day - q)) * day) with (stime n / day * day) by (rewrite Z2Nat.id by lia; lia).
      split; [reflexivity|]. apply in_seq. unfold arange_len. rewrite Q, day_val in *. lia. }
    pose proof (chunks_spec delta HD s e M) as CS. revert CS d IO F IC. generalize (chunks s e) as cs.
    induction cs as [|c cs IH]; intros CS d IO F IC; [destruct IC|]. cbn [fold_left].
    destruct (CS c (or_introl eq_refl)) as (C1 & C2 & C3 & C4). destruct (chunk_grows t0 delta HD data c d A C1 C2 IO) as (G & H & K).
    destruct (Z.eq_dec (fst c) (date (stime n))) as [E|E].
    - assert (AR : archived (download_chunk t0 delta data d c) n v).
      { assert (FD : file_of (fst c) = file_of (stime n)). { apply same_day_file, same_day_div. rewrite E, date_eq, Z.div_mul by (rewrite day_val; lia). reflexivity. }
        apply H; [now rewrite FD|exact I|]. rewrite C4, E, date_eq. rewrite day_val in *. lia. }
      assert (CS' : forall x, In x cs -> _) by (intros x X; exact (CS x (or_intror X))).
      revert AR. generalize (proj1 G). generalize (download_chunk t0 delta data d c) as d1. clear - CS' A HD.
      induction cs as [|c' cs IH]; intros d1 IO AR; [exact AR|]. cbn [fold_left]. destruct (CS' c' (or_introl eq_refl)) as (C1 & C2 & _).
      destruct (chunk_grows t0 delta HD data c' d1 A C1 C2 IO) as ((G1 & G2 & _) & _). apply IH; auto. intros x X. apply CS'. now right.
    - apply IH; [intros x X; exact (CS x (or_intror X))|exact (proj1 G)| |].
      + rewrite K; [exact F|]. intros Q. apply E. apply file_of_inj in Q; [|lia|lia]. destruct C1 as [q C1]. rewrite date_eq, C1 in *.
        rewrite Z.div_mul in Q by (rewrite day_val; lia). now rewrite Q.
      + destruct IC as [->|IC]; [|exact IC]. exfalso. apply E. reflexivity.
  Qed.
End Facts.
