(** Proofs about Model.Archive. *)
From Coq Require Import Permutation Sorted.
From Verif Require Import Lib.Base Lib.Str Lib.StrFacts Lib.Sorting Lib.Time Lib.TimeFacts Model.Archive Spec.ArchiveSpec.
Local Open Scope Z_scope.
#[local] Ltac Zify.zify_post_hook ::= Z.div_mod_to_equations.

Lemma day_val : day = 86400000000000.
Proof. reflexivity. Qed.
Lemma date_eq t : date t = t / day * day.
Proof. reflexivity. Qed.
Lemma next_midnight_eq t : next_midnight t = (t / day + 1) * day.
Proof.
  unfold next_midnight, date. rewrite day_val. change (86400 * sec * 3 / 2) with 129600000000000. lia.
Qed.

Lemma same_day_div a b : same_day a b <-> a / day = b / day.
Proof.
  unfold same_day. rewrite day_val. split.
  - intros (d & H & H0). lia.
  - intros H. exists (a / 86400000000000). lia.
Qed.
Lemma same_day_file a b : same_day a b -> file_of a = file_of b.
Proof.
  rewrite same_day_div. intros H. unfold file_of, year_of, doy_of, daynum. rewrite H. reflexivity.
Qed.

Lemma in_trim w s e k : In k (trim_idx w s e) <-> (k < w_npts w)%nat /\ s <= w_time w k <= e.
Proof.
  unfold trim_idx. rewrite filter_In, in_seq. rewrite andb_true_iff, !Z.leb_le. split; intros; intuition lia.
Qed.

Lemma write_loop_correct w (Hd : 0 < w_delta w) : forall m start, (Z.to_nat (w_end w / day - start / day + 1) <= m)%nat ->
  exists pieces, write_loop m w start = Some pieces /\
    (forall s ks k, In (s, ks) pieces -> In k ks ->
       (k < w_npts w)%nat /\ (same_day s (w_time w k) \/ ends_day_of (w_time w k) s)) /\
    (forall k, (k < w_npts w)%nat -> start <= w_time w k -> start < w_end w ->
       (w_time w k < w_end w \/ ~ is_midnight (w_end w)) ->
       exists s ks, In (s, ks) pieces /\ In k ks /\ same_day s (w_time w k)) /\
    (start < w_end w -> exists ks r, pieces = (start, ks) :: r) /\
    StronglySorted (fun a b => fst a / day < fst b / day) pieces /\
    Forall (fun a => start / day <= fst a / day) pieces.
Proof.
  assert (Hk : forall k, (k < w_npts w)%nat -> w_time w k <= w_end w).
  { intros k Hk. unfold w_end, w_time. nia. }
  induction m as [|m IH]; intros start Hm.
  - assert (~ start < w_end w). { intros L. rewrite day_val in *. lia. }
    exists []. cbn [write_loop]. destruct (Z.ltb_spec start (w_end w)); [contradiction|].
    split; [reflexivity|]. split; [intros s ks k []|]. split; [intros; lia|]. split; [lia|]. split; constructor.
  - cbn [write_loop]. destruct (Z.ltb_spec start (w_end w)) as [L|L].
    2:{ exists []. split; [reflexivity|]. split; [intros s ks k []|]. split; [intros; lia|]. split; [lia|]. split; constructor. }
    destruct (IH (next_midnight start)) as (ps & E & A & B & C & SS & FF).
    { rewrite next_midnight_eq, day_val in *. lia. }
    clear Hm. rewrite E. cbn [option_map]. eexists. split; [reflexivity|]. split; [|split; [|split; [|split]]].
    + intros s ks k [X|X] K.
      * injection X as <- <-. apply in_trim in K as (K & T). split; [exact K|].
        rewrite next_midnight_eq in T. destruct (Z.eq_dec (w_time w k) ((start / day + 1) * day)) as [Q|Q].
        -- right. split; [now exists (start / day + 1)|]. rewrite Q. rewrite day_val in *. lia.
        -- left. exists (start / day). rewrite day_val in *. lia.
      * exact (A s ks k X K).
    + intros k K T _ Q. destruct (Z_lt_le_dec (w_time w k) (next_midnight start)) as [M|M].
      * exists start, (trim_idx w start (next_midnight start)). split; [now left|]. split.
        -- apply in_trim. lia.
        -- rewrite next_midnight_eq in M. exists (start / day). rewrite day_val in *. lia.
      * destruct (B k K M) as (s & ks & X & Y & Z0).
        -- destruct Q as [Q|Q]; [lia|]. specialize (Hk k K).
           destruct (Z.eq_dec (next_midnight start) (w_end w)) as [N|N]; [|lia].
           exfalso. apply Q. exists (start / day + 1). rewrite <- N. apply next_midnight_eq.
        -- exact Q.
        -- exists s, ks. split; [now right|]. auto.
    + intros _. eauto.
    + constructor; [exact SS|]. rewrite Forall_forall in *. intros [s ks] X. specialize (FF _ X). cbn [fst] in *.
      rewrite next_midnight_eq, day_val in *. lia.
    + constructor; [cbn [fst]; lia|]. rewrite Forall_forall in *. intros [s ks] X. specialize (FF _ X). cbn [fst] in *.
      rewrite next_midnight_eq, day_val in *. lia.
Qed.

(** a single sample is not written at all *)
Lemma write_single w fuel : w_npts w = 1%nat -> write_loop fuel w (w_start w) = Some [].
Proof.
  intros H. assert (E : w_end w = w_start w) by (unfold w_end, w_time; rewrite H; cbn; lia).
  destruct fuel; cbn [write_loop]; rewrite E, Z.ltb_irrefl; reflexivity.
Qed.

(** ** appending to a day file *)
Lemma samples_in lo vals n v : In (n, v) (samples_from lo vals) <-> lo <= n /\ nth_error vals (Z.to_nat (n - lo)) = Some v.
Proof.
  unfold samples_from. revert lo. induction vals as [|x r IH]; intros lo.
  - cbn. split; [tauto|]. intros [_ H]. destruct (Z.to_nat (n - lo)); discriminate.
  - cbn [length seq map combine]. rewrite <- seq_shift, map_map.
    rewrite (map_ext _ (fun k => (lo + 1) + Z.of_nat k)) by (intros; lia).
    cbn [In]. rewrite IH. split.
    + intros [E|[L E]].
      * injection E as E <-. split; [lia|]. replace (Z.to_nat (n - lo)) with O by lia. reflexivity.
      * split; [lia|]. replace (Z.to_nat (n - lo)) with (S (Z.to_nat (n - (lo + 1)))) by lia. exact E.
    + intros [L E]. destruct (Z.eq_dec n lo) as [->|N].
      * left. replace (Z.to_nat (lo - lo)) with O in E by lia. injection E as ->. f_equal. lia.
      * right. split; [lia|]. replace (Z.to_nat (n - lo)) with (S (Z.to_nat (n - (lo + 1)))) in E by lia. exact E.
Qed.
Lemma lookup_samples lo vals n : lookup n (samples_from lo vals) =
  if lo <=? n then nth_error vals (Z.to_nat (n - lo)) else None.
Proof.
  unfold lookup. destruct (filter _ _) as [|[m v] r] eqn:E.
  - destruct (Z.leb_spec lo n); [|reflexivity]. destruct (nth_error vals (Z.to_nat (n - lo))) as [v|] eqn:Q; [|reflexivity].
    assert (I : In (n, v) (filter (fun x => fst x =? n) (samples_from lo vals))).
    { apply filter_In. split; [apply samples_in; auto|]. cbn. lia. }
    rewrite E in I. destruct I.
  - assert (I : In (m, v) (filter (fun x => fst x =? n) (samples_from lo vals))) by (rewrite E; now left).
    apply filter_In in I as [I M]. cbn in M. apply Z.eqb_eq in M. subst m. apply samples_in in I as [L I].
    destruct (Z.leb_spec lo n); [|lia]. cbn. auto.
Qed.
Lemma combine_snoc {A B} (l : list A) (r : list B) z x : length l = length r -> combine (l ++ [z]) (r ++ [x]) = combine l r ++ [(z, x)].
Proof. revert r. induction l as [|a l IH]; intros [|b r] L; try discriminate; cbn; [reflexivity|]. f_equal. apply IH. cbn in L. lia. Qed.
Lemma samples_bounds lo vals : vals <> [] ->
  first_no (samples_from lo vals) = lo /\ last_no (samples_from lo vals) = lo + Z.of_nat (length vals) - 1.
Proof.
  intros N. split.
  - destruct vals; [contradiction|]. cbn. lia.
  - destruct (exists_last N) as (r & x & ->). unfold last_no, samples_from.
    rewrite app_length. cbn [length]. rewrite Nat.add_1_r, seq_S, map_app. cbn [map].
    assert (L : length (map (fun k => lo + Z.of_nat k) (seq 0 (length r))) = length r) by now rewrite map_length, seq_length.
    generalize dependent (map (fun k => lo + Z.of_nat k) (seq 0 (length r))). intros l L.
    rewrite combine_snoc by exact L. rewrite rev_app_distr. cbn. lia.
Qed.
Lemma in_arange_1 lo hi n : In n (arange lo hi 1) <-> lo <= n < hi.
Proof.
  unfold arange, arange_len. rewrite Z.div_1_r, in_map_iff. split.
  - intros (k & <- & K). apply in_seq in K. lia.
  - intros H. exists (Z.to_nat (n - lo)). split; [lia|]. apply in_seq. lia.
Qed.
Lemma mapM_ok_in {A B} (f : A -> result B) l r : mapM f l = Ok r ->
  (forall y, In y r <-> exists x, In x l /\ f x = Ok y).
Proof.
  revert r. induction l as [|x l IH]; intros r E y; cbn in E.
  - injection E as <-. cbn. split; [tauto|]. intros (z & [] & _).
  - destruct (f x) as [b|] eqn:F; cbn in E; [|discriminate]. destruct (mapM f l) as [bs|] eqn:M; cbn in E; [|discriminate].
    injection E as <-. cbn [In]. rewrite (IH bs eq_refl). split.
    + intros [->|(z & Z1 & Z2)]; eauto.
    + intros (z & [->|Z1] & Z2); [left; congruence|eauto].
Qed.
Lemma mapM_ok_iff {A B} (f : A -> result B) l : (exists r, mapM f l = Ok r) <-> forall x, In x l -> exists y, f x = Ok y.
Proof.
  induction l as [|x l IH]; cbn.
  - split; [tauto|eauto].
  - split.
    + intros (r & E) z [<-|Z]; destruct (f x) as [b|] eqn:F; cbn in E; try discriminate; eauto.
      destruct (mapM f l) eqn:M; cbn in E; try discriminate. apply (proj1 IH); eauto.
    + intros H. destruct (H x) as [y F]; auto. rewrite F. cbn.
      destruct (proj2 IH) as [r E]; [intros; apply H; auto|]. rewrite E. cbn. eauto.
Qed.
Lemma mapM_raise {A B} (f : A -> result B) l e : (forall x e', f x = Raise e' -> e' = e) -> forall e', mapM f l = Raise e' -> e' = e.
Proof.
  intros H. induction l as [|x l IH]; cbn; intros e' E; [discriminate|].
  destruct (f x) eqn:F; cbn in E; [|injection E as <-; eauto]. destruct (mapM f l) eqn:M; cbn in E; [discriminate|]. injection E as <-. auto.
Qed.

(** Appending succeeds exactly if there is no gap between the stored and the new samples and they agree
    where they overlap; then exactly the samples of both are stored. *)
Lemma sds_append lo va lo' vb : va <> [] -> vb <> [] ->
  let a := samples_from lo va in let b := samples_from lo' vb in
  ((exists c, sds_write (Some a) b = Ok c) <->
     (lo' <= lo + Z.of_nat (length va) /\ lo <= lo' + Z.of_nat (length vb) /\
      forall n x y, In (n, x) a -> In (n, y) b -> x = y)) /\
  (forall c, sds_write (Some a) b = Ok c -> forall n v, In (n, v) c <-> In (n, v) a \/ In (n, v) b) /\
  (forall e, sds_write (Some a) b = Raise e -> e = NotImplementedError).
Proof.
  intros Na Nb a b. unfold sds_write.
  destruct (samples_bounds lo va Na) as [Fa La]. destruct (samples_bounds lo' vb Nb) as [Fb Lb].
  fold a in Fa, La. fold b in Fb, Lb. rewrite Fa, La, Fb, Lb.
  assert (Pa : (0 < length va)%nat) by (destruct va; [contradiction|cbn; lia]).
  assert (Pb : (0 < length vb)%nat) by (destruct vb; [contradiction|cbn; lia]).
  assert (Ia : forall n v, In (n, v) a <-> lookup n a = Some v).
  { intros. unfold a. rewrite samples_in, lookup_samples. destruct (Z.leb_spec lo n); split; intros; intuition (lia || discriminate). }
  assert (Ib : forall n v, In (n, v) b <-> lookup n b = Some v).
  { intros. unfold b. rewrite samples_in, lookup_samples. destruct (Z.leb_spec lo' n); split; intros; intuition (lia || discriminate). }
  assert (Da : forall n, (exists v, lookup n a = Some v) <-> lo <= n < lo + Z.of_nat (length va)).
  { intros. unfold a. rewrite lookup_samples. destruct (Z.leb_spec lo n) as [L|L].
    - destruct (nth_error va (Z.to_nat (n - lo))) eqn:E.
      + assert (Z.to_nat (n - lo) < length va)%nat by (apply nth_error_Some; congruence). split; eauto; lia.
      + apply nth_error_None in E. split; [intros [? ?]; discriminate|lia].
    - split; [intros [? ?]; discriminate|lia]. }
  assert (Db : forall n, (exists v, lookup n b = Some v) <-> lo' <= n < lo' + Z.of_nat (length vb)).
  { intros. unfold b. rewrite lookup_samples. destruct (Z.leb_spec lo' n) as [L|L].
    - destruct (nth_error vb (Z.to_nat (n - lo'))) eqn:E.
      + assert (Z.to_nat (n - lo') < length vb)%nat by (apply nth_error_Some; congruence). split; eauto; lia.
      + apply nth_error_None in E. split; [intros [? ?]; discriminate|lia].
    - split; [intros [? ?]; discriminate|lia]. }
  clearbody a b.
  set (f := fun n => match merged_at a b n with Some v => Ok (n, v) | None => Raise NotImplementedError end).
  assert (Hf : forall n nv, f n = Ok nv -> fst nv = n /\ merged_at a b n = Some (snd nv)).
  { intros n nv. unfold f. destruct (merged_at a b n); intros E; inversion E; auto. }
  assert (OK : (exists c, mapM f (arange (Z.min lo lo') (Z.max (lo + Z.of_nat (length va) - 1) (lo' + Z.of_nat (length vb) - 1) + 1) 1) = Ok c) <->
     (lo' <= lo + Z.of_nat (length va) /\ lo <= lo' + Z.of_nat (length vb) /\ forall n x y, In (n, x) a -> In (n, y) b -> x = y)).
  { rewrite mapM_ok_iff. split.
    - intros H. assert (G : forall n, Z.min lo lo' <= n < Z.max (lo + Z.of_nat (length va)) (lo' + Z.of_nat (length vb)) ->
        exists v, merged_at a b n = Some v).
      { intros n Hn. destruct (H n) as [y F]; [apply in_arange_1; lia|]. apply Hf in F as [_ F]. eauto. }
      split; [|split].
      + destruct (Z_le_gt_dec lo' (lo + Z.of_nat (length va))); [assumption|exfalso].
        destruct (G (lo + Z.of_nat (length va))) as [v V]; [lia|]. unfold merged_at in V.
        destruct (lookup (lo + Z.of_nat (length va)) a) eqn:E1.
        { pose proof (proj1 (Da _) (ex_intro _ _ E1)). lia. }
        pose proof (proj1 (Db _) (ex_intro _ _ V)). lia.
      + destruct (Z_le_gt_dec lo (lo' + Z.of_nat (length vb))); [assumption|exfalso].
        destruct (G (lo' + Z.of_nat (length vb))) as [v V]; [lia|]. unfold merged_at in V.
        destruct (lookup (lo' + Z.of_nat (length vb)) a) eqn:E1.
        { pose proof (proj1 (Da _) (ex_intro _ _ E1)). lia. }
        pose proof (proj1 (Db _) (ex_intro _ _ V)). lia.
      + intros n x y X Y. apply Ia in X. apply Ib in Y.
        assert (R : lo <= n < lo + Z.of_nat (length va)) by (apply Da; eauto).
        assert (R' : lo' <= n < lo' + Z.of_nat (length vb)) by (apply Db; eauto).
        destruct (G n) as [v V]; [lia|]. unfold merged_at in V. rewrite X, Y in V.
        destruct (Z.eqb_spec x y); [assumption|discriminate].
    - intros (H1 & H2 & H3) n Hn. apply in_arange_1 in Hn. unfold f, merged_at.
      destruct (lookup n a) eqn:E1, (lookup n b) eqn:E2; eauto.
      + rewrite (H3 n z z0) by (now apply Ia + now apply Ib). rewrite Z.eqb_refl. eauto.
      + exfalso. assert (~ (lo <= n < lo + Z.of_nat (length va))) by (intros R; apply Da in R as [? ?]; congruence).
        assert (~ (lo' <= n < lo' + Z.of_nat (length vb))) by (intros R; apply Db in R as [? ?]; congruence). lia. }
  split; [exact OK|]. split.
  - intros c Hc n v. destruct (proj1 OK (ex_intro _ _ Hc)) as (_ & _ & Ag).
    rewrite (mapM_ok_in _ _ _ Hc). split.
    + intros (x & _ & F). apply Hf in F as [<- M]. cbn in *. unfold merged_at in M.
      rewrite Ia, Ib. destruct (lookup n a), (lookup n b); try discriminate; auto.
      destruct (Z.eqb_spec z z0); [left|]; congruence.
    + intros H. exists n. split.
      * apply in_arange_1. destruct H as [H|H]; [apply Ia in H; assert (lo <= n < lo + Z.of_nat (length va)) by (apply Da; eauto)
          |apply Ib in H; assert (lo' <= n < lo' + Z.of_nat (length vb)) by (apply Db; eauto)]; lia.
      * assert (M : merged_at a b n = Some v); [|unfold f; rewrite M; reflexivity].
        unfold merged_at. destruct H as [H|H].
        -- pose proof H as H'. apply Ia in H'. rewrite H'. destruct (lookup n b) eqn:E; [|reflexivity].
           rewrite (Ag n v z H) by now apply Ib. rewrite Z.eqb_refl. reflexivity.
        -- pose proof H as H'. apply Ib in H'. rewrite H'. destruct (lookup n a) eqn:E; [|reflexivity].
           rewrite (Ag n z v) by (auto; now apply Ia). now rewrite Z.eqb_refl.
  - apply mapM_raise. intros x e'. unfold f. destruct (merged_at a b x); congruence.
Qed.

(** ** coverage *)
Lemma rev_last {A} (l : list A) x d : last (x :: l) d = match rev (x :: l) with y :: _ => y | [] => d end.
Proof.
  destruct (exists_last (l := x :: l)) as (r & y & ->); [discriminate|].
  rewrite rev_app_distr. cbn. rewrite last_last. reflexivity.
Qed.
Lemma use_local_iff st a b : use_local true st a b = true <->
  exists f l, hd_error st = Some f /\ hd_error (rev st) = Some l /\
    s_start f - s_delta f <= a /\ b <= s_end l + s_delta l.
Proof.
  unfold use_local. cbn [andb]. destruct st as [|f r].
  - cbn. split; [discriminate|]. intros (f & l & E & _). discriminate.
  - cbn [hd_error]. destruct (rev (f :: r)) as [|l r'] eqn:E.
    + cbn. split; [discriminate|]. intros (f' & l & _ & E' & _). discriminate.
    + cbn [hd_error]. rewrite negb_orb, andb_true_iff, !negb_true_iff, !Z.ltb_ge. split.
      * intros [H1 H2]. exists f, l. auto.
      * intros (f' & l' & E1 & E2 & H). injection E1 as <-. injection E2 as <-. exact H.
Qed.
Lemma gapless_covers st l : gapless st -> hd_error (rev st) = Some l ->
  forall f, hd_error st = Some f -> covers st (s_start f - s_delta f) (s_end l + s_delta l).
Proof.
  induction st as [|f r IH]; intros G L f0 E; [discriminate|]. injection E as <-. intros t T.
  destruct r as [|g r'].
  - cbn in L. injection L as <-. exists f. split; [now left|]. exact T.
  - destruct G as [G1 G2]. assert (L' : hd_error (rev (g :: r')) = Some l).
    { cbn [rev] in L |- *. destruct (rev r' ++ [g]) eqn:Q; [destruct (rev r'); discriminate|]. exact L. }
    destruct (Z_le_gt_dec t (s_end f + s_delta f)).
    + exists f. split; [now left|]. lia.
    + destruct (IH G2 L' g eq_refl t) as (s & S1 & S2); [lia|]. exists s. split; [now right|auto].
Qed.

Lemma check_request_accepts n s l c : check_request n s l c = Ok tt.
Proof. unfold check_request. destruct (has_char "?" _), (has_char "*" _); reflexivity. Qed.

(** ** first and last day *)
Lemma key_le_total a b : key_le a b = true \/ key_le b a = true.
Proof.
  unfold key_le. destruct (Nat.ltb_spec (String.length a) (String.length b)); [now left|].
  destruct (Nat.ltb_spec (String.length b) (String.length a)); [now right|].
  replace (String.length a =? String.length b)%nat with true by (symmetry; apply Nat.eqb_eq; lia).
  replace (String.length b =? String.length a)%nat with true by (symmetry; apply Nat.eqb_eq; lia).
  cbn. apply str_le_total.
Qed.
Lemma key_le_trans a b c : key_le a b = true -> key_le b c = true -> key_le a c = true.
Proof.
  unfold key_le. rewrite !orb_true_iff, !andb_true_iff, !Nat.ltb_lt, !Nat.eqb_eq.
  intros [H|[H H1]] [H'|[H' H1']]; try (left; lia). right. split; [lia|]. eapply str_le_trans; eauto.
Qed.
Lemma key_le_dec a b : 0 <= a < 1000 -> 0 <= b < 1000 -> key_le (dec 3 a) (dec 3 b) = (a <=? b).
Proof.
  intros Ha Hb. unfold key_le. rewrite !dec_length, Nat.ltb_irrefl, Nat.eqb_refl. cbn [orb andb].
  unfold str_le, String.leb. rewrite dec_compare by (change (10 ^ Z.of_nat 3) with 1000; lia).
  unfold Z.leb. destruct (a ?= b); reflexivity.
Qed.

Lemma find_year_some files ys0 : (forall y, In y ys0 -> files y = []) -> forall y l r, l <> [] -> files y = l ->
  find_year files (ys0 ++ y :: r) = Ok (y, map julday l).
Proof.
  induction ys0 as [|y0 ys0 IH]; intros H y l r N E; cbn [app find_year].
  - rewrite E. destruct l; [contradiction|reflexivity].
  - rewrite H by now left. apply IH; auto. intros; apply H; now right.
Qed.
Lemma find_year_none files ys : (forall y, In y ys -> files y = []) -> find_year files ys = Raise IndexError.
Proof. induction ys as [|y r IH]; intros H; cbn; [reflexivity|]. rewrite H by now left. apply IH. intros; apply H; now right. Qed.

Lemma split_first {A} (p : A -> bool) l : existsb p l = true -> exists l1 x l2, l = l1 ++ x :: l2 /\ p x = true /\ forall y, In y l1 -> p y = false.
Proof.
  induction l as [|x r IH]; cbn; [discriminate|]. destruct (p x) eqn:E.
  - intros _. exists [], x, r. repeat split; auto. intros ? [].
  - cbn. intros H. destruct (IH H) as (l1 & z & l2 & -> & P & Q). exists (x :: l1), z, l2. repeat split; auto.
    intros y [<-|Y]; auto.
Qed.

Lemma sorted_app_lt ys a y b : StronglySorted Z.lt ys -> ys = a ++ y :: b -> forall z, In z b -> y < z.
Proof.
  intros H ->. induction a as [|x a IH]; cbn in H; inversion H; subst.
  - intros z Z0. rewrite Forall_forall in H3. auto.
  - auto.
Qed.
Lemma sorted_app_gt ys a y b : StronglySorted Z.lt ys -> ys = a ++ y :: b -> forall z, In z a -> z < y.
Proof.
  intros H ->. induction a as [|x a IH]; cbn in H; inversion H; subst; intros z [].
  - subst. rewrite Forall_forall in H3. apply H3. apply in_or_app. right. now left.
  - auto.
Qed.

(** what the files of one year give *)
Lemma days_of_year files ys y (A : sds_archive files ys) (Hy : In y ys) x :
  In x (map julday (files (dec 4 y))) ->
  exists d, x = dec 3 d /\ 1 <= d <= days_before_year (y + 1) - days_before_year y /\ 1 <= d <= 366 /\
            undec x = d /\ has_day files ys (days_before_year y + d - 1).
Proof.
  intros X. apply in_map_iff in X as (f & <- & F). destruct A as [_ A]. destruct (A y Hy) as [Y B].
  destruct (B f F) as (d & D1 & D2). exists d. rewrite D1.
  assert (1 <= d <= 366) by (unfold days_before_year in D2; lia).
  split; [reflexivity|]. split; [exact D2|]. split; [assumption|]. split; [apply undec_dec; change (10 ^ Z.of_nat 3) with 1000; lia|].
  exists y, f, d. repeat split; auto; lia.
Qed.
Lemma undec_year y : 1 <= y <= 9999 -> undec (dec 4 y) = y.
Proof. intros. apply undec_dec. change (10 ^ Z.of_nat 4) with 10000. lia. Qed.

(** a day of the archive lies in its year *)
Lemma has_day_year files ys n : sds_archive files ys -> has_day files ys n ->
  exists y f d, In y ys /\ In f (files (dec 4 y)) /\ julday f = dec 3 d /\ 1 <= d <= 366 /\
    n = days_before_year y + d - 1 /\ days_before_year y <= n < days_before_year (y + 1).
Proof.
  intros A (y & f & d & Y & F & J & D & ->). exists y, f, d.
  destruct (days_of_year files ys y A Y (julday f)) as (d' & E & D' & D'' & U & _); [now apply in_map|].
  assert (d' = d).
  { rewrite <- U, J. apply undec_dec. change (10 ^ Z.of_nat 3) with 1000. lia. }
  subst d'. repeat split; auto; lia.
Qed.

Theorem first_day files ys : sds_archive files ys -> (exists n, has_day files ys n) ->
  exists n, get_day files FirstDay (map (dec 4) ys) = Ok n /\ has_day files ys n /\
    forall m, has_day files ys m -> n <= m.
Proof.
  intros A (n0 & H0). pose proof A as [SS A'].
  assert (E : existsb (fun y => negb (match files (dec 4 y) with [] => true | _ => false end)) ys = true).
  { destruct H0 as (y & f & d & Y & F & _). apply existsb_exists. exists y. split; auto.
    destruct (files (dec 4 y)); [destruct F|reflexivity]. }
  destruct (split_first _ _ E) as (l1 & y & l2 & -> & P & Q).
  assert (Hy : In y (l1 ++ y :: l2)) by (apply in_or_app; right; now left).
  unfold get_day. rewrite map_app. cbn [map].
  rewrite (find_year_some files (map (dec 4) l1)) with (l := files (dec 4 y)); [| | |reflexivity].
  2:{ intros z Z0. apply in_map_iff in Z0 as (x & <- & X). specialize (Q x X). destruct (files (dec 4 x)); [reflexivity|discriminate]. }
  2:{ intros C. rewrite C in P. discriminate. }
  cbn [bind]. pose proof (sort_sorted key_le key_le_total key_le_trans (map julday (files (dec 4 y)))) as ST.
  pose proof (fun x => sort_in key_le x (map julday (files (dec 4 y)))) as SI.
  destruct (sort key_le (map julday (files (dec 4 y)))) as [|x s].
  { exfalso. destruct (files (dec 4 y)) as [|f fr]; [discriminate|]. destruct (proj2 (SI (julday f))). now left. }
  rewrite undec_year by now apply A'.
  destruct (days_of_year files _ y A Hy x) as (d & Ex & D & D' & U & HD); [apply SI; now left|].
  eexists. split; [reflexivity|]. rewrite U. split; [exact HD|].
  intros m M. destruct (has_day_year _ _ _ A M) as (y' & f & d' & Y' & F & J & Dd & Em & B).
  assert (y <= y').
  { apply in_app_or in Y' as [Y'|[Y'|Y']]; [|lia|].
    - specialize (Q _ Y'). destruct (files (dec 4 y')); [destruct F|discriminate].
    - pose proof (sorted_app_lt _ _ _ _ SS eq_refl _ Y'). lia. }
  destruct (Z.eq_dec y y') as [<-|N].
  - assert (I : In (julday f) (x :: s)) by (apply SI; now apply in_map). rewrite J, Ex in I.
    assert (d <= d'); [|lia]. destruct I as [I|I].
    + apply (f_equal undec) in I. rewrite !undec_dec in I by (change (10 ^ Z.of_nat 3) with 1000; lia). lia.
    + inversion ST as [|? ? _ FA]; subst. rewrite Forall_forall in FA. specialize (FA _ I). unfold le_rel in FA.
      rewrite key_le_dec in FA by lia. lia.
  - pose proof (days_before_year_mono (y + 1) y' ltac:(lia)). lia.
Qed.

Lemma sorted_last {A} (R : A -> A -> Prop) l x r : StronglySorted R l -> rev l = x :: r -> forall y, In y r -> R y x.
Proof.
  intros SS E. assert (El : l = rev r ++ [x]) by (rewrite <- (rev_involutive l), E; reflexivity). subst l. clear E.
  intros y Y. apply in_rev in Y. induction (rev r) as [|z q IH]; [destruct Y|].
  cbn in SS. inversion SS; subst. destruct Y as [->|Y]; auto.
  rewrite Forall_forall in H2. apply H2. apply in_or_app. right. now left.
Qed.

Theorem last_day files ys : sds_archive files ys -> (exists n, has_day files ys n) ->
  exists n, get_day files LastDay (map (dec 4) ys) = Ok (n + 1) /\ has_day files ys n /\
    forall m, has_day files ys m -> m <= n.
Proof.
  intros A (n0 & H0). pose proof A as [SS A'].
  assert (E : existsb (fun y => negb (match files (dec 4 y) with [] => true | _ => false end)) (rev ys) = true).
  { destruct H0 as (y & f & d & Y & F & _). apply existsb_exists. exists y. split; [now apply in_rev in Y|].
    destruct (files (dec 4 y)); [destruct F|reflexivity]. }
  destruct (split_first _ _ E) as (l1 & y & l2 & Er & P & Q).
  assert (Eys : ys = rev l2 ++ y :: rev l1).
  { rewrite <- (rev_involutive ys), Er, rev_app_distr. cbn. now rewrite <- app_assoc. }
  assert (Hy : In y ys) by (rewrite Eys; apply in_or_app; right; now left).
  unfold get_day. rewrite <- map_rev, Er, map_app. cbn [map].
  rewrite (find_year_some files (map (dec 4) l1)) with (l := files (dec 4 y)); [| | |reflexivity].
  2:{ intros z Z0. apply in_map_iff in Z0 as (x & <- & X). specialize (Q x X). destruct (files (dec 4 x)); [reflexivity|discriminate]. }
  2:{ intros C. rewrite C in P. discriminate. }
  cbn [bind]. pose proof (sort_sorted key_le key_le_total key_le_trans (map julday (files (dec 4 y)))) as ST.
  pose proof (fun x => sort_in key_le x (map julday (files (dec 4 y)))) as SI.
  destruct (rev (sort key_le (map julday (files (dec 4 y))))) as [|x s] eqn:R.
  { exfalso. destruct (files (dec 4 y)) as [|f fr]; [discriminate|].
    assert (I : In (julday f) (sort key_le (map julday (f :: fr)))) by (apply SI; now left).
    apply in_rev in I. rewrite R in I. destruct I. }
  assert (SR : forall z, In z (x :: s) <-> In z (map julday (files (dec 4 y)))).
  { intros z. rewrite <- SI, <- R. symmetry. apply in_rev. }
  rewrite undec_year by now apply A'.
  destruct (days_of_year files _ y A Hy x) as (d & Ex & D & D' & U & HD); [apply SR; now left|].
  eexists. split; [rewrite U; reflexivity|]. split; [exact HD|].
  intros m M. destruct (has_day_year _ _ _ A M) as (y' & f & d' & Y' & F & J & Dd & Em & B).
  assert (y' <= y).
  { rewrite Eys in Y'. apply in_app_or in Y' as [Y'|[Y'|Y']]; [|lia|].
    - pose proof (sorted_app_gt _ _ _ _ SS Eys _ Y'). lia.
    - apply in_rev in Y'. specialize (Q _ Y'). destruct (files (dec 4 y')); [destruct F|discriminate]. }
  destruct (Z.eq_dec y y') as [<-|N].
  - assert (I : In (julday f) (x :: s)) by (apply SR; now apply in_map). rewrite J, Ex in I.
    assert (d' <= d); [|lia]. destruct I as [I|I].
    + apply (f_equal undec) in I. rewrite !undec_dec in I by (change (10 ^ Z.of_nat 3) with 1000; lia). lia.
    + pose proof (sorted_last _ _ _ _ ST R _ I) as FA. unfold le_rel in FA. rewrite Ex in FA.
      rewrite key_le_dec in FA by lia. lia.
  - pose proof (days_before_year_mono (y' + 1) y ltac:(lia)). lia.
Qed.

Theorem no_day files w ys : (forall n, ~ has_day files ys n) -> sds_archive files ys ->
  get_day files w (map (dec 4) ys) = Raise IndexError.
Proof.
  intros H A. assert (E : forall z, In z (map (dec 4) ys) -> files z = []).
  { intros z Z0. apply in_map_iff in Z0 as (y & <- & Y). destruct (files (dec 4 y)) as [|f r] eqn:F; [reflexivity|exfalso].
    destruct (days_of_year files ys y A Y (julday f)) as (d & _ & _ & _ & _ & HD); [rewrite F; now left|]. exact (H _ HD). }
  unfold get_day. destruct w.
  - rewrite find_year_none by exact E. reflexivity.
  - rewrite find_year_none; [reflexivity|]. intros z Z0. apply E. now apply in_rev.
Qed.
