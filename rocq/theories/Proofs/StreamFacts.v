(** Filters and consecutive windows of correlation streams. *)
From Coq Require Import Permutation Sorted.
From Verif Require Import Lib.Base Lib.Str Lib.StrFacts Lib.Sorting Lib.Time Model.CorrStream Spec.StreamSpec.
Local Open Scope nat_scope.
#[local] Ltac Zify.zify_post_hook ::= Z.div_mod_to_equations.

(** ** sorting *)
Lemma start_leb_total a b : start_leb a b = true \/ start_leb b a = true.
Proof. unfold start_leb. lia. Qed.
Lemma start_leb_trans a b c : start_leb a b = true -> start_leb b c = true -> start_leb a c = true.
Proof. unfold start_leb. lia. Qed.
Lemma sort_start_perm st : Permutation (sort_start st) st.
Proof. apply sort_perm. Qed.
Lemma sort_start_sorted st : StronglySorted (fun a b => (t_start a <= t_start b)%Z) (sort_start st).
Proof.
  pose proof (sort_sorted start_leb start_leb_total start_leb_trans st) as H.
  unfold sort_start. induction H as [|x l Hs IH HF]; constructor; auto.
  eapply Forall_impl; [|exact HF]. intros y. unfold le_rel, start_leb. lia.
Qed.

Lemma filter_perm {A} (p : A -> bool) l m : Permutation l m -> Permutation (filter p l) (filter p m).
Proof.
  induction 1 as [| x l m H IH | x y l | l m n H1 IH1 H2 IH2]; cbn [filter].
  - constructor.
  - destruct (p x); [constructor|]; exact IH.
  - destruct (p x), (p y); try constructor; reflexivity.
  - etransitivity; eassumption.
Qed.

Lemma filter_sorted {A} (R : A -> A -> Prop) p l : StronglySorted R l -> StronglySorted R (filter p l).
Proof.
  induction 1 as [|x l Hs IH HF]; cbn [filter]; [constructor|].
  destruct (p x); [|exact IH]. constructor; [exact IH|].
  apply Forall_forall. intros y Hy. apply filter_In in Hy. rewrite Forall_forall in HF. apply HF, Hy.
Qed.

(** ** select_corr_time *)
Definition want_partial (s e : Z) (t : ctr) : bool := (s <? t_end t)%Z && (t_end t <=? e)%Z.
Lemma select_partial_exact s e st : (s < e)%Z ->
  Permutation (select_corr_time s e true st)
    (filter (fun t => (s <? t_end t)%Z && (t_end t <=? e)%Z) st) /\
  StronglySorted (fun a b => (t_start a <= t_start b)%Z) (select_corr_time s e true st).
Proof.
  intros Hse. unfold select_corr_time. split.
  - rewrite (filter_ext (sel_partial s e) (fun t => (s <? t_end t)%Z && (t_end t <=? e)%Z)).
    + apply filter_perm, sort_start_perm.
    + intros t. unfold sel_partial. lia.
  - apply filter_sorted, sort_start_sorted.
Qed.
Lemma select_full_exact s e st :
  Permutation (select_corr_time s e false st)
    (filter (fun t => (s <=? t_start t)%Z && (t_end t <=? e)%Z) st) /\
  StronglySorted (fun a b => (t_start a <= t_start b)%Z) (select_corr_time s e false st).
Proof.
  unfold select_corr_time. split.
  - apply filter_perm, sort_start_perm.
  - apply filter_sorted, sort_start_sorted.
Qed.

(** ** pop_at_utcs *)
Lemma pop_exact utcs st t :
  In t (pop_at_utcs utcs st) <->
  In t st /\ ~ exists u, In u utcs /\ (t_start t < u < t_end t)%Z.
Proof.
  unfold pop_at_utcs. rewrite filter_In, negb_true_iff. split; intros [H1 H2]; split; auto.
  - intros [u [Hu Hb]]. assert (X : existsb (fun u => (t_start t <? u)%Z && (u <? t_end t)%Z) utcs = true).
    { apply existsb_exists. exists u. split; [exact Hu|lia]. }
    congruence.
  - destruct (existsb _ utcs) eqn:E; [|reflexivity].
    apply existsb_exists in E as [u [Hu Hb]]. exfalso. apply H2. exists u. split; [exact Hu|lia].
Qed.
Lemma pop_order utcs st1 st2 : pop_at_utcs utcs (st1 ++ st2) = pop_at_utcs utcs st1 ++ pop_at_utcs utcs st2.
Proof. apply filter_app. Qed.

(** ** select_time *)
Lemma select_time_complement s e st t :
  In t st -> (In t (select_time s e false st) <-> ~ In t (select_time s e true st)).
Proof.
  intros Hin. unfold select_time. rewrite !filter_In. destruct (inside_tod s e t); cbn; intuition discriminate.
Qed.
Lemma select_time_partition s e st :
  Permutation (select_time s e false st ++ select_time s e true st) st.
Proof.
  unfold select_time. induction st as [|t st IH]; [reflexivity|]. cbn [filter].
  destruct (inside_tod s e t); cbn [negb].
  - cbn [app]. constructor. exact IH.
  - symmetry. apply Permutation_cons_app. symmetry. exact IH.
Qed.
Lemma inside_tod_iff s e t :
  (0 <= s)%Z -> (e < 86400000000)%Z -> (t_start t <= t_end t)%Z ->
  (t_start t / day = t_end t / day)%Z -> (t_start t mod 1000 = 0)%Z -> (t_end t mod 1000 = 0)%Z ->
  (inside_tod s e t = true <-> inside_daily (s * 1000) (e * 1000) t).
Proof.
  intros Hs He Hle Hd Hs0 He0. unfold inside_tod, inside_daily, tod, day, sec in *.
  rewrite andb_true_iff, !Z.leb_le. split.
  - intros [H1 H2]. exists (t_start t / (86400 * 1000000000))%Z. lia.
  - intros [k [H1 H2]].
    assert (k = t_start t / (86400 * 1000000000))%Z by lia. subst k. lia.
Qed.

(** ** remove_duplicates *)
Lemma all2_Forall2 {A B} (f : A -> B -> bool) (P : A -> B -> Prop) :
  (forall a b, f a b = true <-> P a b) -> forall l m, all2 f l m = true <-> Forall2 P l m.
Proof.
  intros H. induction l as [|a l IH]; intros [|b m]; cbn [all2].
  - split; [constructor|reflexivity].
  - split; [discriminate|inversion 1].
  - split; [discriminate|inversion 1].
  - rewrite andb_true_iff, H, IH. split; [intros [? ?]; constructor; auto | inversion 1; auto].
Qed.

Lemma header_eqb_iff a b : npts a = npts b ->
  header_eqb a b = true <->
  t_net a = t_net b /\ t_sta a = t_sta b /\ t_cha a = t_cha b /\ t_loc a = t_loc b /\
  t_start a = t_start b /\ t_end a = t_end b /\ (t_sr a == t_sr b)%Q /\ (t_lag a == t_lag b)%Q /\
  Forall2 same_sample (t_geo a) (t_geo b).
Proof.
  intros Hn. unfold header_eqb. rewrite !andb_true_iff, !String.eqb_eq, !Z.eqb_eq, !Qeq_bool_iff, Nat.eqb_eq.
  rewrite (all2_Forall2 geo_eqb same_sample).
  2:{ intros x y. destruct x as [x|], y as [y|]; cbn; try (split; [discriminate|contradiction]).
      - apply Qeq_bool_iff.
      - split; auto. }
  tauto.
Qed.

Lemma ctr_eqb_sound a b : ctr_eqb a b = true -> same_trace a b.
Proof.
  unfold ctr_eqb. rewrite andb_true_iff. intros [Hh Hd].
  assert (Hn : npts a = npts b).
  { unfold header_eqb in Hh. rewrite !andb_true_iff, Nat.eqb_eq in Hh. tauto. }
  apply (header_eqb_iff a b Hn) in Hh. destruct Hh as (?&?&?&?&?&?&?&?&?).
  assert (Hd' : Forall2 same_sample (t_data a) (t_data b)).
  { clear - Hd. revert Hd. generalize (t_data b). induction (t_data a) as [|x l IH]; intros [|y m]; cbn [all2]; try discriminate.
    - constructor.
    - rewrite andb_true_iff. intros [H1 H2]. constructor; [|apply IH; exact H2].
      destruct x, y; cbn in *; try discriminate. apply Qeq_bool_iff. exact H1. }
  constructor; assumption.
Qed.

Lemma Forall2_len {A B} (P : A -> B -> Prop) l m : Forall2 P l m -> length l = length m.
Proof. induction 1; cbn; auto. Qed.

Lemma ctr_eqb_complete a b : has_nan a = false -> same_trace a b -> ctr_eqb a b = true.
Proof.
  intros Hn H. unfold ctr_eqb. apply andb_true_iff. split.
  - apply header_eqb_iff; [exact (Forall2_len _ _ _ (st_data _ _ H))|].
    destruct H. auto 12.
  - pose proof (st_data _ _ H) as Hd. unfold has_nan in Hn. clear H.
    induction Hd as [|x y l m Hxy Hd IH]; [reflexivity|].
    cbn [existsb all2] in *. apply orb_false_iff in Hn as [Hx Hn].
    rewrite (IH Hn), andb_true_r. destruct x as [x|]; [|discriminate]. destruct y as [y|]; [|contradiction].
    cbn in *. apply Qeq_bool_iff. exact Hxy.
Qed.

Lemma rd_app st1 st2 :
  remove_duplicates (st1 ++ st2) =
  fold_left (fun acc t => if existsb (ctr_eqb t) acc then acc else acc ++ [t]) st2 (remove_duplicates st1).
Proof. apply fold_left_app. Qed.
Lemma rd_snoc st t :
  remove_duplicates (st ++ [t]) =
  if existsb (ctr_eqb t) (remove_duplicates st) then remove_duplicates st else remove_duplicates st ++ [t].
Proof. rewrite rd_app. reflexivity. Qed.

Lemma rd_sound st t : In t (remove_duplicates st) -> In t st.
Proof.
  induction st as [|x st IH] using rev_ind; [auto|]. rewrite rd_snoc, in_app_iff.
  destruct (existsb _ _); [auto|]. rewrite in_app_iff. intros [H|H]; auto.
Qed.
Lemma rd_complete st t : In t st -> In t (remove_duplicates st) \/ exists u, In u (remove_duplicates st) /\ same_trace t u.
Proof.
  induction st as [|x st IH] using rev_ind; [contradiction|]. rewrite rd_snoc, in_app_iff.
  destruct (existsb (ctr_eqb x) (remove_duplicates st)) eqn:E; intros [H|[H|[]]].
  - apply IH. exact H.
  - subst x. apply existsb_exists in E as [u [Hu He]]. right. exists u. split; [exact Hu|]. apply ctr_eqb_sound. exact He.
  - destruct (IH H) as [H'|[u [Hu Hs]]]; [left|right; exists u]; rewrite ?in_app_iff; auto.
  - subst x. left. rewrite in_app_iff. right. left. reflexivity.
Qed.

(** ordered pairs of a list *)
Lemma FOP_app {A} (R : A -> A -> Prop) l x :
  ForallOrdPairs R l -> Forall (fun y => R y x) l -> ForallOrdPairs R (l ++ [x]).
Proof.
  induction 1 as [|a l Ha Hl IH]; intros HF; cbn [app].
  - constructor; [constructor|constructor].
  - inversion HF as [|? ? H1 H2]; subst. constructor; [|apply IH; exact H2].
    apply Forall_app. split; [exact Ha|]. constructor; [exact H1|constructor].
Qed.
Lemma rd_distinct st :
  (forall t, In t st -> has_nan t = false) ->
  ForallOrdPairs (fun a b => ~ same_trace b a) (remove_duplicates st).
Proof.
  induction st as [|x st IH] using rev_ind; intros Hn; [constructor|]. rewrite rd_snoc.
  assert (IH' : ForallOrdPairs (fun a b => ~ same_trace b a) (remove_duplicates st)).
  { apply IH. intros t Ht. apply Hn. rewrite in_app_iff. auto. }
  destruct (existsb (ctr_eqb x) (remove_duplicates st)) eqn:E; [exact IH'|].
  apply FOP_app; [exact IH'|]. apply Forall_forall. intros y Hy Hs.
  assert (X : existsb (ctr_eqb x) (remove_duplicates st) = true).
  { apply existsb_exists. exists y. split; [exact Hy|]. apply ctr_eqb_complete; [|exact Hs].
    apply Hn. rewrite in_app_iff. right. left. reflexivity. }
  congruence.
Qed.
(** order kept: the result is a subsequence *)
Lemma subseq_snoc_skip {A} (l m : list A) x : subseq l m -> subseq l (m ++ [x]).
Proof. induction 1; cbn [app]; [apply sub_skip, sub_nil|apply sub_skip; auto|apply sub_take; auto]. Qed.
Lemma subseq_snoc_take {A} (l m : list A) x : subseq l m -> subseq (l ++ [x]) (m ++ [x]).
Proof. induction 1; cbn [app]; [apply sub_take, sub_nil|apply sub_skip; auto|apply sub_take; auto]. Qed.
Lemma rd_subseq st : subseq (remove_duplicates st) st.
Proof.
  induction st as [|x st IH] using rev_ind; [constructor|]. rewrite rd_snoc.
  destruct (existsb _ _); [apply subseq_snoc_skip|apply subseq_snoc_take]; exact IH.
Qed.

(** ** consecutive windows *)
Lemma concat_filter_nonnil {A} (ws : list (list A)) :
  concat (filter (fun w => match w with [] => false | _ => true end) ws) = concat ws.
Proof. induction ws as [|[|x w] ws IH]; cbn [filter concat]; rewrite ?IH; reflexivity. Qed.

Lemma filter_split {A} (p q r : A -> bool) l :
  (forall x, r x = p x || q x) -> (forall x, p x && q x = false) ->
  Permutation (filter p l ++ filter q l) (filter r l).
Proof.
  intros Hr Hd. induction l as [|x l IH]; [constructor|]. cbn [filter]. rewrite (Hr x). specialize (Hd x).
  destruct (p x), (q x); try discriminate; cbn [orb app].
  - constructor. exact IH.
  - symmetry. apply Permutation_cons_app. symmetry. exact IH.
  - exact IH.
Qed.

Lemma consecutive s L m : (0 < L)%Z -> forall K,
  Permutation (concat (map (fun k => filter (sel_partial (s + Z.of_nat k * L) (s + Z.of_nat k * L + L)) m) (seq 0 K)))
    (filter (fun t => (s <? t_end t)%Z && (t_end t <=? s + Z.of_nat K * L)%Z) m).
Proof.
  intros HL. induction K as [|K IH].
  - cbn [seq map concat]. rewrite (filter_ext _ (fun _ => false)); [|intros t; lia].
    induction m; cbn; auto.
  - rewrite seq_S, map_app, concat_app. cbn [map concat]. rewrite app_nil_r, IH. cbn [Nat.add].
    apply filter_split; intros t; unfold sel_partial; nia.
Qed.

Lemma sort_start_idem st : sort_start (sort_start st) = sort_start st.
Proof.
  apply sort_id. apply sort_sorted; [exact start_leb_total|exact start_leb_trans].
Qed.

(** every stream: what the windows contain *)
Lemma windows_content start stop len mid st ws :
  stack_windows start stop len mid st = Ok ws ->
  exists h l s e,
    sort_start st = h :: l /\
    s = (let s0 := match start with Some s => s | None => t_start h end in if mid then midnight s0 else s0) /\
    e = (match stop with Some e => e | None => t_end (last (h :: l) h) end) /\
    (0 < len)%Z /\
    (forall t, In t st -> (durat t <= len)%Z) /\
    Permutation (concat ws)
      (filter (fun t => (s <? t_end t)%Z && (t_end t <=? s + Z.of_nat (arange_len s e len) * len)%Z) st).
Proof.
  unfold stack_windows. destruct (sort_start st) as [|h l] eqn:E; [discriminate|].
  set (s := if mid then _ else _). set (e := match stop with Some e => e | None => _ end).
  unfold slide. cbn [bind].
  destruct (zmax (map durat (h :: l))) as [longest|] eqn:Ez; [|discriminate]. cbn [bind].
  destruct (len <? longest)%Z eqn:E1; [discriminate|].
  destruct (len <=? 0)%Z eqn:E2; [discriminate|]. intros H. injection H as <-.
  exists h, l, s, e. split; [reflexivity|]. split; [reflexivity|]. split; [reflexivity|].
  split; [lia|]. split.
  - intros t Ht. assert (Hin : In t (h :: l)). { rewrite <- E. apply (Permutation_in _ (Permutation_sym (sort_start_perm st))). exact Ht. }
    assert (Hmax : forall (l : list Z) x y, In y (x :: l) -> (y <= fold_left Z.max l x)%Z).
    { clear. induction l as [|z l IH]; intros x y Hy.
      - destruct Hy as [<-|[]]. cbn. lia.
      - cbn [fold_left]. destruct Hy as [<-|[<-|Hy]].
        + etransitivity; [|apply IH; left; reflexivity]. lia.
        + etransitivity; [|apply IH; left; reflexivity]. lia.
        + apply IH. right. exact Hy. }
    cbn [map zmax] in Ez. injection Ez as <-.
    pose proof (Hmax (map durat l) (durat h) (durat t)) as X.
    assert (In (durat t) (durat h :: map durat l)).
    { change (durat h :: map durat l) with (map durat (h :: l)). apply in_map. exact Hin. }
    specialize (X H). lia.
  - rewrite concat_filter_nonnil. unfold arange. rewrite map_map.
    rewrite (map_ext _ (fun k => filter (sel_partial (s + Z.of_nat k * len) (s + Z.of_nat k * len + len)) (h :: l))).
    2:{ intros k. unfold select_corr_time. rewrite <- E, sort_start_idem, E. reflexivity. }
    rewrite consecutive by lia. apply filter_perm. rewrite <- E. apply sort_start_perm.
Qed.

Lemma last_In {A} (l : list A) d : l <> [] -> In (last l d) l.
Proof.
  induction l as [|x [|y l] IH]; intros H; [congruence|left; reflexivity|].
  right. apply IH. discriminate.
Qed.
Lemma sorted_last (l : list ctr) d : StronglySorted (fun a b => (t_start a <= t_start b)%Z) l ->
  forall t, In t l -> (t_start t <= t_start (last l d))%Z.
Proof.
  induction 1 as [|x l Hs IH HF]; intros t Ht; [contradiction|].
  destruct l as [|y l].
  - destruct Ht as [<-|[]]. cbn. lia.
  - change (last (x :: y :: l) d) with (last (y :: l) d).
    destruct Ht as [<-|Ht]; [|apply IH; exact Ht].
    rewrite Forall_forall in HF. apply HF. apply last_In. discriminate.
Qed.

Lemma windows_all len mid st ws :
  last_ends_last st -> positive_durations st ->
  stack_windows None None len mid st = Ok ws -> Permutation (concat ws) st.
Proof.
  intros Hl Hp Hw. destruct (windows_content _ _ _ _ _ _ Hw) as (h & l & s & e & E & Hs & He & HL & _ & HP).
  rewrite HP. 
  assert (Hmem : forall t, In t (h :: l) <-> In t st).
  { intros t. rewrite <- E. split; apply Permutation_in; [|symmetry]; apply sort_start_perm. }
  pose proof (sort_start_sorted st) as Hsort. rewrite E in Hsort.
  assert (Hall : forall t, In t st -> (s < t_end t)%Z /\ (t_end t <= e)%Z).
  { intros t Ht. split.
    - assert (Hst : (t_start h <= t_start t)%Z).
      { apply Hmem in Ht as Ht'. destruct Ht' as [<-|Ht']; [lia|].
        apply StronglySorted_inv in Hsort as [_ HF]. rewrite Forall_forall in HF. apply HF. exact Ht'. }
      specialize (Hp t Ht). subst s. cbv zeta. destruct mid; [|lia]. unfold midnight, day, sec. lia.
    - subst e. apply Hl.
      + apply Hmem. apply last_In. discriminate.
      + exact Ht.
      + intros c Hc. apply sorted_last; [exact Hsort|]. apply Hmem. exact Hc. }
  assert (X : filter (fun t => (s <? t_end t)%Z && (t_end t <=? s + Z.of_nat (arange_len s e len) * len)%Z) st = st).
  { clear - Hall HL. assert (Hr : forall t, In t st -> ((s <? t_end t)%Z && (t_end t <=? s + Z.of_nat (arange_len s e len) * len)%Z) = true).
    { intros t Ht. destruct (Hall t Ht) as [H1 H2]. unfold arange_len.
      assert (H3 : (e - s <= (e - s + len - 1) / len * len)%Z).
      { pose proof (Z.div_mod (e - s + len - 1) len ltac:(lia)).
        pose proof (Z.mod_pos_bound (e - s + len - 1) len HL). nia. }
      assert (H4 : (0 <= (e - s + len - 1) / len)%Z) by (apply Z.div_pos; lia).
      rewrite Z2Nat.id by exact H4. apply andb_true_iff. split; [apply Z.ltb_lt; lia|apply Z.leb_le; lia]. }
    clear Hall. induction st as [|t st IH]; [reflexivity|]. cbn [filter]. rewrite (Hr t (or_introl eq_refl)), IH; [reflexivity|].
    intros u Hu. apply Hr. right. exact Hu. }
  rewrite X. reflexivity.
Qed.

Lemma windows_succeed start stop len mid st :
  st <> [] -> (forall t, In t st -> (durat t <= len)%Z) -> (0 < len)%Z ->
  exists ws, stack_windows start stop len mid st = Ok ws.
Proof.
  intros Hne Hd HL. unfold stack_windows. destruct (sort_start st) as [|h l] eqn:E.
  - exfalso. apply Hne. apply Permutation_nil. rewrite <- E. apply sort_start_perm.
  - unfold slide. cbn [bind map zmax].
    assert (Hm : forall t, In t (h :: l) -> (durat t <= len)%Z).
    { intros t Ht. apply Hd. rewrite <- E in Ht. apply (Permutation_in _ (sort_start_perm st)). exact Ht. }
    assert (X : (fold_left Z.max (map durat l) (durat h) <= len)%Z).
    { assert (Y : forall l a, (a <= len)%Z -> (forall t, In t l -> (durat t <= len)%Z) -> (fold_left Z.max (map durat l) a <= len)%Z).
      { clear. induction l as [|x l IH]; intros a Ha Hl; [exact Ha|]. cbn [map fold_left]. apply IH.
        - specialize (Hl x (or_introl eq_refl)). lia.
        - intros t Ht. apply Hl. right. exact Ht. }
      apply Y; [apply Hm; left; reflexivity|]. intros t Ht. apply Hm. right. exact Ht. }
    destruct (len <? _)%Z eqn:E1; [lia|]. destruct (len <=? 0)%Z eqn:E2; [lia|]. eexists. reflexivity.
Qed.
