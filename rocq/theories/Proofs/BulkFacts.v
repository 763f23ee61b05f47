(** Streams and matrices. *)
From Coq Require Import Permutation Sorted.
From Verif Require Import Lib.Base Lib.Str Lib.StrFacts Lib.Sorting Lib.Time Model.CorrStream Spec.StreamSpec Proofs.StreamFacts Proofs.StackFacts.
Local Open Scope nat_scope.

Lemma existsb_combine_geo l m :
  existsb (fun p => geo_differs (fst p) (snd p)) (combine l m) = false <->
  (forall i x y, nth_error l i = Some (Some x) -> nth_error m i = Some (Some y) -> (x == y)%Q).
Proof.
  revert m. induction l as [|a l IH]; intros m.
  - cbn. split; [|reflexivity]. intros _ [|i] x y H; discriminate.
  - destruct m as [|b m].
    + cbn. split; [|reflexivity]. intros _ [|i] x y _ H; discriminate.
    + cbn [combine existsb fst snd]. rewrite orb_false_iff, IH. split.
      * intros [H1 H2] [|i] x y Hx Hy; cbn [nth_error] in *.
        -- injection Hx as ->. injection Hy as ->. cbn in H1. apply negb_false_iff, Qeq_bool_iff in H1. exact H1.
        -- apply (H2 i); assumption.
      * intros H. split.
        -- destruct a as [x|], b as [y|]; try reflexivity. cbn. apply negb_false_iff, Qeq_bool_iff. apply (H 0); reflexivity.
        -- intros i x y Hx Hy. apply (H (S i)); assumption.
Qed.

Lemma immutable_iff vc h t :
  immutable_differs vc h t = false <-> (t_sr h == t_sr t)%Q /\ compatible vc h t.
Proof.
  unfold immutable_differs, compatible. rewrite !orb_false_iff, existsb_combine_geo, andb_false_iff.
  rewrite !negb_false_iff, !Qeq_bool_iff, !String.eqb_eq, Nat.eqb_eq. unfold npts.
  destruct vc; intuition (try congruence).
Qed.

Definition same_rate (h t : ctr) : bool := Qeq_bool (t_sr t) (t_sr h).

Lemma bulk_ok vc st b : create_corr_bulk vc None st = Ok b ->
  exists h r, st = h :: r /\ rows_are b (filter (same_rate h) st) /\ counted b /\
    b_npts b = length (t_data h) /\
    (forall t, In t st -> (t_sr t == t_sr h)%Q -> compatible vc h t).
Proof.
  unfold create_corr_bulk. destruct st as [|h r]; [discriminate|]. set (st := h :: r).
  fold (same_rate h). destruct (existsb (immutable_differs vc h) (filter (same_rate h) st)) eqn:E; [discriminate|].
  intros H. injection H as <-. exists h, r. split; [reflexivity|].
  assert (Hc : forall t, In t (filter (same_rate h) st) -> (t_sr h == t_sr t)%Q /\ compatible vc h t).
  { intros t Ht. apply immutable_iff. destruct (immutable_differs vc h t) eqn:Ei; [|reflexivity].
    assert (X : existsb (immutable_differs vc h) (filter (same_rate h) st) = true).
    { apply existsb_exists. exists t. auto. }
    congruence. }
  split; [|split; [|split]].
  - constructor; cbn [b_data b_start b_end b_loc b_cha b_net b_sta b_sr b_lag]; try reflexivity.
    + destruct vc; cbn [entry_is]; [reflexivity|]. intros t Ht.
      destruct (Hc t Ht) as [_ (_ & _ & _ & _ & Hch & _)]. symmetry. apply Hch. reflexivity.
    + intros t Ht. destruct (Hc t Ht) as [_ (_ & Hn & _)]. congruence.
    + intros t Ht. destruct (Hc t Ht) as [_ (_ & _ & Hn & _)]. congruence.
    + intros t Ht. destruct (Hc t Ht) as [Hn _]. symmetry. exact Hn.
    + intros t Ht. destruct (Hc t Ht) as [_ (_ & _ & _ & Hn & _)]. symmetry. exact Hn.
  - unfold counted. cbn [b_ntrcs b_data]. rewrite map_length. reflexivity.
  - reflexivity.
  - intros t Ht Hsr. apply Hc. apply filter_In. split; [exact Ht|]. apply Qeq_bool_iff. exact Hsr.
Qed.

Lemma bulk_accepts vc h r :
  (forall t, In t (h :: r) -> (t_sr t == t_sr h)%Q -> compatible vc h t) ->
  exists b, create_corr_bulk vc None (h :: r) = Ok b.
Proof.
  intros H. unfold create_corr_bulk. fold (same_rate h).
  destruct (existsb (immutable_differs vc h) (filter (same_rate h) (h :: r))) eqn:E; [|eexists; reflexivity].
  apply existsb_exists in E as [t [Ht Hi]]. apply filter_In in Ht as [Ht Hsr]. apply Qeq_bool_iff in Hsr.
  assert (X : immutable_differs vc h t = false).
  { apply immutable_iff. split; [symmetry; exact Hsr|]. apply H; assumption. }
  congruence.
Qed.
Lemma bulk_refuses vc h r t :
  In t (h :: r) -> (t_sr t == t_sr h)%Q -> ~ compatible vc h t ->
  create_corr_bulk vc None (h :: r) = Raise ValueError.
Proof.
  intros Ht Hsr Hn. unfold create_corr_bulk. fold (same_rate h).
  destruct (existsb (immutable_differs vc h) (filter (same_rate h) (h :: r))) eqn:E; [reflexivity|].
  exfalso. apply Hn. destruct (immutable_differs vc h t) eqn:Ei.
  - assert (X : existsb (immutable_differs vc h) (filter (same_rate h) (h :: r)) = true).
    { apply existsb_exists. exists t. split; [|exact Ei]. apply filter_In. split; [exact Ht|]. apply Qeq_bool_iff. exact Hsr. }
    congruence.
  - apply immutable_iff in Ei. apply Ei.
Qed.

(** ** rows back to traces *)
Lemma item_of_map {A B} (f : A -> B) l i : item_of (map f l) i = match nth_error l i with Some x => Ok (f x) | None => Raise IndexError end.
Proof. unfold item_of. rewrite nth_error_map. destruct (nth_error l i); reflexivity. Qed.

Lemma hval_at_entry v f ts i t : entry_is v f ts -> nth_error ts i = Some t -> hval_at v i = Ok (f t).
Proof.
  intros Hv Hi. destruct v as [s|l]; cbn in *.
  - rewrite (Hv t); [reflexivity|]. apply nth_error_In in Hi. exact Hi.
  - subst l. rewrite item_of_map, Hi. reflexivity.
Qed.

Lemma row_of b ts i t : rows_are b ts -> nth_error ts i = Some t ->
  exists t', row_trace b i = Ok t' /\ same_row t t' /\ t_geo t' = b_geo b.
Proof.
  intros H Hi. unfold row_trace.
  rewrite (ra_data _ _ H), item_of_map, Hi. cbn [bind].
  rewrite (ra_start _ _ H), item_of_map, Hi. cbn [bind].
  rewrite (ra_end _ _ H), item_of_map, Hi. cbn [bind].
  rewrite (hval_at_entry _ _ _ _ _ (ra_loc _ _ H) Hi). cbn [bind].
  rewrite (hval_at_entry _ _ _ _ _ (ra_cha _ _ H) Hi). cbn [bind].
  eexists. split; [reflexivity|]. pose proof (nth_error_In _ _ Hi) as Hin.
  split; [|reflexivity]. constructor; cbn; auto; [apply (ra_net _ _ H)|apply (ra_sta _ _ H)|apply (ra_sr _ _ H)|apply (ra_lag _ _ H)]; exact Hin.
Qed.

Lemma create_stream_rows b ts : rows_are b ts ->
  exists out, create_corr_stream None b = Ok out /\ Forall2 same_row ts out.
Proof.
  intros H. unfold create_corr_stream. rewrite (ra_data _ _ H), map_length.
  assert (G : forall l k, (forall i, i < length l -> nth_error ts (k + i) = nth_error l i) ->
     exists out, mapM (row_trace b) (seq k (length l)) = Ok out /\ Forall2 same_row l out).
  { induction l as [|t l IH]; intros k Hk.
    - exists []. split; [reflexivity|constructor].
    - cbn [length seq]. destruct (row_of b ts k t H) as [t' [Ht' [Hs _]]].
      { specialize (Hk 0 ltac:(cbn; lia)). rewrite Nat.add_0_r in Hk. exact Hk. }
      destruct (IH (S k)) as [out [Ho Hf]].
      { intros i Hi. specialize (Hk (S i) ltac:(cbn; lia)). cbn [nth_error] in Hk. rewrite <- Hk. f_equal. lia. }
      exists (t' :: out). split; [|constructor; assumption].
      cbn [mapM]. rewrite Ht'. cbn [bind]. rewrite Ho. reflexivity. }
  apply (G ts 0). intros i _. reflexivity.
Qed.

Theorem roundtrip vc st b : create_corr_bulk vc None st = Ok b ->
  exists h r out, st = h :: r /\ create_corr_stream None b = Ok out /\
    Forall2 same_row (filter (same_rate h) st) out.
Proof.
  intros H. destruct (bulk_ok vc st b H) as (h & r & E & Hr & _).
  destruct (create_stream_rows _ _ Hr) as [out [Ho Hf]]. exists h, r, out. auto.
Qed.

(** ** slices *)
Lemma mask_map {A} (p : ctr -> bool) (f : ctr -> A) ts : mask (map p ts) (map f ts) = map f (filter p ts).
Proof. induction ts as [|t ts IH]; [reflexivity|]. cbn [map mask filter]. destruct (p t); cbn [map]; rewrite IH; reflexivity. Qed.

Lemma entry_mask p v f ts : entry_is v f ts -> entry_is (hval_mask (map p ts) v) f (filter p ts).
Proof.
  destruct v as [s|l]; cbn.
  - intros H t Ht. apply filter_In in Ht. apply H, Ht.
  - intros ->. apply mask_map.
Qed.

Lemma combine_map {A B C} (f : A -> B) (g : A -> C) l : combine (map f l) (map g l) = map (fun x => (f x, g x)) l.
Proof. induction l as [|x l IH]; [reflexivity|]. cbn. rewrite IH. reflexivity. Qed.

Theorem slice_rows s e partial b ts : rows_are b ts -> length ts <> 1 -> (s < e)%Z ->
  exists b', slice s e partial b = Ok b' /\
    rows_are b' (filter (if partial then touches s e else lies_in s e) ts) /\ b_ntrcs b' = b_ntrcs b.
Proof.
  intros H H1 Hse. unfold slice, slice_index. destruct (e <=? s)%Z eqn:E; [lia|]. cbn [bind].
  rewrite (ra_start _ _ H), (ra_end _ _ H), combine_map, map_map. cbn [fst snd].
  set (p := if partial then touches s e else lies_in s e).
  assert (Ep : forall ts : list ctr, map (fun x : ctr => if partial then (s <=? t_end x)%Z && (t_start x <=? e)%Z
                                  else (s <=? t_start x)%Z && (t_end x <=? e)%Z) ts = map p ts).
  { intros l. apply map_ext. intros t. unfold p, touches, lies_in. destruct partial; reflexivity. }
  rewrite Ep. rewrite map_length. destruct (length ts =? 1) eqn:E1; [apply Nat.eqb_eq in E1; contradiction|].
  eexists. split; [reflexivity|]. split; [|reflexivity].
  constructor; cbn [b_data b_start b_end b_loc b_cha b_net b_sta b_sr b_lag].
  - rewrite (ra_data _ _ H). apply mask_map.
  - apply mask_map.
  - apply mask_map.
  - apply entry_mask. apply (ra_loc _ _ H).
  - apply entry_mask. apply (ra_cha _ _ H).
  - intros t Ht. apply filter_In in Ht as [Ht _]. apply (ra_net _ _ H). exact Ht.
  - intros t Ht. apply filter_In in Ht as [Ht _]. apply (ra_sta _ _ H). exact Ht.
  - intros t Ht. apply filter_In in Ht as [Ht _]. apply (ra_sr _ _ H). exact Ht.
  - intros t Ht. apply filter_In in Ht as [Ht _]. apply (ra_lag _ _ H). exact Ht.
Qed.

Lemma filter_length_lt {A} (p : A -> bool) l x : In x l -> p x = false -> length (filter p l) < length l.
Proof.
  induction l as [|y l IH]; intros Hin Hp; [contradiction|]. cbn [filter length].
  assert (L : length (filter p l) <= length l).
  { clear. induction l as [|z l IH]; [auto|]. cbn [filter]. destruct (p z); cbn [length]; lia. }
  destruct Hin as [->|Hin].
  - rewrite Hp. lia.
  - specialize (IH Hin Hp). destruct (p y); cbn [length]; lia.
Qed.

Theorem slice_miscounts s e (partial : bool) b ts t : rows_are b ts -> counted b -> length ts <> 1 -> (s < e)%Z ->
  In t ts -> (if partial then touches s e else lies_in s e) t = false ->
  exists b', slice s e partial b = Ok b' /\ ~ counted b'.
Proof.
  intros H Hc H1 Hse Hin Hp. destruct (slice_rows s e partial b ts H H1 Hse) as [b' [Hs [Hr Hn]]].
  exists b'. split; [exact Hs|]. unfold counted in *. rewrite Hn, Hc, (ra_data _ _ H), (ra_data _ _ Hr), !map_length.
  pose proof (filter_length_lt _ _ _ Hin Hp). lia.
Qed.

Theorem slice_single s e partial b t : rows_are b [t] -> (s < e)%Z -> slice s e partial b = Raise TypeError.
Proof.
  intros H Hse. unfold slice, slice_index. destruct (e <=? s)%Z eqn:E; [lia|]. cbn [bind].
  rewrite (ra_start _ _ H), (ra_end _ _ H). reflexivity.
Qed.

(** ** picking rows *)
Definition picked {A} (d : A) (idx : list nat) (l : list A) : list A := map (fun i => nth i l d) idx.
Lemma pick_map {A} (f : ctr -> A) idx ts d : (forall i, In i idx -> i < length ts) ->
  pick idx (map f ts) = Ok (map f (picked d idx ts)).
Proof.
  intros H. unfold pick, picked. induction idx as [|i idx IH]; [reflexivity|]. cbn [mapM map].
  rewrite item_of_map. rewrite (nth_error_nth' ts d) by (apply H; left; reflexivity). cbn [bind].
  rewrite IH by (intros j Hj; apply H; right; exact Hj). reflexivity.
Qed.
Theorem getitem_rows idx b ts d : rows_are b ts -> (forall i, In i idx -> i < length ts) ->
  exists b', getitem idx b = Ok b' /\ rows_are b' (picked d idx ts) /\ counted b'.
Proof.
  intros H Hi. unfold getitem.
  rewrite (ra_start _ _ H), (pick_map t_start idx ts d Hi). cbn [bind].
  rewrite (ra_end _ _ H), (pick_map t_end idx ts d Hi). cbn [bind].
  assert (Hin : forall t, In t (picked d idx ts) -> In t ts).
  { intros t Ht. unfold picked in Ht. apply in_map_iff in Ht as [i [<- Hj]]. apply nth_In. apply Hi. exact Hj. }
  assert (Hv : forall v f, entry_is v f ts -> exists v', hval_pick idx v = Ok v' /\ entry_is v' f (picked d idx ts)).
  { intros [s|l] f Hv; cbn in *.
    - exists (One s). split; [reflexivity|]. intros t Ht. apply Hv, Hin, Ht.
    - subst l. rewrite (pick_map f idx ts d Hi). cbn [bind]. eexists. split; reflexivity. }
  destruct (Hv _ _ (ra_loc _ _ H)) as [lo [-> Hlo]]. cbn [bind].
  destruct (Hv _ _ (ra_cha _ _ H)) as [ch [-> Hch]]. cbn [bind].
  rewrite (ra_data _ _ H), (pick_map t_data idx ts d Hi). cbn [bind].
  eexists. split; [reflexivity|]. split; [|reflexivity].
  constructor; cbn [b_data b_start b_end b_loc b_cha b_net b_sta b_sr b_lag]; auto.
  - intros t Ht. apply (ra_net _ _ H), Hin, Ht.
  - intros t Ht. apply (ra_sta _ _ H), Hin, Ht.
  - intros t Ht. apply (ra_sr _ _ H), Hin, Ht.
  - intros t Ht. apply (ra_lag _ _ H), Hin, Ht.
Qed.

(** ** selections of a matrix *)
Lemma insert_rows x y a b : same_row x y -> Forall2 same_row a b -> Forall2 same_row (insert start_leb x a) (insert start_leb y b).
Proof.
  intros XY H. induction H as [|u v a b UV H IH]; cbn [insert]; [constructor; [exact XY|constructor]|].
  assert (E : start_leb x u = start_leb y v) by (unfold start_leb; rewrite (sr_start _ _ XY), (sr_start _ _ UV); reflexivity).
  rewrite E. destruct (start_leb y v); repeat (constructor; try assumption).
Qed.
Lemma sort_rows a b : Forall2 same_row a b -> Forall2 same_row (sort_start a) (sort_start b).
Proof. unfold sort_start. induction 1 as [|u v a b UV H IH]; cbn [sort]; [constructor|]. now apply insert_rows. Qed.
Lemma filter_rows p a b : (forall x y, same_row x y -> p x = p y) -> Forall2 same_row a b -> Forall2 same_row (filter p a) (filter p b).
Proof.
  intros P. induction 1 as [|u v a b UV H IH]; cbn [filter]; [constructor|]. rewrite (P _ _ UV). destruct (p v); [constructor|]; assumption.
Qed.
Lemma select_same s e partial a b : Forall2 same_row a b -> Forall2 same_row (select_corr_time s e partial a) (select_corr_time s e partial b).
Proof.
  intros H. unfold select_corr_time. apply filter_rows; [|now apply sort_rows]. intros x y XY.
  destruct partial; unfold sel_partial, sel_full; rewrite ?(sr_start _ _ XY), ?(sr_end _ _ XY); reflexivity.
Qed.
Lemma rows_map {A} (f : ctr -> A) a b : (forall x y, same_row x y -> f x = f y) -> Forall2 same_row a b -> map f a = map f b.
Proof. intros F. induction 1 as [|u v a b UV H IH]; [reflexivity|]. cbn. rewrite (F _ _ UV), IH. reflexivity. Qed.
Lemma rows_in a b : Forall2 same_row a b -> forall x, In x a -> exists y, In y b /\ same_row x y.
Proof.
  induction 1 as [|u v a b UV H IH]; intros x []; [subst; exists v; split; [now left|assumption]|].
  destruct (IH x H0) as (y & Y & XY). exists y. split; [now right|exact XY].
Qed.
Lemma rows_are_same b ts us : Forall2 same_row ts us -> rows_are b us -> rows_are b ts.
Proof.
  intros F [D S0 E L C N ST SR LG]. split.
  - rewrite D. symmetry. apply rows_map; [|exact F]. intros x y XY. apply (sr_data _ _ XY).
  - rewrite S0. symmetry. apply rows_map; [|exact F]. intros x y XY. apply (sr_start _ _ XY).
  - rewrite E. symmetry. apply rows_map; [|exact F]. intros x y XY. apply (sr_end _ _ XY).
  - destruct (b_loc b) as [s|l]; cbn in *.
    + intros t I. destruct (rows_in _ _ F t I) as (y & Y & XY). rewrite (sr_loc _ _ XY). now apply L.
    + rewrite L. symmetry. apply rows_map; [|exact F]. intros x y XY. apply (sr_loc _ _ XY).
  - destruct (b_cha b) as [s|l]; cbn in *.
    + intros t I. destruct (rows_in _ _ F t I) as (y & Y & XY). rewrite (sr_cha _ _ XY). now apply C.
    + rewrite C. symmetry. apply rows_map; [|exact F]. intros x y XY. apply (sr_cha _ _ XY).
  - intros t I. destruct (rows_in _ _ F t I) as (y & Y & XY). rewrite (sr_net _ _ XY). now apply N.
  - intros t I. destruct (rows_in _ _ F t I) as (y & Y & XY). rewrite (sr_sta _ _ XY). now apply ST.
  - intros t I. destruct (rows_in _ _ F t I) as (y & Y & XY). rewrite (sr_sr _ _ XY). now apply SR.
  - intros t I. destruct (rows_in _ _ F t I) as (y & Y & XY). rewrite (sr_lag _ _ XY). now apply LG.
Qed.
Lemma select_in s e partial ts t : In t (select_corr_time s e partial ts) -> In t ts.
Proof. unfold select_corr_time. rewrite filter_In. intros [I _]. unfold sort_start in I. now apply sort_in in I. Qed.

(** everything a matrix has only once agrees between its rows *)
Lemma row_trace_geo b i t : row_trace b i = Ok t -> t_geo t = b_geo b /\ t_sr t = b_sr b /\ t_lag t = b_lag b /\ t_net t = b_net b /\ t_sta t = b_sta b.
Proof.
  unfold row_trace. intros H. repeat match type of H with bind ?x _ = _ => destruct x; [cbn [bind] in H|discriminate] end.
  injection H as <-. repeat split.
Qed.
Lemma mapM_from {A B} (f : A -> result B) l : forall r, mapM f l = Ok r -> forall y, In y r -> exists x, In x l /\ f x = Ok y.
Proof.
  induction l as [|x l IH]; intros r E y I; cbn [mapM] in E; [injection E as <-; destruct I|].
  destruct (f x) as [z|] eqn:FX; [|discriminate]. cbn [bind] in E. destruct (mapM f l) as [r'|]; [|discriminate]. cbn [bind] in E.
  injection E as <-. destruct I as [<-|I]; [exists x; split; [now left|exact FX]|].
  destruct (IH r' eq_refl y I) as (w & W & FW). exists w. split; [now right|exact FW].
Qed.
Lemma filter_all {A} (p : A -> bool) l : (forall x, In x l -> p x = true) -> filter p l = l.
Proof.
  induction l as [|x l IH]; intros H; [reflexivity|]. cbn [filter]. rewrite (H x (or_introl eq_refl)), IH; [reflexivity|].
  intros y Y. apply H. now right.
Qed.
Theorem select_rows s e partial b ts n : rows_are b ts -> (forall t, In t ts -> length (t_data t) = n) ->
  match select_corr_time s e partial ts with
  | [] => bulk_select s e partial b = Raise TypeError
  | sel => exists b', bulk_select s e partial b = Ok b' /\ rows_are b' sel /\ counted b'
  end.
Proof.
  intros RA LN. destruct (create_stream_rows b ts RA) as (out & CO & F). unfold bulk_select. rewrite CO. cbn [bind].
  pose proof (select_same s e partial ts out F) as FS.
  destruct (select_corr_time s e partial ts) as [|t0 sel] eqn:ES.
  - inversion FS. reflexivity.
  - destruct (select_corr_time s e partial out) as [|u0 us] eqn:H; inversion FS as [|? ? ? ? TU FU]; subst.
    assert (HO : forall u, In u (u0 :: us) -> exists i, row_trace b i = Ok u).
    { intros u I. rewrite <- H in I. apply select_in in I. destruct (mapM_from _ _ _ CO u I) as (i & _ & R). eauto. }
    assert (HL : forall u, In u (u0 :: us) -> length (t_data u) = n).
    { intros u I. apply In_nth_error in I as (k & K).
      assert (X : exists t, nth_error (t0 :: sel) k = Some t /\ same_row t u).
      { clear -FS K. rename FS into FX. revert k K. induction FX as [|a c l m AC FX IH]; intros [|k] K; try discriminate; cbn in *.
        - injection K as <-. eauto.
        - eauto. }
      destruct X as (t & T & TU'). rewrite <- (sr_data _ _ TU'). apply LN. apply (select_in s e partial). rewrite ES. eapply nth_error_In; exact T. }
    destruct (bulk_accepts true u0 us) as (b' & B').
    + intros u I _. destruct (HO u0 (or_introl eq_refl)) as (i0 & R0). destruct (HO u I) as (i & R).
      apply row_trace_geo in R0 as (G0 & S0 & L0 & N0 & T0). apply row_trace_geo in R as (G1 & S1 & L1 & N1 & T1).
      unfold compatible. rewrite (HL u0 (or_introl eq_refl)), (HL u I), N0, N1, T0, T1, L0, L1, G0, G1.
      repeat split; try reflexivity; try discriminate. intros i1 x y X Y. rewrite X in Y. injection Y as <-. reflexivity.
    + exists b'. split; [exact B'|].
      destruct (bulk_ok true (u0 :: us) b' B') as (h & r & E & Hr & Hc & _). injection E as <- <-. split; [|exact Hc].
      apply (rows_are_same b' (t0 :: sel) (u0 :: us)); [now constructor|].
      assert (FE : filter (same_rate u0) (u0 :: us) = u0 :: us).
      { apply filter_all. intros u I. unfold same_rate. apply Qeq_bool_iff. destruct (HO u0 (or_introl eq_refl)) as (i0 & R0). destruct (HO u I) as (i & R).
        apply row_trace_geo in R0 as (_ & S0 & _). apply row_trace_geo in R as (_ & S1 & _). rewrite S0, S1. reflexivity. }
      rewrite FE in Hr. exact Hr.
Qed.
