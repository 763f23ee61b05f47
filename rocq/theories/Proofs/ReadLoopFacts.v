(** Proofs about reading from a directory tree: the files that are visited *)
From Coq Require Import Permutation Sorted.
From Verif Require Import Lib.Base Lib.Str Lib.StrFacts Lib.Sorting Lib.Time Model.Archive Spec.ArchiveSpec
  Model.MonitorFiles Model.ReadFiles Spec.ReadFilesSpec Proofs.CalendarFacts Proofs.ReadFilesFacts.
Local Open Scope Z_scope.
#[local] Ltac Zify.zify_post_hook ::= Z.div_mod_to_equations.

(** ** the calendar *)
Lemma time_ok_between a b t : time_ok a -> time_ok b -> a <= t <= b -> time_ok t.
Proof. unfold time_ok. lia. Qed.

Lemma year_mono t t' : time_ok t -> time_ok t' -> t <= t' ->
  year_of t < year_of t' \/ (year_of t = year_of t' /\ doy_of t <= doy_of t').
Proof.
  intros T T' L. pose proof (daynum_range t T). pose proof (daynum_range t' T').
  pose proof (lex_year_doy (daynum t) (daynum t') ltac:(lia) ltac:(lia)) as C.
  assert (D : daynum t <= daynum t') by (unfold daynum; change day with 86400000000000; lia).
  unfold year_of, doy_of.
  destruct (Z.compare_spec (fst (year_doy (daynum t))) (fst (year_doy (daynum t')))) as [E|E|E]; [|now left|].
  - right. split; [exact E|]. cbn [lex] in C.
    destruct (Z.compare_spec (snd (year_doy (daynum t))) (snd (year_doy (daynum t')))); try lia.
    symmetry in C. apply Z.compare_gt_iff in C. lia.
  - cbn [lex] in C. symmetry in C. apply Z.compare_gt_iff in C. lia.
Qed.
Lemma before_month lp m m' : 1 <= m -> m < m' -> m' <= 12 ->
  fold_right Z.add 0 (firstn (Z.to_nat (m - 1)) (month_lengths lp)) + nth (Z.to_nat (m - 1)) (month_lengths lp) 0
  <= fold_right Z.add 0 (firstn (Z.to_nat (m' - 1)) (month_lengths lp)).
Proof.
  intros A B C.
  assert (M : m = 1 \/ m = 2 \/ m = 3 \/ m = 4 \/ m = 5 \/ m = 6 \/ m = 7 \/ m = 8 \/ m = 9 \/ m = 10 \/ m = 11) by lia.
  assert (M' : m' = 2 \/ m' = 3 \/ m' = 4 \/ m' = 5 \/ m' = 6 \/ m' = 7 \/ m' = 8 \/ m' = 9 \/ m' = 10 \/ m' = 11 \/ m' = 12) by lia.
  destruct lp; repeat (destruct M as [->|M]); try subst m; repeat (destruct M' as [->|M']); try subst m'; try lia;
    vm_compute; discriminate.
Qed.
Lemma month_mono t t' : time_ok t -> time_ok t' -> t <= t' -> month_index t <= month_index t'.
Proof.
  intros T T' L. pose proof (month_day_range t T) as [M _]. pose proof (month_day_range t' T') as [M' _].
  unfold month_index. destruct (year_mono t t' T T' L) as [Y|[Y D]]; [lia|]. rewrite <- Y.
  assert (month_of t <= month_of t'); [|lia].
  pose proof (doy_range t T) as R. pose proof (doy_range t' T') as R'.
  unfold month_of, month_day in *. rewrite <- Y in *. set (lp := leap (year_of t)) in *. clearbody lp.
  destruct (month_day_from 1 (month_lengths lp) (doy_of t)) as [m d] eqn:E.
  destruct (month_day_from 1 (month_lengths lp) (doy_of t')) as [m' d'] eqn:E'. cbn [fst] in *.
  apply month_day_spec in E as (A & B & C); [|exact R]. apply month_day_spec in E' as (A' & B' & C'); [|exact R'].
  destruct (Z_le_gt_dec m m'); [assumption|]. exfalso.
  pose proof (before_month lp m' m ltac:(lia) ltac:(lia) ltac:(lia)). lia.
Qed.

(** number of the period of a time *)
Definition pz (p : string) (t : Z) : Z := match period p t with Some k => k | None => 0 end.
Lemma pz_mono p t t' : time_ok t -> time_ok t' -> t <= t' -> pz p t <= pz p t'.
Proof.
  intros T T' L. unfold pz, period.
  destruct (mem_s p _); [change (3600 * sec) with 3600000000000; lia|].
  destruct (mem_s p _); [change (12 * 3600 * sec) with 43200000000000; lia|].
  destruct (mem_s p _); [change day with 86400000000000; lia|].
  destruct (mem_s p _); [change day with 86400000000000; lia|].
  destruct (mem_s p _); [change day with 86400000000000; lia|].
  destruct (mem_s p _); [now apply month_mono|].
  destruct (mem_s p _); [|lia]. destruct (year_mono t t' T T' L); lia.
Qed.
Lemma pz_lt p t t' : time_ok t -> time_ok t' -> pz p t < pz p t' -> t < t'.
Proof. intros T T' L. destruct (Z_lt_ge_dec t t'); [assumption|]. pose proof (pz_mono p t' t T' T ltac:(lia)). lia. Qed.
Lemma known p t : period p t <> None -> forall u, period p u = Some (pz p u).
Proof.
  intros K u. unfold pz, period in *.
  repeat match goal with |- context [if ?b then _ else _] => destruct b; [reflexivity|] end. congruence.
Qed.

Lemma at_date_time_ok y m d t t' : 1 <= m <= 12 -> at_date y m d t = Ok t' -> time_ok t'.
Proof.
  intros M E. unfold at_date in E.
  destruct ((1 <=? d) && (d <=? days_in_month y m) && (1 <=? y) && (y <=? 9999)) eqn:C; [|discriminate].
  rewrite !andb_true_iff, !Z.leb_le in C. destruct C as [[[C1 C2] C3] C4]. injection E as <-.
  pose proof (month_day_rt (leap y) m d M (conj C1 C2)) as [_ R]. cbv zeta in R.
  unfold days_before_month. set (b := fold_right _ _ _) in *. 
  pose proof (before_nonneg (leap y) (Z.to_nat (m - 1))) as B. fold b in B. clearbody b.
  pose proof (year_length y) as YL. pose proof (days_before_year_mono (y + 1) 10000 ltac:(lia)) as Y1.
  assert (Y0 : 0 <= days_before_year y) by (unfold days_before_year; lia).
  unfold time_ok. set (dy := days_before_year y) in *. set (dy' := days_before_year (y + 1)) in *.
  set (dm := days_before_year 10000) in *. clearbody dy dy' dm.
  assert (b + d <= dy' - dy) by (destruct (leap y); lia).
  unfold epoch_day. change day with 86400000000000. lia.
Qed.

Lemma adjacent_later fs p t e t' : time_ok t -> t < e -> time_ok (e + 7 * day) -> last_indicator fs = Some p ->
  is_year_ind p = false -> period p t <> None -> adjacent_time fs t 1 = Ok t' ->
  time_ok t' /\ pz p t' = pz p t + 1 /\ t < t'.
Proof.
  intros T L E LI Y K A. pose proof (known p t K) as KN.
  pose proof (adjacent_period fs p t 1 T (or_introl eq_refl) LI Y (pz p t) (KN t)) as (P & _ & _).
  specialize (P t' A). rewrite KN in P. injection P as P.
  assert (T' : time_ok t').
  { destruct (is_month_ind p) eqn:M.
    - rewrite (adj_month fs t 1 p T (or_introl eq_refl) LI M) in A. eapply at_date_time_ok; [|exact A]. lia.
    - unfold adjacent_time in A. cbn [negb orb Z.eqb Pos.eqb] in A. rewrite LI in A.
      unfold is_month_ind in M. unfold is_year_ind in Y. unfold time_ok in *.
      change (3600 * sec) with 3600000000000 in *. change (12 * 3600 * sec) with 43200000000000 in *.
      change (7 * day) with 604800000000000 in *. change day with 86400000000000 in *.
      repeat match type of A with (if ?b then _ else _) = _ => destruct b; [try discriminate; injection A as <-; lia|] end;
        congruence. }
  split; [exact T'|]. split; [exact P|]. apply (pz_lt p); auto. lia.
Qed.
Lemma adjacent_earlier fs p t t' : time_ok t -> time_ok (t - 7 * day) -> last_indicator fs = Some p ->
  is_year_ind p = false -> period p t <> None -> adjacent_time fs t (-1) = Ok t' ->
  time_ok t' /\ pz p t' = pz p t - 1.
Proof.
  intros T E LI Y K A. pose proof (known p t K) as KN.
  pose proof (adjacent_period fs p t (-1) T (or_intror eq_refl) LI Y (pz p t) (KN t)) as (P & _ & _).
  specialize (P t' A). rewrite KN in P. injection P as P. split; [|lia].
  destruct (is_month_ind p) eqn:M.
  - rewrite (adj_month fs t (-1) p T (or_intror eq_refl) LI M) in A. eapply at_date_time_ok; [|exact A]. lia.
  - unfold adjacent_time in A. cbn [negb orb Z.eqb Pos.eqb] in A. rewrite LI in A.
    unfold is_month_ind in M. unfold is_year_ind in Y. unfold time_ok in *.
    change (3600 * sec) with 3600000000000 in *. change (12 * 3600 * sec) with 43200000000000 in *.
    change (7 * day) with 604800000000000 in *. change day with 86400000000000 in *.
    repeat match type of A with (if ?b then _ else _) = _ => destruct b; [try discriminate; injection A as <-; lia|] end;
      congruence.
Qed.

(** ** traces that lie within other ones *)
Inductive within : list trace -> list trace -> Prop :=
| within_nil : within [] []
| within_skip w l f : within l f -> within l (w :: f)
| within_keep x w l f : no w <= no x -> end_no x <= end_no w -> 0 < npts x -> within l f -> within (x :: l) (w :: f).
Lemma within_none f : within [] f.
Proof. induction f; constructor; auto. Qed.
Lemma within_app l f l' f' : within l f -> within l' f' -> within (l ++ l') (f ++ f').
Proof. induction 1; cbn; intros; auto; [apply within_skip|apply within_keep]; auto. Qed.
Lemma within_in l f x : within l f -> In x l -> 0 < npts x /\ exists w, In w f /\ no w <= no x /\ end_no x <= end_no w.
Proof.
  induction 1 as [|w l f H IH|y w l f A B C H IH]; intros I; [destruct I| |].
  - destruct (IH I) as (P & v & V & ?). split; [exact P|]. exists v. cbn; auto.
  - destruct I as [<-|I]; [split; [exact C|]; exists w; cbn; auto|].
    destruct (IH I) as (P & v & V & ?). split; [exact P|]. exists v. cbn; auto.
Qed.
Lemma within_apart l f : within l f -> ForallOrdPairs apart f -> ForallOrdPairs apart l.
Proof.
  induction 1 as [|w l f H IH|y w l f A B C H IH]; intros P; [constructor| |].
  - inversion P; auto.
  - inversion P as [|? ? F G]; subst. constructor; [|auto].
    rewrite Forall_forall in *. intros x X. destruct (within_in l f x H X) as (_ & v & V & N & E).
    specialize (F v V). unfold apart, before in *. lia.
Qed.
Lemma within_self f : Forall (fun w => 0 < npts w) f -> within f f.
Proof. induction 1; [constructor|]. apply within_keep; auto; lia. Qed.

Section Loop.
  Variables (origin delta : Z) (overlap : trace -> trace -> trace) (glob : string -> list (list trace)).
  Variables (ID : string) (fs : list (list string)) (s e : Z) (trim : bool) (p : string).
  Hypothesis Dpos : 0 < delta.
  Hypothesis Order : s <= e.
  Hypothesis S_ok : time_ok (s - 7 * day).
  Hypothesis E_ok : time_ok (e + 7 * day).
  Hypothesis Ind : last_indicator fs = Some p.
  Hypothesis NoYear : is_year_ind p = false.
  Hypothesis Known : period p s <> None.
  Hypothesis Named : named_by ID fs p.
  Hypothesis Tidy : tidy origin delta glob ID fs p.
  Notation time_no := (time_no origin delta).
  Notation starttime := (starttime origin delta).
  Notation endtime := (endtime origin delta).
  Notation path t := (current_filepattern ID t fs).
  Notation in_file := (in_file origin delta glob ID fs).
  Notation reaches := (reaches origin delta s e).
  Notation merge := (merge overlap).

  Definition near (n : Z) : Prop := trim = true -> 2 * s - delta <= 2 * time_no n <= 2 * e + delta.

  Lemma se_ok t : s <= t <= e -> time_ok t.
  Proof. unfold time_ok in *. change (7 * day) with 604800000000000 in *. lia. Qed.
  Lemma same_period t u : pz p t = pz p u -> period p t = period p u.
  Proof. intros H. rewrite !(known p s Known). congruence. Qed.

  Lemma cut_keeps w n v : value w n = Some v -> s <= time_no n <= e ->
    value (rtrim origin delta e (ltrim origin delta s w)) n = Some v.
  Proof. intros V [A B]. apply rtrim_keeps; auto. apply ltrim_keeps; auto. Qed.
  Lemma cut_value w n v : value (rtrim origin delta e (ltrim origin delta s w)) n = Some v ->
    value w n = Some v /\ 2 * s - delta <= 2 * time_no n <= 2 * e + delta.
  Proof.
    intros V. apply rtrim_value in V as [V N]; auto. apply ltrim_value in V as [V M]; auto.
  Qed.
  Lemma value_samples w n v : value w n = Some v -> has_samples w = true.
  Proof. intros V. apply value_range in V. unfold has_samples, end_no in *. apply Z.ltb_lt. lia. Qed.

  Lemma trim_within f : within (filter has_samples (map (fun w => rtrim origin delta e (ltrim origin delta s w)) f)) f.
  Proof.
    induction f as [|w f IH]; cbn [map filter]; [constructor|].
    destruct (has_samples _) eqn:H; [|now constructor]. apply Z.ltb_lt in H.
    destruct (cut_bounds origin delta s e w H). now apply within_keep.
  Qed.

  Lemma read_file_spec f : f <> [] -> Forall (fun w => 0 < npts w) f ->
    exists l, read_file origin delta s e trim f = Ok l /\ within l f /\
      (forall n v, holds l n v -> near n /\ exists w, In w f /\ value w n = Some v) /\
      (reaches f -> forall w n v, In w f -> value w n = Some v -> s <= time_no n <= e -> holds l n v).
  Proof.
    intros N P. unfold read_file. destruct f as [|first r] eqn:Ef; [contradiction|]. rewrite <- Ef in *.
    destruct (rev f) as [|last r'] eqn:Er.
    { apply (f_equal (@length _)) in Er. rewrite rev_length, Ef in Er. discriminate. }
    assert (EL : f = (rev r' ++ [last])%list) by (rewrite <- (rev_involutive f), Er; reflexivity).
    destruct ((starttime first <? e) && (endtime last >? s)) eqn:C.
    - destruct trim eqn:ET.
      + assert (TS : trim_stream origin delta s e f =
          Ok (filter has_samples (map (fun w => rtrim origin delta e (ltrim origin delta s w)) f))).
        { unfold trim_stream. rewrite Ef. destruct (Z.ltb_spec e s); [lia|reflexivity]. }
        rewrite TS. eexists. split; [reflexivity|]. split; [apply trim_within|]. split.
        * intros n v (w & W & V). apply filter_In in W as [W _]. apply in_map_iff in W as (x & <- & X).
          apply cut_value in V as [V NR]. split; [intros _; exact NR|eauto].
        * intros _ w n v W V B. exists (rtrim origin delta e (ltrim origin delta s w)).
          assert (V' : value (rtrim origin delta e (ltrim origin delta s w)) n = Some v) by now apply cut_keeps.
          split; [|exact V']. apply filter_In. split; [|eapply value_samples; exact V'].
          now apply (in_map (fun w => rtrim origin delta e (ltrim origin delta s w))).
      + exists f. split; [reflexivity|]. split; [now apply within_self|]. split.
        * intros n v (w & W & V). split; [intros ?; congruence|eauto].
        * intros _ w n v W V _. exists w. auto.
    - exists []. split; [reflexivity|]. split; [apply within_none|]. split.
      + intros n v (w & [] & _).
      + intros (first' & last' & a & b & E1 & E2 & R1 & R2). exfalso.
        assert (first' = first) by congruence.
        assert (last' = last) by (apply app_inj_tail with (x := b) (y := rev r'); congruence).
        subst. apply andb_false_iff in C as [C|C]; [apply Z.ltb_ge in C; lia|].
        rewrite Z.gtb_ltb in C. apply Z.ltb_ge in C. lia.
  Qed.

  Lemma read_files_spec gl : (forall f, In f gl -> f <> [] /\ Forall (fun w => 0 < npts w) f) ->
    exists ls, mapM (read_file origin delta s e trim) gl = Ok ls /\ within (concat ls) (concat gl) /\
      (forall n v, holds (concat ls) n v -> near n /\ exists f w, In f gl /\ In w f /\ value w n = Some v) /\
      (forall f w n v, In f gl -> reaches f -> In w f -> value w n = Some v -> s <= time_no n <= e ->
         holds (concat ls) n v).
  Proof.
    induction gl as [|f gl IH]; intros H.
    - exists []. split; [reflexivity|]. split; [constructor|]. split; [intros n v (w & [] & _)|intros f w n v []].
    - destruct (H f (or_introl eq_refl)) as [N P]. destruct (read_file_spec f N P) as (l & E & W & So & Co).
      destruct (IH (fun g G => H g (or_intror G))) as (ls & E' & W' & So' & Co').
      exists (l :: ls). cbn [mapM bind]. rewrite E, E'. split; [reflexivity|]. cbn [concat]. split; [now apply within_app|]. split.
      + intros n v (w & I & V). apply in_app_iff in I as [I|I].
        * destruct (So n v) as (NR & x & X & Q); [exists w; auto|]. split; [exact NR|]. exists f, x. cbn; auto.
        * destruct (So' n v) as (NR & g & x & G & X & Q); [exists w; auto|]. split; [exact NR|]. exists g, x. cbn; auto.
      + intros g w n v [<-|G] R I V B.
        * destruct (Co R w n v I V B) as (x & X & Q). exists x. split; [apply in_app_iff; auto|exact Q].
        * destruct (Co' g w n v G R I V B) as (x & X & Q). exists x. split; [apply in_app_iff; auto|exact Q].
  Qed.

  (** what is known after the files of the periods [lo] to [hi] have been read *)
  Record Inv (lo hi : Z) (st : list trace) : Prop := {
    inv_one : (length st <= 1)%nat;
    inv_range : forall w, In w st -> 0 < npts w /\ time_ok (starttime w) /\ time_ok (endtime w) /\
      lo <= pz p (starttime w) /\ pz p (endtime w) <= hi;
    inv_sound : forall n v, holds st n v -> near n /\ exists f, in_file f n v;
    inv_complete : forall f n v, in_file f n v -> reaches f -> s <= time_no n <= e -> lo <= pz p (time_no n) <= hi ->
      holds st n v }.

  Lemma merge_inv lo hi l : lo <= hi -> ForallOrdPairs apart l ->
    (forall w, In w l -> 0 < npts w /\ time_ok (starttime w) /\ time_ok (endtime w) /\
      lo <= pz p (starttime w) /\ pz p (endtime w) <= hi) ->
    (forall n v, holds l n v -> near n /\ exists f, in_file f n v) ->
    (forall f n v, in_file f n v -> reaches f -> s <= time_no n <= e -> lo <= pz p (time_no n) <= hi -> holds l n v) ->
    Inv lo hi (merge l).
  Proof.
    intros LH A R So Co.
    destruct (merge_all delta overlap l A) as [[-> M]|(w & M & P & (x & X & Ex) & (y & Y & Ey) & V)].
    { apply Forall_forall. intros w W. apply R, W. }
    - rewrite M. constructor; cbn; auto; intros w [].
    - rewrite M.
      assert (H : forall n v, holds [w] n v <-> holds l n v).
      { intros n v. split.
        - intros (w' & [<-|[]] & Q). apply V in Q. exact Q.
        - intros Q. exists w. split; [now left|]. apply V. exact Q. }
      constructor.
      + cbn. lia.
      + intros w' [<-|[]]. split; [exact P|]. destruct (R x X) as (_ & X1 & _ & X2 & _). destruct (R y Y) as (_ & _ & Y1 & _ & Y2).
        unfold ReadFiles.starttime, ReadFiles.endtime in *. rewrite Ex in *. rewrite Ey in *. tauto.
      + intros n v Q. apply So. now apply H.
      + intros f n v F Re B K. apply H. eapply Co; eauto.
  Qed.

  Lemma read_period t pat : time_ok t -> path t = Ok pat ->
    exists st, read_filepattern origin delta overlap glob pat s e trim = Ok st /\ Inv (pz p t) (pz p t) st.
  Proof.
    intros T E. destruct (Tidy t pat T E) as [F A].
    destruct (read_files_spec (glob pat)) as (ls & M & W & So & Co).
    { intros f I. destruct (F f I) as (N & _ & G). split; [exact N|]. apply Forall_forall. intros w Iw. now apply G. }
    unfold read_filepattern. rewrite M. cbn [bind]. eexists. split; [reflexivity|].
    assert (Pw : forall f w, In f (glob pat) -> In w f -> forall n, no w <= n <= end_no w -> time_ok (time_no n) /\ pz p (time_no n) = pz p t).
    { intros f w I Iw n B. destruct (F f I) as (_ & _ & G). destruct (G w Iw) as (_ & G1 & G2 & G3 & G4).
      assert (O : time_ok (time_no n)).
      { apply (time_ok_between (starttime w) (endtime w)); auto. unfold ReadFiles.starttime, ReadFiles.endtime.
        split; apply (proj1 (time_le origin delta Dpos _ _)); lia. }
      split; [exact O|].
      assert (pz p (starttime w) <= pz p (time_no n)) by (apply pz_mono; auto; apply (proj1 (time_le origin delta Dpos _ _)); lia).
      assert (pz p (time_no n) <= pz p (endtime w)) by (apply pz_mono; auto; apply (proj1 (time_le origin delta Dpos _ _)); lia).
      unfold pz at 1 in H. rewrite G2 in H. unfold pz at 2 in H0. rewrite G4 in H0. fold (pz p t) in H, H0. lia. }
    apply merge_inv; [lia|eapply within_apart; eauto| | |].
    - intros x X. destruct (within_in _ _ x W X) as (P & w & Iw & N1 & N2).
      apply in_concat in Iw as (f & I & Iw). split; [exact P|].
      destruct (Pw f w I Iw (no x)) as [O1 Q1]; [unfold end_no in *; lia|].
      destruct (Pw f w I Iw (end_no x)) as [O2 Q2]; [unfold end_no in *; lia|].
      unfold ReadFiles.starttime, ReadFiles.endtime. rewrite Q1, Q2. split; [exact O1|split; [exact O2|split; lia]].
    - intros n v H. destruct (So n v H) as (NR & f & w & I & Iw & V). split; [exact NR|].
      exists f, pat, w. destruct (Pw f w I Iw n (value_range _ _ _ V)) as [O Q].
      split; [|auto]. rewrite (Named (time_no n) t); auto. now apply same_period.
    - intros f n v (pat' & w & E' & I & Iw & V) R B K.
      assert (pat' = pat); [|subst; eapply Co; eauto].
      assert (O : time_ok (time_no n)) by now apply se_ok.
      rewrite (Named (time_no n) t) in E'; auto; [congruence|]. apply same_period. lia.
  Qed.

  Lemma join_inv lo mid hi st st' l : lo <= mid + 1 -> mid <= hi -> Inv lo mid st -> Inv (mid + 1) hi st' ->
    l = (st ++ st')%list \/ l = (st' ++ st)%list -> lo <= hi -> Inv lo hi (merge l).
  Proof.
    intros L1 L2 [O1 R1 S1 C1] [O2 R2 S2 C2] El LH.
    assert (In_l : forall w, In w l <-> In w st \/ In w st').
    { intros w. destruct El; subst l; rewrite in_app_iff; tauto. }
    assert (H : forall n v, holds l n v <-> holds st n v \/ holds st' n v).
    { intros n v. unfold holds. split.
      - intros (w & W & V). apply In_l in W as [W|W]; [left|right]; eauto.
      - intros [(w & W & V)|(w & W & V)]; exists w; (split; [apply In_l|]); auto. }
    apply merge_inv; [lia| | | |].
    - assert (A : forall a b, In a st -> In b st' -> before a b).
      { intros a b Ia Ib. destruct (R1 a Ia) as (_ & _ & Oa & _ & Ea). destruct (R2 b Ib) as (_ & Ob & _ & Eb & _).
        unfold before. apply (proj2 (time_lt origin delta Dpos _ _)). apply (pz_lt p); auto. unfold ReadFiles.endtime, ReadFiles.starttime in *. lia. }
      destruct st as [|a [|? ?]]; cbn in O1; try lia; destruct st' as [|b [|? ?]]; cbn in O2; try lia;
        destruct El; subst l; cbn [app];
        repeat first [apply FOP_nil | apply FOP_cons | apply Forall_nil | apply Forall_cons]; [left|right]; apply A; now left.
    - intros w W. apply In_l in W as [W|W]; [destruct (R1 w W) as (? & ? & ? & ? & ?)|destruct (R2 w W) as (? & ? & ? & ? & ?)];
        (split; [assumption|split; [assumption|split; [assumption|split; lia]]]).
    - intros n v Q. apply H in Q as [Q|Q]; auto.
    - intros f n v F Re B K. apply H. destruct (Z_le_gt_dec (pz p (time_no n)) mid); [left|right]; [eapply C1|eapply C2]; eauto; lia.
  Qed.

  Lemma loop_inv fuel : forall this st st' lo, Inv lo (pz p this) st -> lo <= pz p s -> s <= this -> time_ok this ->
    later_files origin delta overlap glob ID fs s e trim fuel this st = Ok st' ->
    exists hi, Inv lo hi st' /\ (forall n, s <= time_no n <= e -> lo <= pz p (time_no n) <= hi).
  Proof.
    induction fuel as [|fuel IH]; intros this st st' lo I LO ST TO; cbn [later_files].
    all: destruct (ends_early origin delta e st && (this <? e)) eqn:C; [|].
    all: try discriminate.
    1, 3: intros E; injection E as <-; exists (pz p this); split; [exact I|]; intros n B; pose proof (se_ok _ B) as O;
      (split; [pose proof (pz_mono p s (time_no n) (se_ok s ltac:(lia)) O ltac:(lia)); lia|]);
      apply andb_false_iff in C as [C|C]; [|apply Z.ltb_ge in C; apply pz_mono; auto; lia];
      destruct st as [|w r]; [discriminate|]; cbn [ends_early] in C; apply Z.ltb_ge in C;
      destruct (inv_range _ _ _ I w (or_introl eq_refl)) as (_ & _ & Ow & _ & Ew);
      pose proof (pz_mono p (time_no n) (endtime w) O Ow ltac:(lia)); lia.
    apply andb_true_iff in C as [_ C]. apply Z.ltb_lt in C.
    assert (TK : period p this <> None) by (rewrite (known p s Known); discriminate).
    destruct (adjacent_time fs this 1) as [this'|] eqn:A; [|discriminate]. cbn [bind].
    destruct (adjacent_later fs p this e this' TO C E_ok Ind NoYear TK A) as (O' & P' & L').
    destruct (path this') as [pat|] eqn:PT; [|discriminate]. cbn [bind].
    destruct (Z.eqb_spec this' s); [lia|].
    destruct (read_period this' pat O' PT) as (more & RM & IM). rewrite RM. cbn [bind]. intros E.
    eapply IH; [| | |exact O'|exact E]; try lia.
    assert (pz p s <= pz p this) by (apply pz_mono; auto; apply se_ok; lia).
    apply (join_inv lo (pz p this) (pz p this') st more); auto; try lia. rewrite P' in IM |- *. exact IM.
  Qed.

  Theorem read_inv fuel st : read_from_filesystem origin delta overlap glob ID fs s e trim fuel = Ok st ->
    (length st <= 1)%nat /\
    (forall n v, holds st n v -> near n /\ exists f, in_file f n v) /\
    (forall f n v, in_file f n v -> reaches f -> s <= time_no n <= e -> holds st n v).
  Proof.
    unfold read_from_filesystem, read_at. pose proof (se_ok s ltac:(lia)) as SO.
    destruct (path s) as [pat|] eqn:PT; [|discriminate]. cbn [bind].
    destruct (read_period s pat SO PT) as (st0 & R0 & I0). rewrite R0. cbn [bind].
    assert (F : exists lo, lo <= pz p s /\ forall st1,
      (if begins_late origin delta s st0 then
         do t <- adjacent_time fs s (-1); do more <- (do pat <- path t; read_filepattern origin delta overlap glob pat s e trim);
         Ok (merge (st0 ++ more))
       else Ok st0) = Ok st1 -> Inv lo (pz p s) st1).
    { destruct (begins_late origin delta s st0); [exists (pz p s - 1)|exists (pz p s)]; (split; [lia|]); intros st1.
      - destruct (adjacent_time fs s (-1)) as [t|] eqn:A; [|discriminate]. cbn [bind].
        destruct (adjacent_earlier fs p s t SO S_ok Ind NoYear Known A) as [TO TP].
        destruct (path t) as [pat'|] eqn:PT'; [|discriminate]. cbn [bind].
        destruct (read_period t pat' TO PT') as (more & RM & IM). rewrite RM. cbn [bind]. intros E. injection E as <-.
        rewrite TP in IM. apply (join_inv (pz p s - 1) (pz p s - 1) (pz p s) more st0); auto; try lia.
        replace (pz p s - 1 + 1) with (pz p s) by lia. exact I0.
      - intros E. injection E as <-. exact I0. }
    destruct F as (lo & LO & F).
    match goal with |- context [bind ?x _] => destruct x as [st1|] eqn:E1 end; [|discriminate].
    specialize (F st1 eq_refl). cbn [bind].
    destruct (later_files _ _ _ _ _ _ _ _ _ fuel s st1) as [st2|] eqn:E2; [|discriminate]. cbn [bind].
    destruct (loop_inv fuel s st1 st2 lo F LO ltac:(lia) SO E2) as (hi & [O R So Co] & Cov).
    assert (Co' : forall f n v, in_file f n v -> reaches f -> s <= time_no n <= e -> holds st2 n v).
    { intros f n v Fi Re B. eapply Co; eauto. }
    destruct trim eqn:ET; [|intros E; injection E as <-; auto].
    unfold trim_stream. destruct st2 as [|w r] eqn:E3; [intros E; injection E as <-; auto|]. rewrite <- E3 in *.
    destruct (Z.ltb_spec e s); [lia|]. intros E. injection E as <-. split; [|split].
    - rewrite E3 in O |- *. destruct r; [|cbn in O; lia]. cbn. destruct (has_samples _); cbn; lia.
    - intros n v (x & X & V). apply filter_In in X as [X _]. apply in_map_iff in X as (y & <- & Y).
      apply cut_value in V as [V _]. apply So. exists y. auto.
    - intros f n v Fi Re B. destruct (Co' f n v Fi Re B) as (x & X & V).
      pose proof (cut_keeps x n v V B) as V'. eexists. split; [|exact V'].
      apply filter_In. split; [|eapply value_samples; exact V'].
      now apply (in_map (fun w => rtrim origin delta e (ltrim origin delta s w))).
  Qed.

  (** ** it always ends *)
  Hypothesis NoMonth : is_month_ind p = false.
  Hypothesis Paths : forall t, exists pat, path t = Ok pat.
  Lemma step_ok t inc : inc = 1 \/ inc = -1 -> exists t', adjacent_time fs t inc = Ok t' /\ (inc = 1 -> t + 3600 * sec <= t').
  Proof.
    intros I. unfold adjacent_time. replace ((inc =? 1) || (inc =? -1)) with true by (destruct I; subst; reflexivity). cbn [negb].
    rewrite Ind. pose proof Known as K. unfold period in K. unfold is_month_ind in NoMonth. unfold is_year_ind in NoYear.
    rewrite NoMonth, NoYear in K |- *.
    change (mem_s p ["%U"; "%W"]%string) with (String.eqb p "%U" || (String.eqb p "%W" || false)).
    change (mem_s p ["%U"]%string) with (String.eqb p "%U" || false) in K.
    change (mem_s p ["%W"]%string) with (String.eqb p "%W" || false) in K.
    change (3600 * sec) with 3600000000000. change (12 * 3600 * sec) with 43200000000000.
    change (7 * day) with 604800000000000. change day with 86400000000000.
    destruct (mem_s p ["%H"; "%I"]%string); [eexists; split; [reflexivity|lia]|].
    destruct (mem_s p ["%p"]%string); [eexists; split; [reflexivity|lia]|].
    destruct (mem_s p ["%a"; "%A"; "%w"; "%d"; "%j"; "%-j"]%string); [eexists; split; [reflexivity|lia]|].
    destruct (String.eqb p "%U"); cbn [orb] in *; [eexists; split; [reflexivity|lia]|].
    destruct (String.eqb p "%W"); cbn [orb] in *; [eexists; split; [reflexivity|lia]|]. congruence.
  Qed.
  Lemma loop_ends fuel : forall this st, s <= this -> time_ok this -> e - this <= Z.of_nat fuel * (3600 * sec) ->
    exists st', later_files origin delta overlap glob ID fs s e trim fuel this st = Ok st'.
  Proof.
    induction fuel as [|fuel IH]; intros this st ST TO FU; cbn [later_files].
    - destruct (Z.ltb_spec this e); [lia|]. rewrite andb_false_r. eauto.
    - destruct (ends_early origin delta e st && (this <? e)) eqn:C; [|eauto].
      apply andb_true_iff in C as [_ C]. apply Z.ltb_lt in C.
      assert (TK : period p this <> None) by (rewrite (known p s Known); discriminate).
      destruct (step_ok this 1 (or_introl eq_refl)) as (this' & A & L). rewrite A. cbn [bind]. specialize (L eq_refl).
      destruct (adjacent_later fs p this e this' TO C E_ok Ind NoYear TK A) as (O' & P' & L').
      destruct (Paths this') as [pat PT]. rewrite PT. cbn [bind].
      destruct (Z.eqb_spec this' s); [lia|].
      destruct (read_period this' pat O' PT) as (more & RM & _). rewrite RM. cbn [bind].
      apply IH; auto; change (3600 * sec) with 3600000000000 in *; lia.
  Qed.
  Theorem read_ends fuel : e - s <= Z.of_nat fuel * (3600 * sec) ->
    exists st, read_from_filesystem origin delta overlap glob ID fs s e trim fuel = Ok st.
  Proof.
    intros FU. unfold read_from_filesystem, read_at. pose proof (se_ok s ltac:(lia)) as SO.
    destruct (Paths s) as [pat PT]. rewrite PT. cbn [bind].
    destruct (read_period s pat SO PT) as (st0 & R0 & I0). rewrite R0. cbn [bind].
    assert (F : exists st1,
      (if begins_late origin delta s st0 then
         do t <- adjacent_time fs s (-1); do more <- (do pat <- path t; read_filepattern origin delta overlap glob pat s e trim);
         Ok (merge (st0 ++ more))
       else Ok st0) = Ok st1).
    { destruct (begins_late origin delta s st0); [|eauto].
      destruct (step_ok s (-1) (or_intror eq_refl)) as (t & A & _). rewrite A. cbn [bind].
      destruct (adjacent_earlier fs p s t SO S_ok Ind NoYear Known A) as [TO TP].
      destruct (Paths t) as [pat' PT']. rewrite PT'. cbn [bind].
      destruct (read_period t pat' TO PT') as (more & RM & IM). rewrite RM. cbn [bind]. eauto. }
    destruct F as (st1 & F). rewrite F. cbn [bind].
    destruct (loop_ends fuel s st1 ltac:(lia) SO FU) as (st2 & E2). rewrite E2. cbn [bind].
    destruct trim; [|eauto]. unfold trim_stream. destruct st2; [eauto|]. destruct (Z.ltb_spec e s); [lia|eauto].
  Qed.
End Loop.
