(** Proofs about the alignment of several curves. *)
From Coq Require Import QArith Lqa Sorted.
From Verif Require Import Lib.Base Lib.Str Model.CorrStream Model.LagMatrix Model.DVs Model.Averages
  Spec.LagSpec Spec.DVSpec Spec.AveragesSpec Proofs.LagFacts Proofs.DVFacts Proofs.MovingFacts.
Local Open Scope nat_scope.

(** ** mean starts *)
Lemma select_avail d : select (d_t0 d) (avail d) = map fst (filter (fun p => is_some (snd p)) (combine (d_t0 d) (d_corr d))).
Proof.
  unfold select, avail. generalize (d_corr d). induction (d_t0 d) as [|t l IH]; intros [|c r]; cbn; try reflexivity.
  destruct (is_some c); cbn; now rewrite IH.
Qed.
Lemma inject_pos n : n <> 0 -> (0 < inject_Z (Z.of_nat n))%Q.
Proof. intros N. change 0%Q with (inject_Z 0). rewrite <- Zlt_Qlt. lia. Qed.
Lemma centre_mean d c : centre d = Some c -> mean_start d c.
Proof.
  unfold centre, mean_start. rewrite select_avail. set (k := map fst _). destruct k as [|t l] eqn:E; [discriminate|]. intros H.
  assert (HC : c = Qred (inject_Z (fold_right Z.add 0%Z (t :: l)) / inject_Z (Z.of_nat (length (t :: l))))) by congruence. clear H. subst c.
  exists (t :: l). split; [discriminate|]. split; [reflexivity|]. rewrite Qred_correct. field.
  pose proof (inject_pos (length (t :: l))) as P. cbn in P |- *. specialize (P ltac:(discriminate)). lra.
Qed.
Lemma mean_centre d c : mean_start d c -> exists c', centre d = Some c' /\ (c' == c)%Q.
Proof.
  intros (l & N & E & H). unfold centre. rewrite select_avail, <- E. destruct l as [|t l]; [now destruct N|].
  eexists. split; [reflexivity|]. rewrite Qred_correct, <- H. field.
  pose proof (inject_pos (length (t :: l))) as P. cbn in P |- *. specialize (P ltac:(discriminate)). lra.
Qed.
Lemma centred_mean u d : centred_at u d = true <-> mean_start d u.
Proof.
  unfold centred_at. split.
  - destruct (centre d) as [c|] eqn:E; [|discriminate]. intros H. apply Qeq_bool_iff in H. apply centre_mean in E as (l & N & L & S).
    exists l. split; [exact N|]. split; [exact L|]. now rewrite <- H.
  - intros H. apply mean_centre in H as (c & -> & E). now apply Qeq_bool_iff.
Qed.
Lemma mean_start_unique d a b : mean_start d a -> mean_start d b -> (a == b)%Q.
Proof.
  intros (l & N & E & H) (l' & N' & E' & H'). rewrite <- E in E'. subst l'.
  assert (P : (0 < inject_Z (Z.of_nat (length l)))%Q) by (apply inject_pos; destruct l; [now destruct N|discriminate]).
  assert (K : (a * inject_Z (Z.of_nat (length l)) == b * inject_Z (Z.of_nat (length l)))%Q) by (rewrite H, H'; reflexivity).
  apply Qmult_inj_r in K; [exact K|lra].
Qed.
Lemma mean_start_eq d a b : (a == b)%Q -> mean_start d a -> mean_start d b.
Proof. intros Q (l & N & E & H). exists l. split; [exact N|]. split; [exact E|]. now rewrite <- Q. Qed.

(** ** unique *)
Lemma uinsert_in x l : forall y, In y (uinsert x l) -> y = x \/ In y l.
Proof.
  induction l as [|z l IH]; intros y; cbn; [intuition|]. destruct (Qeq_bool x z); [intuition|]. destruct (Qle_bool x z); cbn; [intuition|].
  intros [->|I]; [intuition|]. destruct (IH y I); intuition.
Qed.
Lemma uinsert_has x l : exists y, In y (uinsert x l) /\ (y == x)%Q.
Proof.
  induction l as [|z l IH]; cbn; [exists x; split; [now left|reflexivity]|].
  destruct (Qeq_bool x z) eqn:E; [exists z; apply Qeq_bool_iff in E; split; [now left|now rewrite E]|].
  destruct (Qle_bool x z); [exists x; split; [now left|reflexivity]|]. destruct IH as (y & I & H). exists y. split; [now right|exact H].
Qed.
Lemma uinsert_keep x l : forall y, In y l -> In y (uinsert x l).
Proof.
  induction l as [|z l IH]; intros y; [intros []|]. intros I. cbn. destruct (Qeq_bool x z); [exact I|]. destruct (Qle_bool x z); [now right|].
  destruct I as [->|I]; [now left|right; auto].
Qed.
Lemma uinsert_sorted x l : StronglySorted Qlt l -> StronglySorted Qlt (uinsert x l).
Proof.
  induction 1 as [|y l S IH F]; cbn; [repeat constructor|]. rewrite Forall_forall in F.
  destruct (Qeq_bool x y) eqn:E; [constructor; [exact S|now apply Forall_forall]|].
  apply Qeq_bool_neq in E. destruct (Qle_bool x y) eqn:L.
  - apply Qle_bool_iff in L. assert (H : (x < y)%Q) by (apply Qle_lteq in L as [L|L]; [exact L|contradiction]).
    constructor; [constructor; [exact S|now apply Forall_forall]|]. constructor; [exact H|]. apply Forall_forall. intros z I.
    apply (Qlt_trans _ y); auto.
  - assert (H : (y < x)%Q) by (apply Qnot_le_lt; intros C; apply Qle_bool_iff in C; congruence).
    constructor; [exact IH|]. apply Forall_forall. intros z I. apply uinsert_in in I as [->|I]; auto.
Qed.
Lemma unique_spec l : StronglySorted Qlt (unique l) /\ (forall y, In y (unique l) -> In (Some y) l) /\
  (forall x, In (Some x) l -> exists y, In y (unique l) /\ (y == x)%Q).
Proof.
  unfold unique. induction l as [|[x|] l (S & I & H)].
  - cbn. split; [constructor|]. split; intros ? [].
  - change (defined (Some x :: l)) with (x :: defined l). cbn [fold_right]. split; [now apply uinsert_sorted|]. split.
    + intros y Y. apply uinsert_in in Y as [->|Y]; [now left|right; auto].
    + intros z [Z|Z]; [injection Z as <-; apply uinsert_has|]. destruct (H z Z) as (y & Y & E). exists y. split; [now apply uinsert_keep|exact E].
  - change (defined (None :: l)) with (defined l). split; [exact S|]. split; [intros; right; auto|]. intros z [Z|Z]; [discriminate|auto].
Qed.

(** ** the loop *)
Lemma where_true_head l i : (exists r, where_true l = i :: r) <-> nth_error l i = Some true /\ forall j, nth_error l j = Some true -> i <= j.
Proof.
  unfold where_true.
  assert (G : forall l k i, (exists r, map fst (filter snd (combine (seq k (length l)) l)) = i :: r) <->
     k <= i /\ nth_error l (i - k) = Some true /\ forall j, nth_error l j = Some true -> i <= k + j).
  { clear. induction l as [|b l IH]; intros k i; cbn.
    - split; [intros [r H]; discriminate|]. intros (_ & H & _). destruct (i - k); discriminate.
    - destruct b; cbn.
      + split.
        * intros [r [= <- _]]. split; [lia|]. rewrite Nat.sub_diag. split; [reflexivity|]. intros; lia.
        * intros (L & N & H). specialize (H 0 eq_refl). assert (i = k) as -> by lia. eexists. reflexivity.
      + rewrite IH. split.
        * intros (L & N & H). split; [lia|]. replace (i - k) with (S (i - S k)) by lia. split; [exact N|].
          intros [|j] J; [discriminate|]. apply H in J. lia.
        * intros (L & N & H). destruct (i - k) as [|m] eqn:E; [discriminate|]. split; [lia|]. replace (i - S k) with m by lia.
          split; [exact N|]. intros j J. specialize (H (S j) J). lia. }
  specialize (G l 0 i). rewrite G. rewrite Nat.sub_0_r. split; [intros (_ & A & B); auto|]. intros [A B]. split; [lia|auto].
Qed.
Lemma nth_error_combine {A B} (l : list A) (m : list B) i x y : nth_error l i = Some x -> nth_error m i = Some y ->
  nth_error (combine l m) i = Some (x, y).
Proof. revert m i. induction l as [|a l IH]; intros [|b m] [|i]; cbn; try discriminate; [congruence|apply IH]. Qed.

Section Loop.
  Variables (m : shift_method) (n : Z) (orig : list dv).
  Definition first_at (u : Q) (r : nat) : Prop := exists e, nth_error orig r = Some e /\ centred_at u e = true /\
    forall j f, nth_error orig j = Some f -> centred_at u f = true -> r <= j.
  Lemma group_step_spec u v dvs dvs' : length dvs = length orig -> group_step m n orig u v dvs = Ok dvs' ->
    length dvs' = length orig /\ exists r ref, first_at u r /\ nth_error dvs r = Some ref /\
    forall i o d, nth_error orig i = Some o -> nth_error dvs i = Some d -> exists d', nth_error dvs' i = Some d' /\
      (centred_at v o = false -> d' = d) /\ (centred_at v o = true -> attempt m n d ref = Ok d').
  Proof.
    intros L. unfold group_step. destruct (where_true (map (centred_at u) orig)) as [|r w] eqn:W; [discriminate|].
    destruct (nth_error dvs r) as [ref|] eqn:R; [|discriminate]. intros M. apply mapM_nth in M as [LM M].
    split; [rewrite LM, combine_length; lia|]. exists r, ref. split; [|split; [exact R|]].
    - assert (H : exists w, where_true (map (centred_at u) orig) = r :: w) by eauto. apply where_true_head in H as [H1 H2].
      rewrite nth_error_map in H1. destruct (nth_error orig r) as [e|] eqn:E; [|discriminate]. cbn in H1. injection H1 as H1.
      exists e. repeat split; [exact E|exact H1|]. intros j f F C. apply H2. now rewrite nth_error_map, F; cbn; rewrite C.
    - intros i o d O D. destruct (M i (o, d) (nth_error_combine _ _ _ _ _ O D)) as (d' & E & N). cbn [fst snd] in E.
      exists d'. split; [exact N|]. destruct (centred_at v o); split; try discriminate; intros _; [exact E|congruence].
  Qed.
  Lemma centred_eq u v o : centred_at u o = true -> centred_at v o = true -> (u == v)%Q.
  Proof. rewrite !centred_mean. apply mean_start_unique. Qed.
  Lemma centred_other u v o : centred_at u o = true -> ~ (u == v)%Q -> centred_at v o = false.
  Proof. intros C N. destruct (centred_at v o) eqn:E; [|reflexivity]. destruct N. now apply (centred_eq u v o). Qed.

  Lemma loop_spec us : StronglySorted Qlt us -> forall dvs res, length dvs = length orig -> group_loop m n orig us dvs = Ok res ->
    length res = length orig /\ forall i o d, nth_error orig i = Some o -> nth_error dvs i = Some d ->
    ((forall v, In v (tl us) -> centred_at v o = false) -> nth_error res i = Some d) /\
    (forall us1 u v us2, us = us1 ++ u :: v :: us2 -> centred_at v o = true ->
       exists r ref d', first_at u r /\ nth_error res r = Some ref /\ nth_error res i = Some d' /\ attempt m n d ref = Ok d').
  Proof.
    induction 1 as [|u us S IH F]; intros dvs res L; cbn [group_loop].
    - intros [= <-]. split; [exact L|]. intros i o d O D. split; [auto|]. intros us1 u v us2 E. destruct us1; discriminate.
    - destruct us as [|v us].
      + intros [= <-]. split; [exact L|]. intros i o d O D. split; [auto|]. intros us1 u' v us2 E. destruct us1 as [|? [|? ?]]; discriminate.
      + destruct (group_step m n orig u v dvs) as [dvs'|] eqn:G; [|discriminate]. cbn [bind]. intros H.
        destruct (group_step_spec u v dvs dvs' L G) as (L' & r & ref & FR & R & ST).
        destruct (IH dvs' res L' H) as (LR & SP). split; [exact LR|]. intros i o d O D.
        destruct (ST i o d O D) as (d' & D' & KEEP & CORR). destruct (SP i o d' O D') as [SPa SPb].
        inversion S as [|? ? S' F']; subst. rewrite Forall_forall in F'. rewrite Forall_forall in F. split.
        * cbn [tl]. intros A. rewrite SPa; [f_equal; apply KEEP, A; now left|]. intros w I. apply A. now right.
        * intros us1 u' v' us2 E C. destruct us1 as [|x us1].
          -- injection E as <- <- <-. exists r, ref, d'. split; [exact FR|].
             destruct FR as (e & Er & Cr & _). destruct (ST r e ref Er R) as (ref' & R' & KR & _).
             assert (UV : (u < v)%Q) by (apply F; now left).
             rewrite KR in R' by (apply (centred_other u); [exact Cr|lra]).
             destruct (SP r e ref Er R') as [SPr _]. split; [|split].
             ++ apply SPr. cbn [tl]. intros w I. apply (centred_other u); [exact Cr|]. assert (u < w)%Q by (apply F; now right). lra.
             ++ apply SPa. cbn [tl]. intros w I. apply (centred_other v); [exact C|]. assert (v < w)%Q by (apply F'; exact I). lra.
             ++ now apply CORR.
          -- injection E as <- E. destruct (SPb us1 u' v' us2 E C) as (r' & ref' & d'' & A1 & A2 & A3 & A4).
             exists r', ref', d''. repeat split; try assumption.
             rewrite <- KEEP; [exact A4|]. apply (centred_other v'); [exact C|].
             assert (v < v')%Q; [|lra]. destruct us1 as [|y us1]; injection E as <- E.
             ++ apply F'. rewrite E. now left.
             ++ apply F'. rewrite E. apply in_or_app. right. right. now left.
  Qed.
End Loop.

Lemma sorted_split us v : StronglySorted Qlt us -> In v us -> (exists r, us = v :: r) \/
  (exists us1 u us2, us = us1 ++ u :: v :: us2).
Proof.
  intros _ I. apply in_split in I as (a & b & ->). destruct a as [|x a _] using rev_ind; [left; exists b; reflexivity|].
  right. exists a, x, b. now rewrite <- app_assoc.
Qed.
Lemma sorted_consecutive us1 u v us2 w : StronglySorted Qlt (us1 ++ u :: v :: us2) -> In w (us1 ++ u :: v :: us2) -> (w < v)%Q -> (w <= u)%Q.
Proof.
  induction us1 as [|x us1 IH]; cbn [app]; intros S I H.
  - inversion S as [|? ? S' F]; subst. inversion S' as [|? ? S'' F']; subst. destruct I as [<-|[<-|I]]; [lra|lra|].
    rewrite Forall_forall in F'. specialize (F' w I). lra.
  - inversion S as [|? ? S' F]; subst. destruct I as [<-|I]; [|auto]. rewrite Forall_forall in F.
    assert (x < u)%Q by (apply F, in_or_app; right; now left). lra.
Qed.

Theorem align_spec m n dvs res : align_several m n dvs = Ok res ->
  length res = length dvs /\
  forall i d, nth_error dvs i = Some d -> exists d', nth_error res i = Some d' /\
    ((forall r, ~ predecessor dvs i r) -> d' = d) /\
    (forall r, predecessor dvs i r -> exists ref, nth_error res r = Some ref /\
       (correct_dv_shift d ref m n = Ok d' \/ (correct_dv_shift d ref m n = Raise ValueError /\ d' = d))).
Proof.
  unfold align_several. set (us := unique (map centre dvs)). intros H.
  destruct (unique_spec (map centre dvs)) as (S & IN & HAS). fold us in S, IN, HAS.
  destruct (loop_spec m n dvs us S dvs res eq_refl H) as (L & SP). split; [exact L|]. intros i d D.
  destruct (SP i d d D D) as [SPa SPb].
  (* centres in the list *)
  assert (INM : forall v, In v us -> exists j f, nth_error dvs j = Some f /\ mean_start f v).
  { intros v I. apply IN in I. apply in_map_iff in I as (f & C & I). apply In_nth_error in I as (j & J). exists j, f. split; [exact J|].
    now apply centre_mean. }
  assert (HASM : forall j f a, nth_error dvs j = Some f -> mean_start f a -> exists v, In v us /\ (v == a)%Q).
  { intros j f a J A. apply mean_centre in A as (c & C & E). destruct (HAS c) as (v & I & V).
    - apply in_map_iff. exists f. split; [exact C|]. eapply nth_error_In; exact J.
    - exists v. split; [exact I|]. now rewrite V. }
  destruct (centre d) as [c|] eqn:C.
  2:{ (* no measurements *)
    assert (NM : forall a, ~ mean_start d a) by (intros a A; apply mean_centre in A as (c & A & _); congruence).
    assert (N : nth_error res i = Some d).
    { apply SPa. intros v _. destruct (centred_at v d) eqn:E; [|reflexivity]. apply centred_mean in E. now destruct (NM v). }
    exists d. split; [exact N|]. split; [auto|]. intros r [(d1 & e & c & b & D1 & _ & MC & _)]. rewrite D in D1. injection D1 as <-. now destruct (NM c). }
  pose proof (centre_mean d c C) as MC. destruct (HASM i d c D MC) as (v & IV & EV).
  assert (MV : mean_start d v) by (apply (mean_start_eq d c); [now symmetry|exact MC]).
  destruct (sorted_split us v S IV) as [[r ER]|(us1 & u & us2 & ER)].
  - (* the earliest *)
    assert (MIN : forall w, In w us -> (v <= w)%Q).
    { intros w I. rewrite ER in I, S. inversion S as [|? ? S' F]; subst. destruct I as [<-|I]; [lra|]. rewrite Forall_forall in F. specialize (F w I). lra. }
    assert (N : nth_error res i = Some d).
    { apply SPa. intros w I. apply (centred_other v); [now apply centred_mean|]. rewrite ER in I, S. inversion S as [|? ? S' F]; subst. cbn [tl] in I.
      rewrite Forall_forall in F. specialize (F w I). lra. }
    exists d. split; [exact N|]. split; [auto|]. intros r0 [(d1 & e & c1 & b & D1 & E1 & MC1 & MB & LT & _)]. exfalso. rewrite D in D1. injection D1 as <-.
    destruct (HASM r0 e b E1 MB) as (w & IW & EW). specialize (MIN w IW). pose proof (mean_start_unique d c1 v MC1 MV). lra.
  - assert (UV : (u < v)%Q).
    { rewrite ER in S. clear -S. induction us1 as [|x us1 IH]; cbn in S; inversion S as [|? ? S' F]; subst; [|auto].
      rewrite Forall_forall in F. apply F. now left. }
    destruct (SPb us1 u v us2 ER (proj2 (centred_mean v d) MV)) as (r & ref & d' & FR & R & D' & A).
    assert (PR : predecessor dvs i r).
    { destruct FR as (e & Er & Cr & LE). apply centred_mean in Cr. split. exists d, e, v, u. repeat split; try assumption.
      - destruct (HASM j f a H0 H1) as (w & IW & EW). rewrite <- EW. apply (sorted_consecutive us1 u v us2); [now rewrite <- ER|now rewrite <- ER|].
        now rewrite EW.
      - intros Q. apply (LE j f); [assumption|]. apply centred_mean. now apply (mean_start_eq f a). }
    assert (UNIQ : forall r', predecessor dvs i r' -> r' = r).
    { intros r' [(d1 & e1 & c1 & b1 & D1 & E1 & MC1 & MB1 & LT1 & M1)]. destruct PR as [(d2 & e2 & c2 & b2 & D2 & E2 & MC2 & MB2 & LT2 & M2)].
      rewrite D in D1, D2. injection D1 as <-. injection D2 as <-. pose proof (mean_start_unique d c1 c2 MC1 MC2) as Q.
      destruct (M1 r e2 b2 E2 MB2) as [A1 A2]; [lra|]. destruct (M2 r' e1 b1 E1 MB1) as [B1 B2]; [lra|].
      assert (EQ : (b1 == b2)%Q) by lra. specialize (B2 EQ). symmetry in EQ. specialize (A2 EQ). lia. }
    exists d'. split; [exact D'|]. split; [intros N; destruct (N r PR)|]. intros r' P. rewrite (UNIQ r' P). exists ref. split; [exact R|].
    unfold attempt in A. destruct (correct_dv_shift d ref m n) as [x|[]]; try discriminate; injection A as ->; auto.
Qed.

(** a predecessor exists unless the curve is empty or none is earlier *)
Theorem predecessor_exists dvs i d c : nth_error dvs i = Some d -> mean_start d c ->
  (exists j f a, nth_error dvs j = Some f /\ mean_start f a /\ (a < c)%Q) -> exists r, predecessor dvs i r.
Proof.
  intros D MC (j & f & a & J & MA & LT). destruct (unique_spec (map centre dvs)) as (S & IN & HAS). set (us := unique (map centre dvs)) in *.
  assert (HASM : forall j f a, nth_error dvs j = Some f -> mean_start f a -> exists v, In v us /\ (v == a)%Q).
  { clear -HAS. intros j f a J A. apply mean_centre in A as (c & C & E). destruct (HAS c) as (v & I & V).
    - apply in_map_iff. exists f. split; [exact C|]. eapply nth_error_In; exact J.
    - exists v. split; [exact I|]. now rewrite V. }
  destruct (HASM i d c D MC) as (v & IV & EV). destruct (HASM j f a J MA) as (w & IW & EW).
  destruct (sorted_split us v S IV) as [[r ER]|(us1 & u & us2 & ER)].
  - exfalso. rewrite ER in IW, S. inversion S as [|? ? S' F]; subst. destruct IW as [<-|I]; [lra|]. rewrite Forall_forall in F. specialize (F w I). lra.
  - assert (UV : (u < v)%Q).
    { rewrite ER in S. clear -S. induction us1 as [|x us1 IH]; cbn in S; inversion S as [|? ? S' F]; subst; [|auto].
      rewrite Forall_forall in F. apply F. now left. }
    assert (IU : In u us) by (rewrite ER; apply in_or_app; right; now left).
    assert (W : exists r w, where_true (map (centred_at u) dvs) = r :: w).
    { destruct (where_true (map (centred_at u) dvs)) as [|r t] eqn:E; [|eauto]. exfalso.
      apply IN in IU. apply in_map_iff in IU as (e & Ce & Ie). apply centre_mean, centred_mean in Ce.
      unfold where_true in E. apply map_eq_nil in E. apply In_nth_error in Ie as (k & Ie).
      assert (X : In (k, true) (filter snd (combine (seq 0 (length (map (centred_at u) dvs))) (map (centred_at u) dvs)))).
      { apply filter_In. split; [|reflexivity]. eapply nth_error_In with (n := k). apply nth_error_combine.
        - rewrite (nth_error_nth' _ 0); [rewrite seq_nth; [reflexivity|]|]; rewrite ?seq_length, map_length; apply nth_error_Some; congruence.
        - now rewrite nth_error_map, Ie; cbn; rewrite Ce. }
      rewrite E in X. destruct X. }
    destruct W as (r & W). apply where_true_head in W as [W1 W2]. rewrite nth_error_map in W1.
    destruct (nth_error dvs r) as [e|] eqn:E; [|discriminate]. cbn in W1. injection W1 as W1. apply centred_mean in W1.
    exists r. split. exists d, e, c, u. repeat split; try assumption; [lra| |].
    + destruct (HASM j0 f0 a0 H H0) as (w' & IW' & EW'). rewrite <- EW'. apply (sorted_consecutive us1 u v us2); [now rewrite <- ER|now rewrite <- ER|]. lra.
    + intros Q. apply W2. rewrite nth_error_map, H. cbn. f_equal. apply centred_mean. now apply (mean_start_eq f0 a0).
Qed.

(** what happens to a single curve *)
Lemma align_one m n dvs res : align_several m n dvs = Ok res -> forall i d d', nth_error dvs i = Some d -> nth_error res i = Some d' ->
  d' = d \/ exists ref, correct_dv_shift d ref m n = Ok d'.
Proof.
  intros H i d d' D D'. destruct (align_spec m n dvs res H) as (_ & SP). destruct (SP i d D) as (x & X & NO & YES).
  rewrite D' in X. injection X as <-.
  assert (K : d' = d \/ exists r, predecessor dvs i r).
  { destruct (centre d) as [c|] eqn:C.
    2:{ left. apply NO. intros r [(d1 & e & c & b & D1 & _ & MC & _)]. rewrite D in D1. injection D1 as <-. apply mean_centre in MC as (? & ? & _). congruence. }
    apply centre_mean in C.
    assert (Q : (exists j f a, nth_error dvs j = Some f /\ mean_start f a /\ (a < c)%Q) \/ ~ (exists j f a, nth_error dvs j = Some f /\ mean_start f a /\ (a < c)%Q)).
    { set (P := fun f => match centre f with Some a => Qlt_bool a c | None => false end).
      destruct (existsb P dvs) eqn:E.
      - left. apply existsb_exists in E as (f & I & Pf). apply In_nth_error in I as (j & J). unfold P in Pf. destruct (centre f) as [a|] eqn:A; [|discriminate].
        exists j, f, a. split; [exact J|]. split; [now apply centre_mean|]. unfold Qlt_bool in Pf. apply negb_true_iff in Pf.
        apply Qnot_le_lt. intros Z. apply Qle_bool_iff in Z. congruence.
      - right. intros (j & f & a & J & A & LT). apply mean_centre in A as (a' & A & EA). assert (T : existsb P dvs = true); [|congruence].
        apply existsb_exists. exists f. split; [eapply nth_error_In; exact J|]. unfold P. rewrite A. unfold Qlt_bool. apply negb_true_iff.
        destruct (Qle_bool c a') eqn:Z; [|reflexivity]. apply Qle_bool_iff in Z. lra. }
    destruct Q as [Q|Q]; [right; now apply (predecessor_exists dvs i d c)|]. left. apply NO.
    intros r [(d1 & e & c1 & b & D1 & E1 & MC1 & MB & LT & _)]. apply Q. rewrite D in D1. injection D1 as <-.
    exists r, e, b. split; [exact E1|]. split; [exact MB|]. pose proof (mean_start_unique d c1 c MC1 C). lra. }
  destruct K as [->|[r P]]; [now left|]. destruct (YES r P) as (ref & _ & [E|[_ ->]]); [|now left]. right. eauto.
Qed.
Theorem align_kept m n dvs res : align_several m n dvs = Ok res -> forall i d d', nth_error dvs i = Some d -> nth_error res i = Some d' ->
  d_corr d' = d_corr d /\ d_axis d' = d_axis d /\ d_t0 d' = d_t0 d /\ d_net d' = d_net d /\ d_sta d' = d_sta d /\ d_cha d' = d_cha d.
Proof.
  intros H i d d' D D'. destruct (align_one m n dvs res H i d d' D D') as [->|(ref & E)]; [repeat split|].
  unfold correct_dv_shift in E. destruct (roll_of d ref m n); [|discriminate]. cbn [bind] in E.
  destruct (mapM _ _); [|discriminate]. cbn [bind] in E. injection E as <-. repeat split.
Qed.

(** two curves *)
Theorem align_two m n d e a b e' : mean_start d a -> mean_start e b -> (a < b)%Q -> correct_dv_shift e d m n = Ok e' ->
  align_several m n [d; e] = Ok [d; e'] /\ align_several m n [e; d] = Ok [e'; d].
Proof.
  intros A B LT H. pose proof A as A'. pose proof B as B'.
  apply mean_centre in A' as (a' & CA & EA). apply mean_centre in B' as (b' & CB & EB).
  assert (DA : centred_at a' d = true) by (unfold centred_at; rewrite CA; apply Qeq_bool_iff; reflexivity).
  assert (EB' : centred_at b' e = true) by (unfold centred_at; rewrite CB; apply Qeq_bool_iff; reflexivity).
  assert (DB : centred_at b' d = false) by (apply (centred_other a'); [exact DA|lra]).
  assert (EA' : centred_at a' e = false) by (apply (centred_other b'); [exact EB'|lra]).
  assert (N1 : Qeq_bool a' b' = false) by (destruct (Qeq_bool a' b') eqn:Z; [apply Qeq_bool_iff in Z; lra|reflexivity]).
  assert (N2 : Qeq_bool b' a' = false) by (destruct (Qeq_bool b' a') eqn:Z; [apply Qeq_bool_iff in Z; lra|reflexivity]).
  assert (L1 : Qle_bool a' b' = true) by (apply Qle_bool_iff; lra).
  assert (L2 : Qle_bool b' a' = false) by (destruct (Qle_bool b' a') eqn:Z; [apply Qle_bool_iff in Z; lra|reflexivity]).
  assert (U1 : unique (map centre [d; e]) = [a'; b']).
  { unfold unique. cbn [map]. rewrite CA, CB. change (defined [Some a'; Some b']) with [a'; b']. cbn [fold_right uinsert]. now rewrite N1, L1. }
  assert (U2 : unique (map centre [e; d]) = [a'; b']).
  { unfold unique. cbn [map]. rewrite CA, CB. change (defined [Some b'; Some a']) with [b'; a']. cbn [fold_right uinsert]. now rewrite N2, L2. }
  assert (AT : attempt m n e d = Ok e') by (unfold attempt; now rewrite H).
  unfold align_several. rewrite U1, U2. cbn [group_loop]. unfold group_step. cbn [map]. rewrite DA, EA'.
  split.
  - change (where_true [true; false]) with [0]. cbn [nth_error combine mapM fst snd]. rewrite DB, EB', AT. reflexivity.
  - change (where_true [false; true]) with [1]. cbn [nth_error combine mapM fst snd]. rewrite DB, EB', AT. reflexivity.
Qed.
