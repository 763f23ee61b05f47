(** Proofs about the average of curves that are aligned first. *)
From Coq Require Import QArith.
From Verif Require Import Lib.Base Lib.Str Model.CorrStream Model.LagMatrix Model.DVs Model.Averages
  Spec.LagSpec Spec.DVSpec Spec.AveragesSpec Proofs.DVFacts Proofs.AveragesFacts Proofs.AlignFacts.
Local Open Scope nat_scope.

Lemma mapM_length {A B} (f : A -> result B) l : forall r, mapM f l = Ok r -> length r = length l.
Proof.
  induction l as [|x l IH]; intros r E; cbn [mapM] in E; [injection E as <-; reflexivity|].
  destruct (f x); [|discriminate]. cbn [bind] in E. destruct (mapM f l) as [r'|]; [|discriminate]. cbn [bind] in E.
  injection E as <-. cbn. f_equal. now apply IH.
Qed.
Lemma qeq_trans_list a b c : Forall2 Qeq a b -> Forall2 Qeq b c -> Forall2 Qeq a c.
Proof.
  intros H. revert c. induction H as [|x y a b E H IH]; intros c C; inversion C; subst; constructor.
  - now transitivity y.
  - now apply IH.
Qed.
Lemma qeq_sym_list a b : Forall2 Qeq a b -> Forall2 Qeq b a.
Proof. induction 1; constructor; [now symmetry|assumption]. Qed.
Lemma same_count i : forall (us res : list dv), length res = length us ->
  (forall k u d, nth_error us k = Some u -> nth_error res k = Some d -> d_corr d = d_corr u) ->
  length (filter (fun d => is_some (nth i (d_corr d) None)) res) = length (filter (fun d => is_some (nth i (d_corr d) None)) us).
Proof.
  induction us as [|u us IH]; intros [|d res] L H; try discriminate; [reflexivity|].
  cbn [filter]. rewrite (H 0 u d eq_refl eq_refl). assert (E := IH res (f_equal pred L) (fun k => H (S k))).
  destruct (is_some _); cbn [length]; congruence.
Qed.
Lemma shifted_shape rows cols d ref m n d' : 0 < rows -> dv_shape rows cols d -> correct_dv_shift d ref m n = Ok d' -> dv_shape rows cols d'.
Proof.
  intros R [L RW CO VA AX] E. unfold correct_dv_shift in E. destruct (roll_of d ref m n) as [r|]; [|discriminate]. cbn [bind] in E.
  destruct (mapM (value_at (d_axis d)) (roll_matrix r (d_sim d))) as [v|] eqn:MV; [|discriminate]. cbn [bind] in E. injection E as <-.
  assert (D : dims rows cols (roll_matrix r (d_sim d))).
  { unfold roll_matrix. rewrite L. destruct (d_sim d) as [|row s] eqn:SM; [cbn in L; lia|].
    rewrite (RW row (or_introl eq_refl)). apply reshape_dims. rewrite roll_length. apply (concat_cell rows cols). now split. }
  destruct D as [D1 D2]. split; cbn; auto. rewrite (mapM_length _ _ _ MV). exact D1.
Qed.
Lemma picked_all {A} (P : A -> Prop) l : (forall x, In x l -> P x) -> picked P l l.
Proof. induction l as [|x l IH]; intros H; constructor; [apply H; now left|apply IH; intros y Y; apply H; now right]. Qed.

Theorem aligned_average m n rows cols d0 l a : 0 < rows ->
  (forall d, In d (d0 :: l) -> exists r c, 0 < r /\ dv_shape r c d) -> dv_shape rows cols d0 ->
  average_aligned m n (d0 :: l) = Ok a ->
  exists us res, picked (contributes d0) (d0 :: l) us /\ us <> [] /\ align_several m n us = Ok res /\
    dims rows cols (a_sim a) /\
    (forall i j, i < rows -> j < cols -> is_average (map (fun d => cell (d_sim d) i j) res) (cell (a_sim a) i j)) /\
    length (a_n a) = rows /\
    (forall i, i < rows -> nth i (a_n a) 0 = length (filter (fun d => is_some (nth i (d_corr d) None)) us)).
Proof.
  intros R W S0. unfold average_aligned. pose proof (use_picked rows cols d0 R S0 (d0 :: l) W) as U.
  destruct (use d0 (d0 :: l)) as [us|e]; [|discriminate]. destruct U as [P _]. cbn [bind].
  destruct (align_several m n us) as [res|] eqn:AL; [|discriminate]. cbn [bind]. intros E.
  destruct (align_spec m n us res AL) as [LR _].
  assert (SU : forall d, In d us -> dv_shape rows cols d).
  { intros d I. apply (picked_in _ _ _ P) in I as [I C]. apply (contributes_shape rows cols d0); auto. }
  assert (ONE : forall i d d', nth_error us i = Some d -> nth_error res i = Some d' ->
     dv_shape rows cols d' /\ d_corr d' = d_corr d /\ d_axis d' = d_axis d /\ d_net d' = d_net d /\ d_sta d' = d_sta d /\ d_cha d' = d_cha d).
  { intros i d d' D D'. destruct (align_kept m n us res AL i d d' D D') as (K1 & K2 & _ & K3 & K4 & K5).
    split; [|auto]. assert (SD : dv_shape rows cols d) by (apply SU; eapply nth_error_In; exact D).
    destruct (align_one m n us res AL i d d' D D') as [->|(ref & C)]; [exact SD|]. exact (shifted_shape rows cols d ref m n d' R SD C). }
  assert (BACK : forall d', In d' res -> exists i d, nth_error us i = Some d /\ nth_error res i = Some d').
  { intros d' I. apply In_nth_error in I as (i & I). destruct (nth_error us i) as [d|] eqn:D; [eauto|].
    apply nth_error_None in D. assert (i < length res) by (apply nth_error_Some; congruence). lia. }
  destruct res as [|r0 rs]; [discriminate|].
  assert (US : us <> []). { intros ->. discriminate. }
  assert (SR : forall d, In d (r0 :: rs) -> dv_shape rows cols d).
  { intros d I. destruct (BACK d I) as (i & u & Ui & Ri). apply (ONE i u d Ui Ri). }
  destruct (average_spec rows cols r0 rs a R) as (vs & PV & _ & DM & AV & LN & CN).
  - intros d I. exists rows, cols. split; [exact R|]. apply SR, I.
  - apply SR. now left.
  - exact E.
  - assert (V : vs = r0 :: rs).
    { apply (picked_unique (contributes r0) (r0 :: rs)); [exact PV|]. apply picked_all. intros d I.
      destruct (BACK d I) as (i & u & Ui & Ri). destruct (ONE i u d Ui Ri) as (SD & _ & AX & NT & ST & CH).
      destruct (BACK r0 (or_introl eq_refl)) as (i0 & u0 & U0 & R0'). destruct (ONE i0 u0 r0 U0 R0') as (S0' & _ & AX0 & _).
      assert (C : contributes d0 u) by (apply (picked_in _ _ _ P); eapply nth_error_In; exact Ui).
      assert (C0 : contributes d0 u0) by (apply (picked_in _ _ _ P); eapply nth_error_In; exact U0).
      destruct C as (NA & _ & A1). destruct C0 as (_ & _ & A0). unfold contributes. rewrite CH, NT, ST. split; [exact NA|]. split.
      - exists rows, cols. split; now apply shape_dims.
      - rewrite AX, AX0. apply (qeq_trans_list _ (d_axis d0)); [exact A1|]. now apply qeq_sym_list. }
    subst vs. exists us, (r0 :: rs). repeat split; try assumption; try apply DM.
    intros i I. rewrite (CN i I). apply same_count; [exact LR|]. intros k u d Uk Rk. apply (ONE k u d Uk Rk).
Qed.
