From Verif Require Import Lib.Base Model.PxcorrLoop.

Section Facts.
  Context {C : Type}.
  Implicit Types evs : list (@event C).

  Lemma flush_content (s : @lstate C) :
    concat (written (flush s)) ++ cst (flush s) = concat (written s) ++ cst s.
  Proof.
    unfold flush. destruct (cst s) eqn:E; [now rewrite E|]. simpl.
    rewrite concat_app. simpl. now rewrite !app_nil_r.
  Qed.
  Lemma flush_cst (s : @lstate C) : cst (flush s) = [].
  Proof. unfold flush. destruct (cst s) eqn:E; auto. Qed.

  Lemma lstep_content s (ev : @event C) :
    concat (written (lstep s ev)) ++ cst (lstep s ev) = concat (written s) ++ cst s ++ fst ev.
  Proof. unfold lstep. destruct (snd ev); [rewrite flush_content|]; reflexivity. Qed.

  Lemma lrun_snoc evs ev : lrun (evs ++ [ev]) = lstep (lrun evs) ev.
  Proof. unfold lrun. now rewrite fold_left_app. Qed.

  Lemma lrun_content evs :
    concat (written (lrun evs)) ++ cst (lrun evs) = concat (map fst evs).
  Proof.
    induction evs as [|ev evs IH] using rev_ind; auto.
    rewrite lrun_snoc, lstep_content, map_app, concat_app, app_assoc, IH. simpl. now rewrite app_nil_r.
  Qed.

  Lemma pxcorr_content evs : concat (pxcorr evs) = concat (map fst evs).
  Proof.
    unfold pxcorr. rewrite <- lrun_content, <- flush_content, flush_cst. now rewrite app_nil_r.
  Qed.

  (** written batches only grow *)
  Lemma lstep_written s (ev : @event C) : exists t, written (lstep s ev) = written s ++ t.
  Proof.
    unfold lstep, flush. destruct (snd ev); simpl; [|exists []; now rewrite app_nil_r].
    destruct (cst s ++ fst ev); simpl; [exists []; now rewrite app_nil_r | eauto].
  Qed.
  Lemma lrun_written evs1 evs2 : exists t, written (lrun (evs1 ++ evs2)) = written (lrun evs1) ++ t.
  Proof.
    induction evs2 as [|ev evs2 [t IH]] using rev_ind.
    - exists []. now rewrite !app_nil_r.
    - rewrite app_assoc, lrun_snoc. destruct (lstep_written (lrun (evs1 ++ evs2)) ev) as [t' E].
      exists (t ++ t'). now rewrite E, IH, app_assoc.
  Qed.

  (** after an event with write flag everything so far is on disk *)
  Lemma lrun_flag evs (w : list C) : concat (written (lrun (evs ++ [(w, true)]))) = concat (map fst (evs ++ [(w, true)])).
  Proof.
    rewrite <- lrun_content. rewrite lrun_snoc. unfold lstep. simpl. rewrite flush_cst. now rewrite app_nil_r.
  Qed.

  Lemma crash_keeps_flushed evs1 (w : list C) evs2 :
    exists t, concat (written (lrun (evs1 ++ (w, true) :: evs2))) = concat (map fst (evs1 ++ [(w, true)])) ++ t.
  Proof.
    replace (evs1 ++ (w, true) :: evs2) with ((evs1 ++ [(w, true)]) ++ evs2) by now rewrite <- app_assoc.
    destruct (lrun_written (evs1 ++ [(w, true)]) evs2) as [t E]. rewrite E, concat_app, lrun_flag. eauto.
  Qed.

  Lemma written_nonempty evs : Forall (fun b => b <> []) (written (lrun evs)).
  Proof.
    induction evs as [|ev evs IH] using rev_ind; [constructor|].
    rewrite lrun_snoc. unfold lstep, flush. destruct (snd ev); simpl; auto.
    destruct (cst (lrun evs) ++ fst ev) eqn:E; simpl; auto. apply Forall_app. split; auto.
    constructor; [discriminate|constructor].
  Qed.

  (** *** shape of the batches *)
  Lemma run_increment s (w : list C) r : w <> [] ->
    fold_left lstep (increment_events (w :: r)) s =
    {| cst := concat r; written := written s ++ [cst s ++ w] |}.
  Proof.
    intros Hw. simpl. unfold lstep at 2. simpl. unfold flush at 1; simpl.
    destruct (cst s ++ w) as [|x t] eqn:E; [apply app_eq_nil in E as [_ E]; contradiction|].
    rewrite <- E. generalize (written s ++ [cst s ++ w]) as W. intros W. clear.
    assert (G : forall c0, fold_left lstep (map (fun x => (x, false)) r) {| cst := c0; written := W |} =
                           {| cst := c0 ++ concat r; written := W |}).
    { induction r as [|y r IH]; intros c0; simpl; [now rewrite app_nil_r|]. unfold lstep at 2; simpl.
      rewrite IH, app_assoc. reflexivity. }
    rewrite G. reflexivity.
  Qed.

  (** heads and tails of the increments: batch k = rest of increment k-1 ++ first window of increment k *)
  Fixpoint shifted (carry : list C) (incs : list (list (list C))) : list (list C) :=
    match incs with
    | [] => match carry with [] => [] | _ => [carry] end
    | [] :: r => shifted carry r
    | (w :: ws) :: r => (carry ++ w) :: shifted (concat ws) r
    end.

  Lemma run_shape incs : forall s,
    Forall (fun inc => match inc with [] => True | w :: _ => w <> [] end) incs ->
    written (flush (fold_left lstep (generate_data incs) s)) = written s ++ shifted (cst s) incs.
  Proof.
    induction incs as [|inc incs IH]; intros s HF.
    - simpl. unfold flush. destruct (cst s); simpl; [now rewrite app_nil_r|reflexivity].
    - inversion HF as [|? ? H1 H2]; subst. unfold generate_data. simpl flat_map. rewrite fold_left_app.
      destruct inc as [|w ws].
      + simpl. now apply IH.
      + rewrite run_increment by auto. fold (@generate_data C incs). rewrite IH by auto. simpl.
        now rewrite <- app_assoc.
  Qed.

  Lemma pxcorr_shape incs :
    Forall (fun inc => match inc with [] => True | w :: _ => w <> [] end) incs ->
    pxcorr (generate_data incs) = shifted [] incs.
  Proof. intros H. unfold pxcorr, lrun. now rewrite run_shape. Qed.

  Lemma shifted_single (ws : list (list C)) : shifted [] (map (fun w => [w]) ws) = ws.
  Proof. induction ws; simpl; auto. now rewrite IHws. Qed.

  (** an increment with a second, non-empty window is never written as one batch *)
  Lemma shifted_first (w1 w2 : list C) ws incs : w2 <> [] ->
    shifted [] ((w1 :: w2 :: ws) :: incs) <> map (@concat C) ((w1 :: w2 :: ws) :: incs).
  Proof.
    intros Hw E. simpl in E. injection E as E _.
    rewrite <- (app_nil_r w1) in E at 1. apply app_inv_head in E. symmetry in E. apply app_eq_nil in E as [E _].
    contradiction.
  Qed.
  Lemma shifted_ne (incs : list (list (list C))) : forall carry,
    Forall (fun inc => inc <> []) incs ->
    (carry <> [] \/ Exists (fun inc => exists w1 w2 ws, inc = w1 :: w2 :: ws /\ w2 <> []) incs) ->
    shifted carry incs <> map (@concat C) incs.
  Proof.
    induction incs as [|inc incs IH]; intros carry HF H.
    - destruct H as [H|H]; [|inversion H]. simpl. destruct carry; [contradiction|discriminate].
    - inversion HF; subst. destruct inc as [|w ws]; [contradiction|]. simpl. intros E. injection E as E1 E2.
      destruct ws as [|w2 ws].
      + simpl in *. rewrite app_nil_r in E1. rewrite <- (app_nil_l w) in E1 at 2. apply app_inv_tail in E1.
        destruct H as [H|H]; [contradiction|]. inversion H as [? ? (a & b & c & E & _)|? ? H']; subst; [discriminate|].
        revert E2. apply IH; auto.
      + destruct (concat (w2 :: ws)) as [|x t] eqn:Ec.
        * rewrite app_nil_r in E1. rewrite <- (app_nil_l w) in E1 at 2. apply app_inv_tail in E1.
          destruct H as [H|H]; [contradiction|]. inversion H as [? ? (a & b & c & E & Hb)|? ? H']; subst.
          -- injection E as -> -> ->. simpl in Ec. apply app_eq_nil in Ec as [? _]. contradiction.
          -- revert E2. apply IH; auto.
        * revert E2. apply IH; auto. left. discriminate.
  Qed.
End Facts.

Lemma batches_ne {C} (incs : list (list (list C))) :
  Forall (fun inc => match inc with [] => False | w :: _ => w <> [] end) incs ->
  Exists (fun inc => exists w1 w2 ws, inc = w1 :: w2 :: ws /\ w2 <> []) incs ->
  pxcorr (generate_data incs) <> map (@concat C) incs.
Proof.
  intros H E. rewrite pxcorr_shape.
  - apply shifted_ne; auto. eapply Forall_impl; [|exact H]. intros [|w ws]; [tauto|discriminate].
  - eapply Forall_impl; [|exact H]. intros [|w ws]; auto.
Qed.

Lemma single_window {C} (ws : list (list C)) : Forall (fun w => w <> []) ws ->
  pxcorr (generate_data (map (fun w => [w]) ws)) = ws.
Proof.
  intros H. rewrite pxcorr_shape, shifted_single; auto. apply Forall_map. exact H.
Qed.
