From Coq Require Import Reals Lra Lia.
From Verif Require Import Lib.Base Model.Spectral Model.TimeDomain Model.CorrStream Model.LagMatrix Model.Amplitude
  Spec.AmplitudeSpec Proofs.SpectralFacts.
Local Open Scope R_scope.

Lemma complete_spec row x : complete row = Some x <-> row = map Some x.
Proof.
  revert x. induction row as [|[v|] r IH]; intros x; cbn.
  - destruct x; cbn; split; intros E; try discriminate; reflexivity.
  - destruct (complete r) as [y|]; cbn.
    + split.
      * intros [= <-]. cbn. f_equal. now apply IH.
      * destruct x as [|u x]; cbn; [discriminate|]. intros [= <- E]. apply IH in E. now injection E as ->.
    + split; [discriminate|]. destruct x as [|u x]; cbn; [discriminate|]. intros [= <- E]. apply IH in E. discriminate.
  - split; [discriminate|]. destruct x; discriminate.
Qed.
Lemma nstd_complete row x : complete row = Some x -> x <> [] -> nstd row = Some (std x).
Proof. intros E N. unfold nstd. rewrite E. destruct x; [congruence|reflexivity]. Qed.

Lemma std_nonneg x : 0 <= std x. Proof. apply sqrt_pos. Qed.
Lemma clip_nearest c x : 0 <= c -> exists y, clip1 (Some c) (Some x) = Some y /\ nearest c x y.
Proof.
  intros C. cbn. eexists. split; [reflexivity|]. unfold nearest, Rmin, Rmax.
  destruct (Rle_dec x (- c)); destruct (Rle_dec _ c); (split; [unfold Rabs; destruct Rcase_abs; lra|]); intros z; unfold Rabs; repeat destruct Rcase_abs; lra.
Qed.
Lemma nearest_kept c x y : nearest c x y -> Rabs x <= c -> y = x.
Proof. intros [_ B] X. specialize (B x X). revert B. replace (x - x) with 0 by lra. rewrite Rabs_R0. unfold Rabs. destruct Rcase_abs; lra. Qed.
Lemma nearest_outside c x y : nearest c x y -> c < Rabs x -> Rabs y = c /\ 0 <= x * y.
Proof.
  intros [A B] X. assert (C : 0 <= c) by (pose proof (Rabs_pos y); lra).
  destruct (Rle_dec 0 x).
  - specialize (B c). rewrite (Rabs_pos_eq c C) in B. specialize (B (Rle_refl c)). rewrite Rabs_pos_eq in X by assumption.
    assert (y = c) as ->. { revert A B. unfold Rabs. repeat destruct Rcase_abs; lra. }
    split; [now apply Rabs_pos_eq|]. now apply Rmult_le_pos.
  - specialize (B (- c)). rewrite Rabs_Ropp, (Rabs_pos_eq c C) in B. specialize (B (Rle_refl c)). rewrite Rabs_left in X by lra.
    assert (y = - c) as ->. { revert A B. unfold Rabs. repeat destruct Rcase_abs; lra. }
    split; [rewrite Rabs_Ropp; now apply Rabs_pos_eq|]. replace (x * - c) with ((- x) * c) by lra. apply Rmult_le_pos; lra.
Qed.

Lemma clip_rows thres A i row x : 0 <= thres -> nth_error A i = Some row -> complete row = Some x ->
  exists out, nth_error (clip thres Rows A) i = Some (map Some out) /\ length out = length x /\
    (forall j v, nth_error x j = Some v -> exists y, nth_error out j = Some y /\ nearest (thres * std x) v y).
Proof.
  intros T Hi E. destruct x as [|x0 r].
  - exists []. apply complete_spec in E as ->. cbn [clip]. rewrite nth_error_map, Hi. cbn. repeat split. intros [|j] v; discriminate.
  - set (x := x0 :: r) in *. pose proof (nstd_complete row x E ltac:(discriminate)) as N.
    set (c := thres * std x). assert (C : 0 <= c) by (apply Rmult_le_pos; [assumption|apply std_nonneg]).
    exists (map (fun v => Rmin (Rmax v (- c)) c) x). cbn [clip]. rewrite nth_error_map, Hi. cbn [option_map]. rewrite N. cbn [option_map].
    apply complete_spec in E. split; [|split].
    + f_equal. rewrite E, !map_map. reflexivity.
    + now rewrite map_length.
    + intros j v Hj. destruct (clip_nearest c v C) as (y & Ey & Ny). cbn in Ey. injection Ey as <-.
      eexists. split; [|exact Ny]. now rewrite nth_error_map, Hj.
Qed.
Lemma clip_columns thres w A j x : 0 <= thres -> rectangular w A -> (j < w)%nat -> complete (column A j) = Some x ->
  forall i v, nth_error x i = Some v -> exists y, sample_at (clip thres Columns A) i j = Some (Some y) /\ nearest (thres * std x) v y.
Proof.
  intros T W J E i v Hi. assert (N0 : x <> []) by (destruct x; [destruct i; discriminate|discriminate]).
  pose proof (nstd_complete _ x E N0) as N. apply complete_spec in E.
  set (c := thres * std x). assert (C : 0 <= c) by (apply Rmult_le_pos; [assumption|apply std_nonneg]).
  destruct (clip_nearest c v C) as (y & Ey & Ny). exists y. split; [|exact Ny].
  assert (Hc : nth_error (column A j) i = Some (Some v)) by (rewrite E, nth_error_map, Hi; reflexivity).
  unfold column in Hc. rewrite nth_error_map in Hc. destruct (nth_error A i) as [row|] eqn:R; [|discriminate]. cbn in Hc. injection Hc as Hc.
  unfold sample_at. cbn [clip]. rewrite nth_error_map, R. cbn [option_map]. pose proof (W row (nth_error_In _ _ R)) as L.
  rewrite nth_error_map. rewrite nth_error_nth' with (d := O) by (rewrite seq_length; lia).
  rewrite seq_nth by lia. cbn [plus option_map Nat.add]. rewrite N, Hc. cbn [option_map]. f_equal. exact Ey.
Qed.
Lemma in_concat_entry A i j (v : option R) : sample_at A i j = Some v -> In v (concat A).
Proof.
  unfold sample_at. destruct (nth_error A i) as [row|] eqn:R; [|discriminate]. intros J. apply in_concat. exists row.
  split; eapply nth_error_In; eauto.
Qed.
Lemma clip_whole thres A x : 0 <= thres -> complete (concat A) = Some x ->
  forall i j v, sample_at A i j = Some (Some v) -> exists y, sample_at (clip thres Whole A) i j = Some (Some y) /\ nearest (thres * std x) v y.
Proof.
  intros T E i j v S. pose proof (in_concat_entry _ _ _ _ S) as I.
  assert (N0 : x <> []). { apply complete_spec in E. rewrite E in I. destruct x; [destruct I|discriminate]. }
  pose proof (nstd_complete _ x E N0) as N.
  set (c := thres * std x). assert (C : 0 <= c) by (apply Rmult_le_pos; [assumption|apply std_nonneg]).
  destruct (clip_nearest c v C) as (y & Ey & Ny). exists y. split; [|exact Ny].
  unfold sample_at in *. cbn [clip]. rewrite nth_error_map. destruct (nth_error A i) as [row|]; [|discriminate]. cbn [option_map].
  rewrite nth_error_map, S. cbn [option_map]. rewrite N. cbn [option_map]. f_equal. exact Ey.
Qed.
Lemma clip_shape thres ax A : same_shape (clip thres ax A) A.
Proof.
  unfold same_shape. destruct ax; cbn [clip]; rewrite map_map; apply map_ext; intros row; rewrite map_length; [apply seq_length|reflexivity|reflexivity].
Qed.
Lemma clip_rows_app thres A B : clip thres Rows (A ++ B) = clip thres Rows A ++ clip thres Rows B.
Proof. cbn [clip]. apply map_app. Qed.

(** ** how many samples are changed *)
Lemma std_sq x : (0 < length x)%nat -> std x * std x * INR (length x) = rsum (length x) (fun j => (nth j x 0 - mean x) * (nth j x 0 - mean x)).
Proof.
  intros L. unfold std. rewrite sqrt_sqrt.
  - field. apply not_0_INR. lia.
  - apply Rmult_le_pos; [apply rsum_nonneg; intros; apply Rle_0_sqr|]. left. apply Rinv_0_lt_compat. apply lt_0_INR. lia.
Qed.
Lemma changed_bound c x y : 0 <= c -> length y = length x ->
  (forall j v w, nth_error x j = Some v -> nth_error y j = Some w -> w <> v -> c < Rabs v) ->
  INR (changed x y) * (c * c) <= rsum (length x) (fun j => nth j x 0 * nth j x 0).
Proof.
  intros C. revert y. induction x as [|v x IH]; intros [|w y] L H; cbn in L; try discriminate; [cbn; lra|].
  assert (IH' := IH y ltac:(lia) (fun j => H (S j))). cbn [length]. rewrite rsum_S. cbn [nth]. unfold changed in *. cbn [combine filter fst snd].
  destruct (Req_EM_T v w) as [->|N].
  - pose proof (Rle_0_sqr w). unfold Rsqr in *. lra.
  - cbn [length]. rewrite S_INR. specialize (H O v w eq_refl eq_refl (not_eq_sym N)).
    assert (c * c <= v * v). { rewrite <- (Rabs_pos_eq (v * v)) by apply Rle_0_sqr. rewrite Rabs_mult. apply Rmult_le_compat; lra. }
    lra.
Qed.
Lemma changed_few thres A i row x out : 0 < thres -> nth_error A i = Some row -> complete row = Some x -> mean x = 0 ->
  nth_error (clip thres Rows A) i = Some (map Some out) -> INR (changed x out) * (thres * thres) <= INR (length x).
Proof.
  intros T Hi E M O. destruct (clip_rows thres A i row x ltac:(lra) Hi E) as (out' & O' & L & H).
  rewrite O' in O. injection O as O. assert (out' = out) as ->.
  { clear -O. revert out O. induction out' as [|a l IH]; intros [|b m] O; cbn in O; try discriminate; [reflexivity|]. injection O as -> O. f_equal. now apply IH. }
  destruct (length x) as [|n] eqn:Lx.
  { destruct x; [|discriminate]. destruct out; [|discriminate]. cbn. lra. }
  assert (K : forall j v w, nth_error x j = Some v -> nth_error out j = Some w -> w <> v -> thres * std x < Rabs v).
  { intros j v w Hv Hw N. destruct (H j v Hv) as (w' & Hw' & Nw). rewrite Hw in Hw'. injection Hw' as <-.
    destruct (Rle_dec (Rabs v) (thres * std x)) as [Q|Q]; [|lra]. exfalso. apply N. eapply nearest_kept; eauto. }
  pose proof (std_nonneg x) as P.
  pose proof (changed_bound (thres * std x) x out ltac:(apply Rmult_le_pos; lra) ltac:(congruence) K) as B.
  assert (Q : rsum (length x) (fun j => nth j x 0 * nth j x 0) = std x * std x * INR (length x)).
  { rewrite std_sq by lia. apply rsum_ext. intros. rewrite M. lra. }
  rewrite Q, Lx in B. destruct (Rle_lt_or_eq_dec 0 (std x) P) as [S|S].
  - apply Rmult_le_reg_r with (std x * std x); [apply Rmult_lt_0_compat; lra|]. lra.
  - (* no variance: all samples are zero *)
    assert (Z : changed x out = 0%nat).
    { assert (Q' : rsum (length x) (fun j => nth j x 0 * nth j x 0) = 0) by (rewrite Q, <- S; lra).
      assert (AZ : forall j v, nth_error x j = Some v -> v = 0).
      { intros j v Hv. assert (Hj : (j < length x)%nat) by (apply nth_error_Some; congruence).
        pose proof (rsum_le (length x) (fun k => if (k =? j)%nat then nth j x 0 * nth j x 0 else 0) (fun k => nth k x 0 * nth k x 0)) as R.
        rewrite (rsum_single _ j) in R; [|assumption|intros k _ Nk; now rewrite (proj2 (Nat.eqb_neq k j) Nk)].
        rewrite Nat.eqb_refl, Q' in R. specialize (R ltac:(intros k _; destruct (Nat.eqb_spec k j) as [->|]; [lra|apply Rle_0_sqr])).
        rewrite (nth_error_nth _ _ 0 Hv) in R. pose proof (Rle_0_sqr v) as R2. unfold Rsqr in R2. apply Rsqr_0_uniq. unfold Rsqr. lra. }
      unfold changed. assert (forall p, In p (combine x out) -> fst p = snd p) as F.
      { intros [v w] I. apply In_nth_error in I as [j I]. cbn.
        assert (nth_error x j = Some v /\ nth_error out j = Some w) as [Hv Hw].
        { clear -I. revert out j I. induction x as [|a l IHx]; intros [|b m] [|j] I; cbn in *; try discriminate; [injection I as -> ->; auto|]. now apply IHx. }
        destruct (H j v Hv) as (w' & Hw' & Nw). rewrite Hw in Hw'. injection Hw' as <-. symmetry. eapply nearest_kept; [exact Nw|].
        rewrite (AZ j v Hv), Rabs_R0, <- S. lra. }
      clear -F. induction (combine x out) as [|p l IHl]; [reflexivity|]. cbn. destruct (Req_EM_T (fst p) (snd p)) as [|N].
      - apply IHl. intros q I. apply F. now right.
      - destruct N. apply F. now left. }
    rewrite Z. change (INR 0) with 0. rewrite Rmult_0_l. apply pos_INR.
Qed.
