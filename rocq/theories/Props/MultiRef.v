(** C72: the offset between velocity-change curves measured with two references; C74: which dates count.
    C73: combining the measurements made with several references; C75: what the combination aligns and keeps. *)
From Coq Require Import Reals Lra.
From Verif Require Import Lib.Base Model.Similarity Model.MultiRef Spec.MultiRefSpec
  Proofs.MultiRefFacts Proofs.OffsetFacts Proofs.CombineFacts.
Local Open Scope R_scope.

(** ** C72 *)
(** The offset is the mean of the differences, each date weighing with the inverse of the summed
    variances of its two correlations. *)
Theorem C72_weighted_mean pts : pts <> [] ->
  Forall (fun p => usable p /\ exists v, difference p = Some v) pts ->
  let w p := inverse_variance (num (cor1 p)) (num (cor2 p)) in
  snd (est_shift pts) = Some (sum (map (fun p => num (difference p) * w p) pts) / sum (map w pts)) /\ 0 < sum (map w pts).
Proof.
  intros Hne HF w. rewrite Forall_forall in HF.
  assert (W : forall p, In p pts -> num (wt p) = w p).
  { intros p Hp. destruct (HF p Hp) as [[a [b [Ea [Eb [Ha [Hb [Na [Nb Hn]]]]]]]] _]. unfold wt, w. rewrite Ea, Eb, variance_sum by assumption. reflexivity. }
  destruct (est_shift_formula pts) as [E P].
  - apply Forall_forall. intros p Hp. destruct (HF p Hp) as [[a [b [Ea [Eb [Ha [Hb _]]]]]] _]. rewrite Ea, Eb. split; intros r [= <-]; assumption.
  - destruct pts as [|p pts]; [contradiction|]. exists p. split; [left; reflexivity|]. apply HF. left. reflexivity.
  - intros p x Hp _. apply HF, Hp.
  - rewrite E, <- (sum_ext (fun p => num (wt p)) w) by exact W. split; [|exact P]. do 2 f_equal.
    apply sum_ext. intros p Hp. rewrite W by exact Hp. reflexivity.
Qed.
Print Assumptions C72_weighted_mean.

(** Curves that differ by a constant have that constant as their offset. *)
Theorem C72_constant pts d : coefficients pts -> (exists p, In p pts /\ usable p) ->
  (forall p, In p pts -> usable p -> difference p = Some d) ->
  (forall p, In p pts -> difference p = None -> cor1 p = None \/ cor2 p = None) ->
  (forall p x, In p pts -> difference p = Some x -> x = d) ->
  snd (est_shift pts) = Some d.
Proof.
  intros HC HU HD HN HX. apply est_shift_const; [exact HC|exact HU|]. intros p w Hp Hw. destruct (difference p) as [x|] eqn:E.
  - f_equal. apply (HX p x Hp E).
  - exfalso. assert (N : wt p = None) by (apply wt_none; destruct (HN p Hp E); auto). congruence.
Qed.
Print Assumptions C72_constant.

(** The offset lies between the smallest and the largest difference. *)
Theorem C72_between pts lo hi : coefficients pts -> (exists p, In p pts /\ usable p) ->
  (forall p, In p pts -> exists v, difference p = Some v /\ lo <= v <= hi) ->
  exists s, snd (est_shift pts) = Some s /\ lo <= s <= hi.
Proof. intros HC HU HD. apply est_shift_bounds; [exact HC|exact HU|]. intros p w Hp _. apply HD, Hp. Qed.
Print Assumptions C72_between.

(** Exchanging the references changes the sign of the offset and nothing else. *)
Theorem C72_antisymmetric pts : est_shift (map swapped pts) = (fst (est_shift pts), option_map Ropp (snd (est_shift pts))).
Proof. exact (est_shift_swap pts). Qed.
Print Assumptions C72_antisymmetric.

(** A date at which a correlation is undefined or zero does not count. *)
Theorem C74_undefined_partial p l1 l2 : cor1 p = None \/ cor2 p = None \/ cor1 p = Some 0 \/ cor2 p = Some 0 ->
  est_shift (l1 ++ p :: l2) = est_shift (l1 ++ l2).
Proof. intros H. apply est_shift_skip, wt_none, H. Qed.
Print Assumptions C74_undefined_partial.

(** Nor does a date at which both correlations are perfect, although it is the most precise one. *)
Theorem C74_perfect_refuted p l1 l2 : cor1 p = Some 1 -> cor2 p = Some 1 -> est_shift (l1 ++ p :: l2) = est_shift (l1 ++ l2).
Proof. intros H1 H2. apply est_shift_skip, wt_perfect; assumption. Qed.
Print Assumptions C74_perfect_refuted.

(** Two curves one apart, both perfectly correlated: no offset is found. *)
Example C74_perfect_none : est_shift [mkpoint (Some 1) (Some 0) (Some 1) (Some 1)] = (None, None).
Proof. exact (C74_perfect_refuted (mkpoint (Some 1) (Some 0) (Some 1) (Some 1)) [] [] eq_refl eq_refl). Qed.

(** Dates whose correlations are negative count like those with positive ones. *)
Theorem C74_negative_refuted : exists p, cor1 p = Some (-1/2) /\ cor2 p = Some (-1/2) /\ snd (est_shift [p]) = Some 1.
Proof.
  exists (mkpoint (Some 1) (Some 0) (Some (-1/2)) (Some (-1/2))). split; [reflexivity|]. split; [reflexivity|].
  apply est_shift_const.
  - constructor; [|constructor]. cbn. split; intros a [= <-]; lra.
  - eexists. split; [left; reflexivity|]. exists (-1/2), (-1/2). cbn. repeat split; lra.
  - intros p w [<-|[]] _. cbn. f_equal. lra.
Qed.
Print Assumptions C74_negative_refuted.

(** A date with correlations but without a value draws the offset towards zero. *)
Theorem C74_missing_value_refuted : exists p q, difference p = Some 1 /\ difference q = None /\
  snd (est_shift [p]) = Some 1 /\ snd (est_shift [p; q]) = Some (1 / 2).
Proof.
  exists (mkpoint (Some 1) (Some 0) (Some (1/2)) (Some (1/2))), (mkpoint None (Some 0) (Some (1/2)) (Some (1/2))).
  split; [cbn; f_equal; lra|]. split; [reflexivity|].
  assert (W : weight (Some (1/2)) (Some (1/2)) = Some (inverse_variance (1/2) (1/2))) by (apply variance_sum; try lra; left; lra).
  assert (V : 0 < inverse_variance (1/2) (1/2)) by (unfold inverse_variance; lra).
  split; rewrite est_shift_eq; unfold wt; cbn [snd map cor1 cor2 difference dt1 dt2]; rewrite W; cbn; f_equal; field; lra.
Qed.
Print Assumptions C74_missing_value_refuted.

Example C72_example_hypotheses :
  let p := mkpoint (Some 3) (Some 1) (Some (9/10)) (Some (1/2)) in
  let q := mkpoint (Some 2) (Some 0) (Some (1/2)) (Some (1/2)) in
  coefficients [p; q] /\ usable p /\ usable q /\ snd (est_shift [p; q]) = Some 2.
Proof.
  intros p q.
  assert (HC : coefficients [p; q]) by (unfold coefficients, p, q; repeat (apply Forall_cons); try apply Forall_nil; split; cbn; intros x [= <-]; lra).
  assert (Up : usable p) by (exists (9/10), (1/2); cbn; repeat split; lra).
  assert (Uq : usable q) by (exists (1/2), (1/2); cbn; repeat split; lra).
  split; [exact HC|]. split; [exact Up|]. split; [exact Uq|]. apply C72_constant; [exact HC| | | |].
  - exists p. split; [left; reflexivity|exact Up].
  - intros r [<-|[<-|[]]] _; cbn; f_equal; lra.
  - intros r [<-|[<-|[]]]; discriminate.
  - intros r x [<-|[<-|[]]] [= <-]; lra.
Qed.

(** ** C73 *)
(** If the references see one curve with constant offsets, every reference is shifted to the mean
    offset -- whatever the (positive) correlations are. *)
Theorem C73_offsets pinv base s ps : (2 <= length ps)%nat -> pseudo_inverse (length ps - 1) pinv -> offset_panels base s ps ->
  ref_shifts pinv ps = map (fun x => mean s - x) s.
Proof. exact (ref_shifts_offset pinv base s ps). Qed.
Print Assumptions C73_offsets.

(** With offsets of whole steps whose mean is not half way between two steps, the shifted
    references coincide: all end at the step [z] next to the mean. *)
Theorem C75_aligned_partial pinv base ks delta z ps : (2 <= length ps)%nat -> pseudo_inverse (length ps - 1) pinv -> delta <> 0 ->
  offset_panels base (map (fun k => IZR k * delta) ks) ps -> Rabs (mean (map IZR ks) - IZR z) < 1 / 2 ->
  map (fun p => (fst p + snd p)%Z) (combine (ref_samples pinv delta ps) ks) = repeat z (length ks).
Proof.
  intros Hn HP Hd HO Hz. rewrite (ref_samples_aligned pinv base ks delta z ps Hn HP Hd HO Hz).
  clear. induction ks as [|k ks IH]; [reflexivity|]. cbn [map combine length repeat fst snd]. rewrite IH. f_equal. lia.
Qed.
Print Assumptions C75_aligned_partial.

(** Two references an odd number of steps apart are never brought together: both shifts are
    rounded to even numbers of steps. *)
Theorem C75_odd_offset_refuted pinv base a b delta ps : length ps = 2%nat -> pseudo_inverse 1 pinv -> delta <> 0 ->
  offset_panels base [IZR a * delta; IZR b * delta] ps -> Z.odd (a - b) = true ->
  exists m n, ref_samples pinv delta ps = [m; n] /\ (m + a <> n + b)%Z.
Proof.
  intros Hl HP Hd HO Hodd.
  assert (HP' : pseudo_inverse (length ps - 1) pinv) by (rewrite Hl; exact HP).
  change [IZR a * delta; IZR b * delta] with (map (fun k => IZR k * delta) [a; b]) in HO.
  rewrite (ref_samples_offset pinv base [a; b] delta ps ltac:(lia) HP' Hd HO). cbn [map].
  eexists _, _. split; [reflexivity|]. unfold mean. cbn [sum fold_right length INR].
  apply Zodd_bool_iff, Zodd_ex in Hodd. destruct Hodd as [q Hq].
  assert (E1 : (IZR a + (IZR b + 0)) / (1 + 1) - IZR a = IZR (- q - 1) + 1 / 2).
  { replace b with (a - (2 * q + 1))%Z by lia. rewrite !minus_IZR, plus_IZR, mult_IZR, opp_IZR. lra. }
  assert (E2 : (IZR a + (IZR b + 0)) / (1 + 1) - IZR b = IZR q + 1 / 2).
  { replace b with (a - (2 * q + 1))%Z by lia. rewrite !minus_IZR, plus_IZR, mult_IZR. lra. }
  rewrite E1, E2. intros E. pose proof (around_half_even q) as H1. pose proof (around_half_even (- q - 1)) as H2.
  apply Zeven_bool_iff, Zeven_ex in H1. apply Zeven_bool_iff, Zeven_ex in H2. destruct H1 as [u Hu], H2 as [v Hv]. lia.
Qed.
Print Assumptions C75_odd_offset_refuted.

(** If moreover the similarity matrices are one matrix moved by these steps, that matrix is the
    combined one, moved by the common number of steps. *)
Theorem C75_combined_partial pinv base ks delta z f ps col : (2 <= length ps)%nat -> pseudo_inverse (length ps - 1) pinv -> delta <> 0 ->
  offset_panels base (map (fun k => IZR k * delta) ks) ps -> Rabs (mean (map IZR ks) - IZR z) < 1 / 2 ->
  Forall2 (moved f) ks ps -> Forall (fun r => length r = col) f ->
  combined pinv delta (length f) col ps = map (roll None z) f.
Proof. exact (combined_moved pinv base ks delta z f ps col). Qed.
Print Assumptions C75_combined_partial.

(** References that give the same measurement: the combination is that measurement. *)
Theorem C73_same_reference pinv base p n delta col : (2 <= n)%nat -> pseudo_inverse (n - 1) pinv -> delta <> 0 ->
  offset_panel base 0 p -> (exists t r, nth t (corr p) None = Some r /\ 0 < r < 1) ->
  Forall (fun r => length r = col) (sim_mat p) ->
  combined pinv delta (length (sim_mat p)) col (repeat p n) = sim_mat p.
Proof.
  intros Hn HP Hd HO [t [r [Er Hr]]] Hc.
  rewrite (combined_moved pinv base (repeat 0%Z n) delta 0 (sim_mat p) (repeat p n) col); rewrite ?repeat_length; try assumption.
  - transitivity (map (fun x : list (option R) => x) (sim_mat p)); [apply map_ext; intros x; apply roll_zero|apply map_id].
  - split.
    + assert (Z0 : IZR 0 * delta = 0) by lra. clear - HO Z0. induction n as [|n IH]; [constructor|]. cbn [repeat map]. constructor; [rewrite Z0; exact HO|exact IH].
    + exists t. apply Forall_forall. intros q Hq. apply repeat_spec in Hq. subst q. exists r. auto.
  - assert (S0 : forall k, sum (map IZR (repeat 0%Z k)) = 0) by (intros k; apply sum_zero; intros x Hx; apply repeat_spec in Hx; subst; reflexivity).
    unfold mean. rewrite S0. unfold Rdiv. rewrite Rmult_0_l, Rminus_0_r, Rabs_R0. lra.
  - assert (R0 : map (roll None 0) (sim_mat p) = sim_mat p).
    { transitivity (map (fun x : list (option R) => x) (sim_mat p)); [apply map_ext; intros x; apply roll_zero|apply map_id]. }
    clear - R0. induction n as [|n IH]; [constructor|]. cbn [repeat]. constructor; [unfold moved; symmetry; exact R0|exact IH].
Qed.
Print Assumptions C73_same_reference.

(** For every date the reported correlation is the largest entry of the combined row, and the
    reported value is the stretch at which it occurs. *)
Theorem C73_best pinv strvec ps out : combine_refs pinv strvec ps = Ok (Some out) ->
  length out = length (sim_mat (hd no_panel ps)) /\
  Forall (fun o => let '(c, v, row) := o in
    length row = length strvec /\
    exists j, (j < length strvec)%nat /\ v = Some (nth j strvec 0) /\ c = nth j row None /\
              forall x, In (Some x) row -> exists r, c = Some r /\ x <= r) out.
Proof.
  unfold combine_refs. destruct strvec as [|s0 [|s1 sv]]; try discriminate. destruct (Nat.leb_spec (length ps) 1); [discriminate|].
  destruct (Nat.leb_spec (length (sim_mat (hd no_panel ps))) 1); [discriminate|]. 
  set (strvec := s0 :: s1 :: sv). intros E. assert (E' := f_equal (fun r => match r with Ok (Some o) => o | _ => [] end) E). cbn beta iota in E'.
  rewrite <- E'. split.
  - unfold combined. rewrite !map_length, seq_length. reflexivity.
  - apply Forall_forall. intros [[c v] row] Ho. apply in_map_iff in Ho. destruct Ho as [r [Er Hr]].
    injection Er as Ec Ev ->. unfold combined in Hr. apply in_map_iff in Hr. destruct Hr as [t [Et _]].
    assert (L : length row = length strvec) by (rewrite <- Et, map_length, seq_length; reflexivity). split; [exact L|].
    destruct (mmax row) as [j m] eqn:M. cbn [fst snd] in Ec, Ev.
    destruct (mmax_spec row j m) as [Hj [Hm Hx]]; [destruct row; [discriminate L|discriminate]|exact M|].
    exists j. rewrite <- L. split; [exact Hj|]. split; [symmetry; exact Ev|]. subst c. split; [exact Hm|exact Hx].
Qed.
Print Assumptions C73_best.

(** Combined similarities are correlation coefficients when the individual ones are. *)
Theorem C73_bounded pinv delta row col ps :
  (forall p r v, In p ps -> In r (sim_mat p) -> In (Some v) r -> -1 <= v <= 1) ->
  forall r v, In r (combined pinv delta row col ps) -> In (Some v) r -> -1 <= v <= 1.
Proof.
  intros H r v Hr Hv. unfold combined in Hr. apply in_map_iff in Hr. destruct Hr as [t [<- _]].
  apply in_map_iff in Hv. destruct Hv as [j [E _]]. apply (masked_mean_bounds (-1) 1) in E; [exact E|].
  intros x Hx. unfold entry3, rolled in Hx. rewrite map_map in Hx. apply in_map_iff in Hx. destruct Hx as [[m p] [Ex Hp]]. cbn [fst snd] in Ex.
  apply in_combine_r in Hp.
  destruct (nth_in_or_default t (map (roll None m) (sim_mat p)) []) as [I|D]; [|rewrite D in Ex; destruct j; discriminate].
  apply in_map_iff in I. destruct I as [w [Ew Hw]]. rewrite <- Ew in Ex.
  destruct (Nat.lt_ge_cases j (length (roll None m w))) as [L|L]; [|rewrite nth_overflow in Ex by exact L; discriminate].
  rewrite roll_length in L. rewrite roll_nth in Ex by exact L. apply (H p w x Hp Hw).
  rewrite <- Ex. apply nth_In. pose proof (Z.mod_pos_bound (Z.of_nat j - m) (Z.of_nat (length w)) ltac:(lia)). lia.
Qed.
Print Assumptions C73_bounded.

(** A date without any similarity gets the first of the tested stretches as its value (a single
    reference would report NaN). *)
Theorem C75_no_data_refuted pinv s0 s1 sv ps out c v row :
  combine_refs pinv (s0 :: s1 :: sv) ps = Ok (Some out) -> In (c, v, row) out -> (forall x, In x row -> x = None) ->
  c = None /\ v = Some s0.
Proof.
  unfold combine_refs. destruct (Nat.leb_spec (length ps) 1); [discriminate|].
  destruct (Nat.leb_spec (length (sim_mat (hd no_panel ps))) 1); [discriminate|]. 
  set (strvec := s0 :: s1 :: sv). intros E. assert (E' := f_equal (fun r => match r with Ok (Some o) => o | _ => [] end) E). cbn beta iota in E'.
  rewrite <- E'. intros Ho Hn. apply in_map_iff in Ho. destruct Ho as [r [Er Hr]].
  injection Er as Ec Ev ->. rewrite mmax_none in Ec, Ev by exact Hn. cbn in Ec, Ev. auto.
Qed.
Print Assumptions C75_no_data_refuted.

(** A single date cannot be measured with several references. *)
Theorem C75_one_date_refuted pinv s0 s1 sv ps : (2 <= length ps)%nat -> length (sim_mat (hd no_panel ps)) = 1%nat ->
  combine_refs pinv (s0 :: s1 :: sv) ps = Raise ValueError.
Proof. intros H1 H2. unfold combine_refs. destruct (Nat.leb_spec (length ps) 1); [lia|]. rewrite H2. reflexivity. Qed.
Print Assumptions C75_one_date_refuted.

(** ** Windows.  One window is measured as given; with several the first should be used, but the
    call fails for both-sided and left windows, and splits the window into its samples otherwise. *)
Theorem C75_one_window s n l : measured_windows s n [Arr l] = (do ix <- side_indices s n l; Ok [ix]).
Proof. unfold measured_windows, first_window, mapM, window_samples. destruct (side_indices s n l); reflexivity. Qed.
Print Assumptions C75_one_window.

Theorem C75_windows_refuted s n t l w r : s = Both \/ s = LeftSide ->
  measured_windows s n (Arr (t :: l) :: w :: r) = Raise IndexError.
Proof. intros [-> | ->]; reflexivity. Qed.
Print Assumptions C75_windows_refuted.

Theorem C75_right_windows_refuted n l w r :
  measured_windows RightSide n (Arr l :: w :: r) = Ok (map (fun t => [(center n + t)%Z]) l).
Proof. unfold measured_windows, first_window. cbn [mapM]. induction l as [|t l IH]; [reflexivity|]. cbn [map mapM window_samples bind]. rewrite IH. reflexivity. Qed.
Print Assumptions C75_right_windows_refuted.

(** ** Non-vacuity: two references need the pseudo inverse of a 1 x 1 matrix. *)
Definition pinv1 (A : list (list R)) : list (list R) :=
  match A with [[a]] => if Req_EM_T a 0 then [[0]] else [[/ a]] | _ => [[0]] end.
Lemma pinv1_ok : pseudo_inverse 1 pinv1.
Proof.
  intros A [HA HF]. destruct A as [|r [|]]; try discriminate. inversion HF as [|r' l Hr _]; subst. destruct r as [|a [|]]; try discriminate.
  cbn [pinv1]. split.
  - destruct (Req_EM_T a 0); (split; [reflexivity|repeat constructor]).
  - intros x Hx. destruct x as [|v [|]]; try discriminate. unfold mat_vec, dot. destruct (Req_EM_T a 0); cbn; f_equal; [subst; lra|]. field. assumption.
Qed.

Definition half : option R := Some (1 / 2).
(** curve [-1; -1] with offsets 0 and 2, stretches -1, 0, 1; [x]: similarity of reference 0 at stretch 1 *)
Definition two_refs (x : R) : list panel :=
  [ mkpanel [Some (-1); Some (-1)] [half; half] [[half; Some 0; Some x]; [half; Some 0; Some 0]];
    mkpanel [Some 1; Some 1] [half; half] [[Some 0; Some 0; half]; [Some 0; Some 0; half]] ].
Lemma two_refs_offset x : offset_panels [Some (-1); Some (-1)] (map (fun k => IZR k * 1) [0; 2]%Z) (two_refs x).
Proof.
  assert (E0 : -1 + 0 * 1 = -1) by lra. assert (E2 : -1 + 2 * 1 = 1) by lra.
  split.
  - constructor; [|constructor; [|constructor]]; (split; [cbn; rewrite ?E0, ?E2; reflexivity|]);
      repeat constructor; exists (1 / 2); split; try reflexivity; lra.
  - exists 0%nat. constructor; [|constructor; [|constructor]]; exists (1 / 2); (split; [reflexivity|lra]).
Qed.
Lemma two_refs_samples x : ref_samples pinv1 1 (two_refs x) = [1; -1]%Z.
Proof.
  rewrite (ref_samples_aligned pinv1 [Some (-1); Some (-1)] [0; 2]%Z 1 1 (two_refs x)); [reflexivity|cbn; lia|exact pinv1_ok|lra|apply two_refs_offset|].
  unfold mean. cbn [map sum fold_right length INR]. rewrite Rabs_right; lra.
Qed.

(** The matrices are rolled: the similarity of reference 0 at the largest stretch enters that of the
    combination at the smallest stretch. *)
Theorem C75_wraps_refuted : exists x y, x <> y /\
  nth 0 (nth 0 (combined pinv1 1 2 3 (two_refs x)) []) None = Some (x / 2) /\
  nth 0 (nth 0 (combined pinv1 1 2 3 (two_refs y)) []) None = Some (y / 2).
Proof.
  exists 1, 0. split; [lra|].
  assert (K : forall x, nth 0 (nth 0 (combined pinv1 1 2 3 (two_refs x)) []) None = Some (x / 2)).
  { intros x. unfold combined, rolled. rewrite two_refs_samples. cbn. change (masked_mean [Some x; Some 0] = Some (x / 2)). unfold masked_mean. cbn. f_equal. lra. }
  split; apply K.
Qed.
Print Assumptions C75_wraps_refuted.

(** a pair one step apart meets the hypotheses of C75_odd_offset_refuted *)
Example C75_odd_example : ref_samples pinv1 1
  [ mkpanel [Some 0] [half] []; mkpanel [Some 1] [half] [] ] = [0; 0]%Z.
Proof.
  assert (HO : offset_panels [Some 0] (map (fun k => IZR k * 1) [0; 1]%Z) [mkpanel [Some 0] [half] []; mkpanel [Some 1] [half] []]).
  { assert (E0 : 0 + 0 * 1 = 0) by lra. assert (E1 : 0 + 1 * 1 = 1) by lra. split.
    - constructor; [|constructor; [|constructor]]; (split; [cbn; rewrite ?E0, ?E1; reflexivity|]);
        repeat constructor; exists (1 / 2); split; try reflexivity; lra.
    - exists 0%nat. constructor; [|constructor; [|constructor]]; exists (1 / 2); (split; [reflexivity|lra]). }
  rewrite (ref_samples_offset pinv1 [Some 0] [0; 1]%Z 1 [mkpanel [Some 0] [half] []; mkpanel [Some 1] [half] []]); [|cbn; lia|exact pinv1_ok|lra|exact HO]. unfold mean. cbn [map sum fold_right length INR].
  f_equal; [|f_equal].
  - replace ((0 + (1 + 0)) / (1 + 1) - 0) with (IZR 0 + 1 / 2) by lra. apply around_half.
  - replace ((0 + (1 + 0)) / (1 + 1) - 1) with (IZR (-1) + 1 / 2) by lra. apply around_half.
Qed.
