From Coq Require Import Reals Lra.
From Verif Require Import Lib.Base Model.Similarity Model.MultiRef Spec.MultiRefSpec Proofs.MultiRefFacts.
Local Open Scope R_scope.

Lemma left_out_false c1 c2 : left_out c1 c2 = false.
Proof.
  unfold left_out, no_zero, above. destruct c1 as [a|], c2 as [b|]; cbn; try (rewrite ?andb_false_r; reflexivity).
  destruct (Rlt_dec (999/1000) a), (Rlt_dec (999/1000) b), (Rlt_dec 0 a), (Rlt_dec 0 b); cbn; try reflexivity; exfalso; lra.
Qed.
Lemma kept_all pts : filter (fun p => negb (left_out (cor1 p) (cor2 p))) pts = pts.
Proof. induction pts as [|p pts IH]; [reflexivity|]. cbn [filter]. rewrite left_out_false. cbn [negb]. f_equal. exact IH. Qed.

Lemma msum_normal l : msum l = if existsb is_some l then Some (sum (map num l)) else None.
Proof.
  induction l as [|[v|] l IH]; [reflexivity| |]; cbn [msum fold_right existsb is_some orb map num]; fold (msum l); rewrite IH.
  - destruct (existsb is_some l) eqn:E; change (sum (v :: map num l)) with (v + sum (map num l)); [reflexivity|].
    f_equal. rewrite sum_zero; [lra|]. intros o Ho. destruct o as [r|]; [|reflexivity].
    assert (existsb is_some l = true) by (apply existsb_exists; exists (Some r); auto). congruence.
  - change (sum (0 :: map num l)) with (0 + sum (map num l)). destruct (existsb is_some l); [f_equal; lra|reflexivity].
Qed.

Lemma variance_some a v : variance a = Some v -> a <> 0 /\ v = (1 - a * a) / (4 * (a * a)).
Proof. unfold variance, mdiv. destruct (Req_EM_T (4 * (a * a)) 0) as [E|E]; [discriminate|]. intros [= <-]. split; [|reflexivity]. intros ->. apply E. lra. Qed.
Lemma variance_nonneg a v : -1 <= a <= 1 -> variance a = Some v -> 0 <= v.
Proof.
  intros Ha H. apply variance_some in H. destruct H as [Hn ->].
  assert (0 < a * a) by (destruct (Rlt_or_le 0 a); [apply Rmult_lt_0_compat; assumption|]; assert (a < 0) by lra; replace (a * a) with ((-a) * (-a)) by ring; apply Rmult_lt_0_compat; lra).
  assert (a * a <= 1) by nra.
  apply Rmult_le_pos; [lra|]. apply Rlt_le, Rinv_0_lt_compat. lra.
Qed.
Definition in_range (o : option R) : Prop := forall a, o = Some a -> -1 <= a <= 1.
Lemma weight_pos c1 c2 w : in_range c1 -> in_range c2 -> weight c1 c2 = Some w -> 0 < w.
Proof.
  intros H1 H2 H. unfold weight in H. destruct c1 as [a|]; [|discriminate]. destruct c2 as [b|]; [|discriminate].
  destruct (variance a) as [v1|] eqn:E1; [|discriminate]. destruct (variance b) as [v2|] eqn:E2; [|discriminate].
  apply variance_nonneg in E1; [|apply H1; reflexivity]. apply variance_nonneg in E2; [|apply H2; reflexivity].
  unfold mdiv in H. destruct (Req_EM_T (v1 + v2) 0); [discriminate|]. injection H as <-.
  unfold Rdiv. rewrite Rmult_1_l. apply Rinv_0_lt_compat. lra.
Qed.
Lemma sq_pos a : a <> 0 -> 0 < a * a.
Proof. intros H. pose proof (Rsqr_pos_lt a H) as K. exact K. Qed.
Lemma sq_le1 a : -1 <= a <= 1 -> a * a <= 1.
Proof. intros H. nra. Qed.
Lemma variance_sum a b : -1 <= a <= 1 -> -1 <= b <= 1 -> a <> 0 -> b <> 0 -> a * a <> 1 \/ b * b <> 1 ->
  weight (Some a) (Some b) = Some (inverse_variance a b).
Proof.
  intros Ha Hb Na Nb Hne. pose proof (sq_pos a Na). pose proof (sq_pos b Nb). pose proof (sq_le1 a Ha). pose proof (sq_le1 b Hb).
  unfold weight, variance, mdiv.
  destruct (Req_EM_T (4 * (a * a)) 0); [lra|]. destruct (Req_EM_T (4 * (b * b)) 0); [lra|].
  assert (0 < (1 - a * a) / (4 * (a * a)) + (1 - b * b) / (4 * (b * b))) as P.
  { assert (0 <= (1 - a * a) / (4 * (a * a))) by (apply Rmult_le_pos; [lra|apply Rlt_le, Rinv_0_lt_compat; lra]).
    assert (0 <= (1 - b * b) / (4 * (b * b))) by (apply Rmult_le_pos; [lra|apply Rlt_le, Rinv_0_lt_compat; lra]).
    destruct Hne as [Hne|Hne].
    - assert (0 < (1 - a * a) / (4 * (a * a))) by (apply Rmult_lt_0_compat; [lra|apply Rinv_0_lt_compat; lra]). lra.
    - assert (0 < (1 - b * b) / (4 * (b * b))) by (apply Rmult_lt_0_compat; [lra|apply Rinv_0_lt_compat; lra]). lra. }
  destruct (Req_EM_T _ 0); [lra|]. f_equal. unfold inverse_variance.
  assert (D : 0 < a * a + b * b - 2 * (a * a) * (b * b)).
  { replace (a * a + b * b - 2 * (a * a) * (b * b)) with ((1 - b * b) * (a * a) + (1 - a * a) * (b * b)) by ring.
    destruct Hne as [Hne|Hne]; nra. }
  field. repeat split; nra.
Qed.
Lemma weight_usable p : usable p -> exists w, weight (cor1 p) (cor2 p) = Some w.
Proof. intros [a [b [-> [-> [Ha [Hb [Na [Nb Hne]]]]]]]]. eexists. apply variance_sum; assumption. Qed.

Definition wt (p : point) : option R := weight (cor1 p) (cor2 p).

Lemma est_shift_eq pts : est_shift pts =
  (olift Rdiv (msum (map (fun p => olift Rmult (olift Rplus (cor1 p) (cor2 p)) (wt p)) pts)) (msum (map wt pts)),
   olift Rdiv (msum (map (fun p => olift Rmult (difference p) (wt p)) pts)) (msum (map wt pts))).
Proof. unfold est_shift. rewrite kept_all. reflexivity. Qed.

Lemma total_pos pts : coefficients pts -> existsb is_some (map wt pts) = true -> 0 < sum (map num (map wt pts)).
Proof.
  intros HC. induction HC as [|p pts [H1 H2] HC IH]; [discriminate|].
  cbn [map existsb]. change (sum (?a :: ?l)) with (a + sum l). intros E.
  assert (0 <= sum (map num (map wt pts))).
  { destruct (existsb is_some (map wt pts)) eqn:F; [apply Rlt_le, IH; reflexivity|].
    rewrite sum_zero; [lra|]. intros o Ho. destruct o as [r|]; [|reflexivity].
    assert (existsb is_some (map wt pts) = true) by (apply existsb_exists; exists (Some r); auto). congruence. }
  destruct (wt p) as [w|] eqn:W; cbn [num].
  - assert (0 < w) by (eapply weight_pos; [exact H1|exact H2|exact W]). lra.
  - cbn [is_some orb] in E. apply IH in E. lra.
Qed.

Lemma est_some f pts : coefficients pts -> (exists p, In p pts /\ usable p) ->
  (forall p w, In p pts -> wt p = Some w -> exists v, f p = Some v) ->
  msum (map (fun p => olift Rmult (f p) (wt p)) pts) = Some (sum (map (fun p => num (f p) * num (wt p)) pts)) /\
  msum (map wt pts) = Some (sum (map (fun p => num (wt p)) pts)) /\ 0 < sum (map (fun p => num (wt p)) pts).
Proof.
  intros HC [p [Hp Hu]] Hf. destruct (weight_usable p Hu) as [w Hw]. fold (wt p) in Hw. 
  assert (E : existsb is_some (map wt pts) = true).
  { apply existsb_exists. exists (Some w). split; [rewrite <- Hw; apply in_map; exact Hp|reflexivity]. }
  split; [|split].
  - rewrite msum_normal. replace (existsb is_some _) with true.
    2:{ symmetry. apply existsb_exists. destruct (Hf p w Hp Hw) as [v Hv]. exists (Some (v * w)). split; [|reflexivity].
        apply in_map_iff. exists p. rewrite Hw, Hv. split; [reflexivity|exact Hp]. }
    f_equal. rewrite map_map. apply sum_ext. intros q Hq. destruct (wt q) as [wq|] eqn:Wq.
    + destruct (Hf q wq Hq Wq) as [v ->]. reflexivity.
    + destruct (f q); cbn; lra.
  - rewrite msum_normal, E. f_equal. rewrite map_map. reflexivity.
  - rewrite <- map_map. apply total_pos; assumption.
Qed.

Lemma est_shift_formula pts : coefficients pts -> (exists p, In p pts /\ usable p) ->
  (forall p w, In p pts -> wt p = Some w -> exists v, difference p = Some v) ->
  snd (est_shift pts) = Some (sum (map (fun p => num (difference p) * num (wt p)) pts) / sum (map (fun p => num (wt p)) pts)) /\
  0 < sum (map (fun p => num (wt p)) pts).
Proof.
  intros HC HU HD. rewrite est_shift_eq. cbn [snd]. destruct (est_some difference pts HC HU HD) as [-> [-> P]]. split; [reflexivity|exact P].
Qed.

Lemma est_shift_bounds pts lo hi : coefficients pts -> (exists p, In p pts /\ usable p) ->
  (forall p w, In p pts -> wt p = Some w -> exists v, difference p = Some v /\ lo <= v <= hi) ->
  exists s, snd (est_shift pts) = Some s /\ lo <= s <= hi.
Proof.
  intros HC HU HD. destruct (est_shift_formula pts HC HU) as [E P].
  { intros p w Hp Hw. destruct (HD p w Hp Hw) as [v [Hv _]]. exists v. exact Hv. }
  eexists. split; [exact E|]. set (W := sum (map (fun p => num (wt p)) pts)) in *.
  set (S := sum (map (fun p => num (difference p) * num (wt p)) pts)) in *.
  assert (B : lo * W <= S <= hi * W).
  { unfold W, S. rewrite <- !sum_scale. clear - HC HD. induction HC as [|p pts [H1 H2] HC IH]; [cbn; lra|].
    cbn [map]. change (sum (?a :: ?l)) with (a + sum l).
    assert (K : lo * num (wt p) <= num (difference p) * num (wt p) <= hi * num (wt p)).
    { destruct (wt p) as [w|] eqn:W; cbn [num]; [|lra]. destruct (HD p w) as [v [-> Hv]]; [left; reflexivity|exact W|].
      cbn [num]. assert (0 < w) by (eapply weight_pos; [exact H1|exact H2|exact W]). nra. }
    assert (L : forall q w, In q pts -> wt q = Some w -> exists v, difference q = Some v /\ lo <= v <= hi).
    { intros q w Hq. apply HD. right. exact Hq. }
    specialize (IH L). lra. }
  split; [apply Rmult_le_reg_r with W; [exact P|]|apply Rmult_le_reg_r with W; [exact P|]];
    unfold Rdiv; rewrite Rmult_assoc, Rinv_l, Rmult_1_r by lra; lra.
Qed.

Lemma est_shift_const pts d : coefficients pts -> (exists p, In p pts /\ usable p) ->
  (forall p w, In p pts -> wt p = Some w -> difference p = Some d) -> snd (est_shift pts) = Some d.
Proof.
  intros HC HU HD. destruct (est_shift_bounds pts d d HC HU) as [s [-> Hs]].
  - intros p w Hp Hw. exists d. split; [exact (HD p w Hp Hw)|lra].
  - f_equal. lra.
Qed.

Lemma est_corr_pos pts : coefficients pts -> (exists p, In p pts /\ usable p) ->
  (forall p, In p pts -> (forall a, cor1 p = Some a -> 0 < a) /\ (forall b, cor2 p = Some b -> 0 < b)) ->
  exists c, fst (est_shift pts) = Some c /\ 0 < c.
Proof.
  intros HC HU HP. rewrite est_shift_eq. cbn [fst].
  destruct (est_some (fun p => olift Rplus (cor1 p) (cor2 p)) pts HC HU) as [-> [-> P]].
  { intros p w _ H. unfold wt, weight in H. destruct (cor1 p), (cor2 p); try discriminate. cbn. eauto. }
  eexists. split; [reflexivity|]. apply Rmult_lt_0_compat; [|apply Rinv_0_lt_compat; exact P].
  assert (K : 0 <= sum (map (fun p => num (wt p)) pts)) by lra.
  assert (NN : forall p, In p pts -> 0 <= num (olift Rplus (cor1 p) (cor2 p)) * num (wt p)).
  { intros p Hp. unfold coefficients in HC. rewrite Forall_forall in HC. destruct (HC p Hp) as [H1 H2]. destruct (HP p Hp) as [P1 P2].
    destruct (wt p) as [w|] eqn:W; cbn [num]; [|lra]. assert (0 < w) by (eapply weight_pos; [exact H1|exact H2|exact W]).
    unfold wt, weight in W. destruct (cor1 p) as [a|], (cor2 p) as [b|]; try discriminate. cbn.
    specialize (P1 a eq_refl). specialize (P2 b eq_refl). nra. }
  destruct (Rtotal_order 0 (sum (map (fun p => num (olift Rplus (cor1 p) (cor2 p)) * num (wt p)) pts))) as [L|[L|L]]; [exact L| |].
  - exfalso. symmetry in L. destruct HU as [p [Hp Hu]]. pose proof (sum_nonneg_zero _ _ NN L p Hp) as Z. cbn beta in Z.
    destruct (weight_usable p Hu) as [w Hw]. fold (wt p) in Hw. destruct Hu as [a [b [Ea [Eb [Ha [Hb _]]]]]].
    assert (0 < w). { apply (weight_pos (cor1 p) (cor2 p)); [| |exact Hw]; [rewrite Ea|rewrite Eb]; intros r [= <-]; assumption. }
    destruct (HP p Hp) as [P1 P2]. specialize (P1 a Ea). specialize (P2 b Eb). rewrite Ea, Eb, Hw in Z. cbn in Z. nra.
  - pose proof (sum_nonneg _ _ NN). lra.
Qed.

Lemma est_shift_swap pts : est_shift (map swapped pts) = (fst (est_shift pts), option_map Ropp (snd (est_shift pts))).
Proof.
  rewrite !est_shift_eq. cbn [fst snd].
  assert (W : map wt (map swapped pts) = map wt pts).
  { rewrite map_map. apply map_ext. intros p. unfold wt, weight, swapped. cbn [cor1 cor2].
    destruct (cor1 p) as [a|], (cor2 p) as [b|]; try reflexivity. destruct (variance a), (variance b); try reflexivity. rewrite Rplus_comm. reflexivity. }
  assert (Wp : forall p, wt (swapped p) = wt p).
  { intros p. unfold wt, weight, swapped. cbn [cor1 cor2].
    destruct (cor1 p) as [a|], (cor2 p) as [b|]; try reflexivity. destruct (variance a), (variance b); try reflexivity. rewrite Rplus_comm. reflexivity. }
  rewrite W. f_equal.
  - do 2 f_equal. rewrite map_map. apply map_ext. intros p. rewrite Wp. f_equal. cbn [swapped cor1 cor2]. destruct (cor1 p), (cor2 p); cbn; try reflexivity. f_equal. lra.
  - rewrite map_map. rewrite (map_ext (fun x => olift Rmult (difference (swapped x)) (wt (swapped x))) (fun p => option_map Ropp (olift Rmult (difference p) (wt p)))).
    2:{ intros p. rewrite Wp. unfold difference. cbn [swapped dt1 dt2]. destruct (dt1 p), (dt2 p), (wt p); cbn; try reflexivity. f_equal. lra. }
    assert (M : forall l, msum (map (option_map Ropp) l) = option_map Ropp (msum l)).
    { intros l. rewrite !msum_normal. rewrite map_map. 
      replace (existsb is_some (map (option_map Ropp) l)) with (existsb is_some l).
      2:{ induction l as [|[|] l IH]; cbn; congruence. }
      destruct (existsb is_some l); [|reflexivity]. cbn. f_equal. induction l as [|[v|] l IH]; cbn; unfold sum in *; cbn; lra. }
    rewrite <- (map_map (fun p => olift Rmult (difference p) (wt p)) (option_map Ropp)), M.
    destruct (msum (map (fun p => olift Rmult (difference p) (wt p)) pts)), (msum (map wt pts)); cbn; try reflexivity. f_equal. unfold Rdiv. ring.
Qed.

Lemma msum_skip {A} (f : A -> option R) a l1 l2 : f a = None -> msum (map f (l1 ++ a :: l2)) = msum (map f (l1 ++ l2)).
Proof. intros H. rewrite !map_app. cbn [map]. rewrite H. induction (map f l1) as [|x l IH]; [reflexivity|]. cbn [app msum fold_right].
  fold (msum (l ++ None :: map f l2)). fold (msum (l ++ map f l2)). rewrite IH. reflexivity. Qed.
Lemma est_shift_skip p l1 l2 : wt p = None -> est_shift (l1 ++ p :: l2) = est_shift (l1 ++ l2).
Proof.
  intros H. rewrite !est_shift_eq. rewrite !msum_skip; [reflexivity|..]; rewrite ?H; try reflexivity;
  destruct (difference p), (olift Rplus (cor1 p) (cor2 p)); reflexivity.
Qed.
Lemma wt_perfect p : cor1 p = Some 1 -> cor2 p = Some 1 -> wt p = None.
Proof. unfold wt. intros -> ->. unfold weight, variance, mdiv. destruct (Req_EM_T (4 * (1 * 1)) 0); [lra|].
  destruct (Req_EM_T _ 0) as [E|E]; [reflexivity|]. exfalso. apply E. lra. Qed.
Lemma wt_none p : cor1 p = None \/ cor2 p = None \/ cor1 p = Some 0 \/ cor2 p = Some 0 -> wt p = None.
Proof.
  assert (V : variance 0 = None). { unfold variance, mdiv. destruct (Req_EM_T (4 * (0 * 0)) 0) as [E|E]; [reflexivity|exfalso; lra]. }
  unfold wt, weight. intros [->|[->|[->| ->]]]; try reflexivity; [destruct (cor1 p); reflexivity|rewrite V; destruct (cor2 p); reflexivity|].
  rewrite V. destruct (cor1 p) as [a|]; [destruct (variance a)|]; reflexivity.
Qed.
