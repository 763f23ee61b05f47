From Coq Require Import Reals Lra.
From Verif Require Import Lib.Base Model.Similarity Model.MultiRef Spec.MultiRefSpec Proofs.MultiRefFacts Proofs.OffsetFacts.
Local Open Scope R_scope.

Lemma nth_Forall2 {A B} (P : A -> B -> Prop) l m d e : Forall2 P l m -> forall k, (k < length l)%nat -> P (nth k l d) (nth k m e).
Proof. intros H. induction H; intros k Hk; [cbn in Hk; lia|]. destruct k; [assumption|]. apply IHForall2. cbn in Hk. lia. Qed.
Lemma Forall2_len {A B} (P : A -> B -> Prop) l m : Forall2 P l m -> length l = length m.
Proof. induction 1; cbn; congruence. Qed.

(** points of two panels that are the same curve with offsets [a] and [b] *)
Lemma points_in base a b pa pb p : offset_panel base a pa -> offset_panel base b pb -> In p (points pa pb) ->
  (exists v c d, dt1 p = Some (v + a) /\ dt2 p = Some (v + b) /\ cor1 p = Some c /\ cor2 p = Some d /\ 0 < c <= 1 /\ 0 < d <= 1) \/
  (dt1 p = None /\ dt2 p = None /\ cor1 p = None /\ cor2 p = None).
Proof.
  intros [Va Ca] [Vb Cb] H. unfold points in H. rewrite Va, Vb in H. clear Va Vb.
  revert H Ca Cb. generalize (corr pa) (corr pb). induction base as [|x base IH]; intros ca cb H Ca Cb; [destruct H|].
  inversion Ca as [|x1 c1 l1 l1' Hc1 Hr1]; subst. inversion Cb as [|x2 c2 l2 l2' Hc2 Hr2]; subst.
  cbn [map combine] in H. destruct H as [<-|H].
  - cbn [fst snd dt1 dt2 cor1 cor2]. destruct x as [v|].
    + left. destruct Hc1 as [c [-> Hc]], Hc2 as [d [-> Hd]]. exists v, c, d. cbn. repeat split; tauto || lra.
    + right. subst. repeat split.
  - eapply IH; eassumption.
Qed.

Lemma points_nth base a b pa pb t : offset_panel base a pa -> offset_panel base b pb -> (t < length base)%nat ->
  In (mkpoint (nth t (value pa) None) (nth t (value pb) None) (nth t (corr pa) None) (nth t (corr pb) None)) (points pa pb).
Proof.
  intros [Va Ca] [Vb Cb] Ht. unfold points. apply Forall2_len in Ca, Cb.
  assert (La : length (value pa) = length base) by (rewrite Va; apply map_length).
  assert (Lb : length (value pb) = length base) by (rewrite Vb; apply map_length).
  revert Ca Cb La Lb Ht. generalize (length base) as n. clear. generalize (value pa) (value pb) (corr pa) (corr pb). clear.
  intros va vb ca cb n. revert t va vb ca cb. induction n as [|n IH]; intros t va vb ca cb H1 H2 H3 H4 Ht; [lia|].
  destruct va as [|x va], vb as [|y vb], ca as [|z ca], cb as [|w cb]; try discriminate. destruct t as [|t]; [left; reflexivity|].
  right. cbn [nth]. apply IH; cbn in *; lia.
Qed.

Lemma pair_offset base a b pa pb t : offset_panel base a pa -> offset_panel base b pb ->
  (exists r, nth t (corr pa) None = Some r /\ 0 < r < 1) -> (exists r, nth t (corr pb) None = Some r /\ 0 < r < 1) ->
  snd (est_shift (points pa pb)) = Some (a - b) /\ exists c, fst (est_shift (points pa pb)) = Some c /\ 0 < c.
Proof.
  intros Ha Hb [r [Er Hr]] [u [Eu Hu]].
  assert (Ht : (t < length base)%nat).
  { destruct (Nat.lt_ge_cases t (length base)) as [L|L]; [exact L|]. exfalso. destruct Ha as [_ Ca]. apply Forall2_len in Ca.
    rewrite nth_overflow in Er by lia. discriminate. }
  assert (HC : coefficients (points pa pb)).
  { apply Forall_forall. intros p Hp. destruct (points_in base a b pa pb p Ha Hb Hp) as [[v [c [d [_ [_ [-> [-> [Hc Hd]]]]]]]]|[_ [_ [-> ->]]]];
      split; intros x E; inversion E; subst; lra. }
  assert (HU : exists p, In p (points pa pb) /\ usable p).
  { eexists. split; [apply (points_nth base a b pa pb t Ha Hb Ht)|]. exists r, u. cbn [cor1 cor2]. repeat split; try assumption; try lra.
    left. nra. }
  split.
  - apply est_shift_const; [exact HC|exact HU|]. intros p w Hp Hw. unfold difference.
    destruct (points_in base a b pa pb p Ha Hb Hp) as [[v [c [d [-> [-> _]]]]]|[_ [_ [E _]]]].
    + cbn. f_equal. lra.
    + unfold wt in Hw. rewrite E in Hw. discriminate.
  - apply est_corr_pos; [exact HC|exact HU|]. intros p Hp.
    destruct (points_in base a b pa pb p Ha Hb Hp) as [[v [c [d [_ [_ [-> [-> [Hc Hd]]]]]]]]|[_ [_ [-> ->]]]];
      split; intros x E; inversion E; subst; lra.
Qed.

Lemma map_nth_seq_R (s : list R) n : length s = n -> map (fun i => nth i s 0) (seq 0 n) = s.
Proof. apply map_nth_seq. Qed.

Lemma sum_shift (c : R) l : sum (map (fun x => c - x) l) = c * INR (length l) - sum l.
Proof. induction l as [|x l IH]; [cbn; lra|]. cbn [map length]. rewrite S_INR. change (sum (?u :: ?v)) with (u + sum v). rewrite IH. lra. Qed.

Lemma ref_shifts_offset pinv base s ps : (2 <= length ps)%nat -> pseudo_inverse (length ps - 1) pinv -> offset_panels base s ps ->
  ref_shifts pinv ps = map (fun x => mean s - x) s.
Proof.
  intros Hn HP [HF [t Ht]]. pose proof (Forall2_len _ _ _ HF) as Hlen. set (n := length ps) in *.
  assert (Hpair : forall p, In p (pairs n) -> snd (est_shift (points (nth (fst p) ps no_panel) (nth (snd p) ps no_panel))) = Some (nth (fst p) s 0 - nth (snd p) s 0)
     /\ exists c, fst (est_shift (points (nth (fst p) ps no_panel) (nth (snd p) ps no_panel))) = Some c /\ 0 < c).
  { intros p Hp. apply in_pairs in Hp. destruct Hp as [H1 [H2 _]].
    apply (pair_offset base _ _ _ _ t); try (apply (nth_Forall2 _ _ _ _ _ HF); lia);
      rewrite Forall_forall in Ht; apply Ht, nth_In; assumption. }
  unfold ref_shifts. fold n.
  set (x := map (fun k => hd 0 s - nth (S k) s 0) (seq 0 (n - 1))).
  rewrite (solve_consistent pinv n _ x).
  - destruct s as [|s0 s]; [cbn in Hlen; lia|]. cbn [hd nth] in x.
    assert (E : 0 :: x = map (fun v => s0 - v) (s0 :: s)).
    { cbn [map]. f_equal; [lra|]. transitivity (map (fun v => s0 - v) (map (fun i => nth i s 0) (seq 0 (n - 1)))); [rewrite map_map; reflexivity|].
      rewrite map_nth_seq by (cbn in Hlen; lia). reflexivity. }
    rewrite E. unfold centred. rewrite map_map, map_length, sum_shift. apply map_ext. intros v. unfold mean.
    assert (INR (length (s0 :: s)) <> 0) by (apply not_0_INR; cbn; lia). field. assumption.
  - lia.
  - exact HP.
  - unfold pair_shifts. rewrite !map_length. reflexivity.
  - unfold pair_shifts. rewrite map_map. apply Forall_forall. intros w Hw. apply in_map_iff in Hw. destruct Hw as [p [<- Hp]].
    destruct (Hpair p Hp) as [_ [c [-> Hc]]]. exact Hc.
  - unfold x. rewrite map_length, seq_length. reflexivity.
  - unfold pair_shifts, create_G, mat_vec. rewrite !map_map. apply map_ext_in. intros p Hp. destruct (Hpair p Hp) as [-> _]. cbn [num].
    apply in_pairs in Hp. destruct Hp as [H1 [H2 H3]]. rewrite dot_G; try assumption; [|unfold x; rewrite map_length, seq_length; reflexivity].
    assert (K : forall i, (i < n)%nat -> nth i (0 :: x) 0 = hd 0 s - nth i s 0).
    { intros [|i] Hi; cbn [nth]; [destruct s; cbn; lra|]. unfold x. rewrite (nth_map_seq' (fun k => hd 0 s - nth (S k) s 0)) by lia. reflexivity. }
    rewrite !K by assumption. lra.
Qed.

(** ** rounding *)
Lemma Int_part_unique x z : IZR z <= x < IZR z + 1 -> Int_part x = z.
Proof.
  intros H. destruct (base_Int_part x) as [A B]. apply Z.le_antisymm; apply Z.lt_succ_r; apply lt_IZR; rewrite succ_IZR; lra.
Qed.
Lemma around_near x z : IZR z - 1 / 2 < x < IZR z + 1 / 2 -> around x = z.
Proof.
  intros H. unfold around. destruct (Rle_or_lt (IZR z) x) as [L|L].
  - rewrite (Int_part_unique x z) by lra. destruct (Rlt_dec (x - IZR z) (1 / 2)); [reflexivity|lra].
  - rewrite (Int_part_unique x (z - 1)) by (rewrite minus_IZR; lra). rewrite minus_IZR.
    destruct (Rlt_dec _ _); [lra|]. destruct (Rlt_dec _ _); [lia|lra].
Qed.
Lemma around_half z : around (IZR z + 1 / 2) = if Z.even z then z else (z + 1)%Z.
Proof.
  unfold around. rewrite (Int_part_unique _ z) by lra. destruct (Rlt_dec _ _); [lra|]. destruct (Rlt_dec _ _); [lra|]. reflexivity.
Qed.
Lemma around_half_even z : Z.even (around (IZR z + 1 / 2)) = true.
Proof. rewrite around_half. destruct (Z.even z) eqn:E; [exact E|]. rewrite Z.even_add, E. reflexivity. Qed.

Lemma sum_IZR (ks : list Z) (delta : R) : sum (map (fun k => IZR k * delta) ks) = sum (map IZR ks) * delta.
Proof. induction ks as [|k ks IH]; [cbn; lra|]. cbn [map]. change (sum (?u :: ?v)) with (u + sum v). rewrite IH. lra. Qed.

Lemma ref_samples_offset pinv base ks delta ps : (2 <= length ps)%nat -> pseudo_inverse (length ps - 1) pinv -> delta <> 0 ->
  offset_panels base (map (fun k => IZR k * delta) ks) ps ->
  ref_samples pinv delta ps = map (fun k => around (mean (map IZR ks) - IZR k)) ks.
Proof.
  intros Hn HP Hd HO. unfold ref_samples. rewrite (ref_shifts_offset pinv base _ ps Hn HP HO). rewrite !map_map.
  apply map_ext. intros k. f_equal. unfold mean. rewrite sum_IZR, !map_length.
  destruct HO as [HF _]. apply Forall2_len in HF. rewrite map_length in HF.
  assert (INR (length ks) <> 0) by (apply not_0_INR; lia). field. split; assumption.
Qed.

Lemma ref_samples_aligned pinv base ks delta z ps : (2 <= length ps)%nat -> pseudo_inverse (length ps - 1) pinv -> delta <> 0 ->
  offset_panels base (map (fun k => IZR k * delta) ks) ps -> Rabs (mean (map IZR ks) - IZR z) < 1 / 2 ->
  ref_samples pinv delta ps = map (fun k => (z - k)%Z) ks.
Proof.
  intros Hn HP Hd HO Hz. rewrite (ref_samples_offset pinv base ks delta ps Hn HP Hd HO). apply map_ext. intros k.
  apply around_near. rewrite minus_IZR. apply Rabs_def2 in Hz. lra.
Qed.

(** ** rolling *)
Lemma roll_length {A} (d : A) k row : length (roll d k row) = length row.
Proof. unfold roll. rewrite map_length, seq_length. reflexivity. Qed.
Lemma roll_nth {A} (d : A) k row i : (i < length row)%nat ->
  nth i (roll d k row) d = nth (Z.to_nat ((Z.of_nat i - k) mod Z.of_nat (length row))) row d.
Proof.
  intros H. unfold roll. set (f := fun i => _). rewrite (nth_indep _ d (f 0%nat)) by (rewrite map_length, seq_length; exact H).
  rewrite map_nth, seq_nth by exact H. reflexivity.
Qed.
Lemma list_nth_eq {A} (d : A) l m : length l = length m -> (forall i, (i < length l)%nat -> nth i l d = nth i m d) -> l = m.
Proof. intros H K. apply (nth_ext l m d d H K). Qed.
Lemma roll_roll {A} (d : A) a b row : roll d a (roll d b row) = roll d (a + b) row.
Proof.
  apply (list_nth_eq d); [rewrite !roll_length; reflexivity|]. rewrite !roll_length. intros i Hi.
  rewrite roll_nth by (rewrite roll_length; exact Hi). rewrite roll_length.
  pose proof (Z.mod_pos_bound (Z.of_nat i - a) (Z.of_nat (length row)) ltac:(lia)) as B.
  rewrite !roll_nth by lia. do 2 f_equal. rewrite Z2Nat.id by lia. rewrite Zminus_mod_idemp_l. f_equal. lia.
Qed.
Lemma roll_zero {A} (d : A) row : roll d 0 row = row.
Proof. apply (list_nth_eq d); [apply roll_length|]. rewrite roll_length. intros i Hi. rewrite roll_nth by exact Hi.
  f_equal. rewrite Z.sub_0_r, Z.mod_small by lia. lia. Qed.

Lemma masked_mean_same (x : option R) n : (0 < n)%nat -> masked_mean (repeat x n) = x.
Proof.
  intros Hn. unfold masked_mean. rewrite msum_normal. destruct x as [v|].
  - replace (existsb is_some (repeat (Some v) n)) with true by (destruct n; [lia|reflexivity]).
    assert (S : sum (map num (repeat (Some v) n)) = INR n * v).
    { clear Hn. induction n as [|n IH]; [cbn; lra|]. cbn [repeat map num]. change (sum (?u :: ?w)) with (u + sum w). rewrite IH, S_INR. lra. }
    assert (F : length (filter is_some (repeat (Some v) n)) = n).
    { clear Hn S. induction n as [|n IH]; [reflexivity|]. cbn. congruence. }
    rewrite S, F. f_equal. field. apply not_0_INR. lia.
  - replace (existsb is_some (repeat (@None R) n)) with false; [reflexivity|]. clear Hn. induction n; [reflexivity|exact IHn].
Qed.

Lemma nth_map_l {A B} (f : A -> B) l k d e : (k < length l)%nat -> nth k (map f l) e = f (nth k l d).
Proof. intros H. rewrite (nth_indep _ e (f d)) by (rewrite map_length; exact H). apply map_nth. Qed.

Lemma combined_moved pinv base ks delta z f ps col : (2 <= length ps)%nat -> pseudo_inverse (length ps - 1) pinv -> delta <> 0 ->
  offset_panels base (map (fun k => IZR k * delta) ks) ps -> Rabs (mean (map IZR ks) - IZR z) < 1 / 2 ->
  Forall2 (moved f) ks ps -> Forall (fun r => length r = col) f ->
  combined pinv delta (length f) col ps = map (roll None z) f.
Proof.
  intros Hn HP Hd HO Hz HM Hf. unfold combined, rolled. rewrite (ref_samples_aligned pinv base ks delta z ps Hn HP Hd HO Hz).
  set (ms := map (fun p => map (roll None (fst p)) (sim_mat (snd p))) (combine (map (fun k => (z - k)%Z) ks) ps)).
  assert (E : ms = repeat (map (roll None z) f) (length ps)).
  { unfold ms. clear - HM. induction HM as [|k p ks ps Hk HM IH]; [reflexivity|].
    cbn [map combine length repeat fst snd]. f_equal; [|exact IH]. rewrite Hk, map_map. apply map_ext. intros r. rewrite roll_roll. f_equal. lia. }
  rewrite E. apply (list_nth_eq []); [rewrite !map_length, seq_length; reflexivity|]. rewrite map_length, seq_length. intros t Ht.
  rewrite (nth_map_l _ _ _ 0%nat) by (rewrite seq_length; exact Ht). rewrite seq_nth by exact Ht. rewrite Nat.add_0_l.
  rewrite (nth_map_l _ f _ []) by exact Ht.
  assert (Lt : length (nth t f []) = col) by (rewrite Forall_forall in Hf; apply Hf, nth_In, Ht).
  apply (list_nth_eq None); [rewrite map_length, seq_length, roll_length; congruence|]. rewrite map_length, seq_length. intros j Hj.
  rewrite (nth_map_l _ _ _ 0%nat) by (rewrite seq_length; exact Hj). rewrite seq_nth by exact Hj. rewrite Nat.add_0_l.
  transitivity (masked_mean (repeat (nth j (roll None z (nth t f [])) None) (length ps))).
  - f_equal. unfold entry3. clear - Ht. induction (length ps) as [|n IH]; [reflexivity|]. cbn [repeat map]. rewrite IH. f_equal.
    rewrite (nth_map_l _ f _ []) by exact Ht. reflexivity.
  - apply masked_mean_same. lia.
Qed.

(** ** maximum of a masked row *)
Lemma mmax_from_spec l : forall i best bv c j, mmax_from i best bv l = (j, c) ->
  (c = bv /\ j = best \/ exists k, (k < length l)%nat /\ j = (i + k)%nat /\ c = nth k l None /\ c <> None) /\
  (forall v, bv = Some v -> exists r, c = Some r /\ v <= r) /\
  (forall v, In (Some v) l -> exists r, c = Some r /\ v <= r).
Proof.
  induction l as [|x l IH]; intros i best bv c j H; cbn [mmax_from] in H.
  - injection H as <- <-. split; [left; auto|]. split; [intros v ->; exists v; split; [reflexivity|lra]|intros v []].
  - destruct (beats x bv) eqn:B.
    + destruct (IH _ _ _ _ _ H) as [H1 [H2 H3]]. unfold beats in B. destruct x as [xv|]; [|destruct bv; discriminate].
      destruct (H2 xv eq_refl) as [r [Hr Hl]]. split; [|split].
      * right. destruct H1 as [[-> ->]|[k [Hk [-> [E N]]]]].
        -- exists 0%nat. cbn. repeat split; try lia. discriminate.
        -- exists (S k). cbn. repeat split; try lia; assumption.
      * intros v ->. destruct (Rlt_dec v xv); [|discriminate]. exists r. split; [exact Hr|lra].
      * intros v [E|I]; [injection E as <-; exists r; auto|apply H3, I].
    + destruct (IH _ _ _ _ _ H) as [H1 [H2 H3]]. split; [|split].
      * destruct H1 as [[-> ->]|[k [Hk [-> [E N]]]]]; [left; auto|right]. exists (S k). cbn. repeat split; try lia; assumption.
      * exact H2.
      * intros v [E|I]; [|apply H3, I]. subst x. unfold beats in B. destruct bv as [b|]; [|discriminate].
        destruct (Rlt_dec b v); [discriminate|]. destruct (H2 b eq_refl) as [r [Hr Hl]]. exists r. split; [exact Hr|lra].
Qed.

Lemma mmax_spec l j c : l <> [] -> mmax l = (j, c) ->
  (j < length l)%nat /\ c = nth j l None /\ (forall v, In (Some v) l -> exists r, c = Some r /\ v <= r).
Proof.
  intros Hl H. destruct l as [|x l]; [contradiction|]. cbn [mmax] in H. destruct (mmax_from_spec _ _ _ _ _ _ H) as [H1 [H2 H3]].
  split; [|split].
  - destruct H1 as [[_ ->]|[k [Hk [-> _]]]]; cbn; lia.
  - destruct H1 as [[-> ->]|[k [Hk [-> [E _]]]]]; [reflexivity|]. exact E.
  - intros v [->|I]; [apply H2; reflexivity|apply H3, I].
Qed.
Lemma mmax_none l : (forall x, In x l -> x = None) -> mmax l = (0%nat, None).
Proof.
  intros H. destruct l as [|x l]; [reflexivity|]. cbn [mmax]. rewrite (H x) by (left; reflexivity).
  assert (K : forall l i, (forall x, In x l -> x = None) -> mmax_from i 0%nat None l = (0%nat, None)).
  { clear. induction l as [|y l IH]; intros i H; [reflexivity|]. cbn [mmax_from]. rewrite (H y) by (left; reflexivity). cbn [beats]. apply IH. intros; apply H; right; assumption. }
  apply K. intros y Hy. apply H. right. exact Hy.
Qed.

(** ** bounds *)
Lemma masked_mean_bounds lo hi l m : (forall v, In (Some v) l -> lo <= v <= hi) -> masked_mean l = Some m -> lo <= m <= hi.
Proof.
  intros H E. unfold masked_mean in E. rewrite msum_normal in E. destruct (existsb is_some l) eqn:X; [|discriminate].
  injection E as <-.
  assert (P : (0 < length (filter is_some l))%nat).
  { apply existsb_exists in X. destruct X as [o [Ho So]]. assert (I : In o (filter is_some l)) by (apply filter_In; auto). destruct (filter is_some l); [destruct I|cbn; lia]. }
  assert (B : lo * INR (length (filter is_some l)) <= sum (map num l) <= hi * INR (length (filter is_some l))).
  { clear X P. induction l as [|[v|] l IH]; [cbn; lra| |].
    - cbn [filter is_some map num length]. rewrite S_INR. change (sum (?u :: ?w)) with (u + sum w).
      assert (lo <= v <= hi) by (apply H; left; reflexivity). 
      assert (forall w, In (Some w) l -> lo <= w <= hi) as K by (intros w Hw; apply H; right; exact Hw). specialize (IH K). lra.
    - cbn [filter is_some map num]. change (sum (?u :: ?w)) with (u + sum w).
      assert (forall w, In (Some w) l -> lo <= w <= hi) as K by (intros w Hw; apply H; right; exact Hw). specialize (IH K). lra. }
  apply lt_INR in P. change (INR 0) with 0 in P. set (c := INR (length (filter is_some l))) in *.
  split; apply Rmult_le_reg_r with c; try exact P; unfold Rdiv; rewrite Rmult_assoc, Rinv_l, Rmult_1_r by lra; lra.
Qed.
Lemma masked_mean_none l : masked_mean l = None <-> (forall x, In x l -> x = None).
Proof.
  unfold masked_mean. rewrite msum_normal. split.
  - destruct (existsb is_some l) eqn:E; [discriminate|]. intros _ x Hx. destruct x as [v|]; [|reflexivity].
    assert (existsb is_some l = true) by (apply existsb_exists; exists (Some v); auto). congruence.
  - intros H. destruct (existsb is_some l) eqn:E; [|reflexivity]. apply existsb_exists in E. destruct E as [o [Ho So]]. rewrite (H o Ho) in So. discriminate.
Qed.
