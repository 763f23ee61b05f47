(** The exponential of minus the distance between points of a plane is a covariance: sums of squares for points on a
    line, products, averages over directions; strict because of the kink at distance zero. *)
From Coquelicot Require Import Coquelicot.
From Coq Require Import Reals Lra Lia Sorted List.
From Verif Require Import Model.Spectral Model.Kernel Proofs.SpectralFacts.
Import ListNotations.
Local Open Scope R_scope.

Definition qf (n : nat) (c : nat -> R) (K : nat -> nat -> R) : R := rsum n (fun i => rsum n (fun j => c i * c j * K i j)).
Definition lsum (l : list R) : R := fold_right Rplus 0 l.
Definition gram (n : nat) (K : nat -> nat -> R) : Prop :=
  exists fs : list (nat -> R), forall i j, (i < n)%nat -> (j < n)%nat -> K i j = lsum (map (fun f => f i * f j) fs).

Lemma lsum_app a b : lsum (a ++ b) = lsum a + lsum b.
Proof. induction a as [|x a IH]; simpl; [lra|rewrite IH; lra]. Qed.
Lemma lsum_scal {A} (f : A -> R) c l : lsum (map (fun x => c * f x) l) = c * lsum (map f l).
Proof. induction l as [|x a IH]; simpl; [lra|rewrite IH; lra]. Qed.
Lemma qf_ext n c K K' : (forall i j, (i < n)%nat -> (j < n)%nat -> K i j = K' i j) -> qf n c K = qf n c K'.
Proof. intros E. apply rsum_ext. intros i Hi. apply rsum_ext. intros j Hj. now rewrite E. Qed.
Lemma qf_rank1 n c f : qf n c (fun i j => f i * f j) = rsum n (fun i => c i * f i) * rsum n (fun i => c i * f i).
Proof. rewrite rsum_prod. apply rsum_ext. intros i _. apply rsum_ext. intros j _. ring. Qed.
Lemma qf_plus n c K K' : qf n c (fun i j => K i j + K' i j) = qf n c K + qf n c K'.
Proof. unfold qf. rewrite <- rsum_plus. apply rsum_ext. intros i _. rewrite <- rsum_plus. apply rsum_ext. intros j _. ring. Qed.
Lemma gram_psd n c K : gram n K -> 0 <= qf n c K.
Proof.
  intros [fs E]. rewrite (qf_ext n c _ _ E). clear E. induction fs as [|f fs IH].
  - unfold qf. apply Req_le. symmetry. apply rsum_0. intros i _. apply rsum_0. intros j _. simpl. ring.
  - simpl. rewrite qf_plus, qf_rank1. set (a := rsum n _). nra.
Qed.
Lemma gram_mult n K K' : gram n K -> gram n K' -> gram n (fun i j => K i j * K' i j).
Proof.
  intros [fs E] [gs E']. exists (map (fun p i => fst p i * snd p i) (list_prod fs gs)). intros i j Hi Hj. rewrite (E _ _ Hi Hj), (E' _ _ Hi Hj). rewrite map_map.
  clear. induction fs as [|f fs IH]; simpl; [ring|]. rewrite map_app, lsum_app, <- IH, map_map. rewrite Rmult_plus_distr_r. f_equal.
  rewrite <- lsum_scal. f_equal. apply map_ext. intros g. simpl. ring.
Qed.
Lemma gram_one n : gram n (fun _ _ => 1).
Proof. exists [fun _ => 1]. intros. simpl. ring. Qed.
Lemma gram_ext n K K' : (forall i j, (i < n)%nat -> (j < n)%nat -> K i j = K' i j) -> gram n K -> gram n K'.
Proof. intros E [fs H]. exists fs. intros i j Hi Hj. rewrite <- E by assumption. now apply H. Qed.

(** ** Points on a line *)
Lemma insert_sorted x l : StronglySorted Rlt l -> exists l', StronglySorted Rlt l' /\ In x l' /\ (forall y, In y l -> In y l') /\ forall y, In y l' -> y = x \/ In y l.
Proof.
  induction 1 as [|a l H IH F].
  - exists [x]. split; [repeat constructor|]. split; [now left|]. split; [intros y []|]. intros y [->|[]]; auto.
  - destruct (Rtotal_order x a) as [L|[->|L]].
    + exists (x :: a :: l). repeat split; try (simpl; tauto).
      * constructor; [now constructor|]. constructor; [assumption|]. eapply Forall_impl; [|exact F]. intros b Hb. lra.
      * intros y [->|Hy]; auto.
    + exists (a :: l). repeat split; try (simpl; tauto). now constructor.
    + destruct IH as [l' [S' [I1 [I2 I3]]]]. exists (a :: l'). repeat split.
      * constructor; [assumption|]. apply Forall_forall. intros y Hy. destruct (I3 _ Hy) as [->|Hy']; [assumption|]. now apply (proj1 (Forall_forall _ _) F).
      * now right.
      * intros y [->|Hy]; [now left|right; auto].
      * intros y [->|Hy]; [right; now left|]. destruct (I3 _ Hy); auto. right. now right.
Qed.
Lemma sorted_values (s : nat -> R) n : exists l, StronglySorted Rlt l /\ forall i, (i < n)%nat -> In (s i) l.
Proof.
  induction n as [|n [l [H1 H2]]]; [exists []; split; [constructor|lia]|].
  destruct (insert_sorted (s n) l H1) as [l' [S' [I1 [I2 _]]]]. exists l'. split; [assumption|]. intros i Hi. destruct (Nat.eq_dec i n) as [->|N]; [assumption|]. apply I2, H2. lia.
Qed.
Definition step (p : R * R) (t : R) : R := if Rle_dec (snd p) t then fst p else 0.
Lemma steps (g : R -> R) l c : (forall x y, x < y -> g x <= g y) -> StronglySorted Rlt l -> Forall (fun x => c <= g x) l ->
  exists ws, Forall (fun p => 0 <= fst p /\ In (snd p) l) ws /\ forall t, In t l -> c + lsum (map (fun p => step p t) ws) = g t.
Proof.
  intros M S. revert c. induction S as [|x l S IH F]; intros c C; [exists []; split; [constructor|intros t []]|].
  inversion C as [|? ? C1 C2]; subst. destruct (IH (g x)) as [ws [W1 W2]].
  { eapply Forall_impl; [|exact F]. intros y Hy. now apply M. }
  exists ((g x - c, x) :: ws). split.
  - constructor; [simpl; split; [lra|now left]|]. eapply Forall_impl; [|exact W1]. intros p [P1 P2]. split; [assumption|now right].
  - intros t [<-|Ht].
    + simpl. unfold step at 1. simpl. destruct (Rle_dec x x) as [_|N]; [|lra].
      assert (Z : lsum (map (fun p => step p x) ws) = 0).
      { clear - W1 F. induction W1 as [|p ws [P1 P2] W IH]; [reflexivity|]. simpl. rewrite IH. unfold step. assert (x < snd p) by now apply (proj1 (Forall_forall _ _) F). destruct (Rle_dec (snd p) x); lra. }
      rewrite Z. lra.
    + simpl. unfold step at 1. simpl. assert (x < t) by now apply (proj1 (Forall_forall _ _) F). destruct (Rle_dec x t); [|lra]. rewrite <- (W2 _ Ht). lra.
Qed.
Lemma gram_line n (s : nat -> R) : gram n (fun i j => exp (- Rabs (s i - s j))).
Proof.
  destruct (sorted_values s n) as [l [S H]]. destruct (steps (fun t => exp (2 * t)) l 0) as [ws [W1 W2]]; [|assumption|apply Forall_forall; intros; apply Rlt_le, exp_pos|].
  { intros x y L. apply Rlt_le, exp_increasing. lra. }
  exists (map (fun p i => sqrt (fst p) * (if Rle_dec (snd p) (s i) then exp (- s i) else 0)) ws). intros i j Hi Hj. rewrite map_map.
  assert (E : exp (- Rabs (s i - s j)) = exp (- s i) * exp (- s j) * exp (2 * Rmin (s i) (s j))).
  { rewrite <- !exp_plus. f_equal. unfold Rmin. destruct (Rle_dec (s i) (s j)); [rewrite Rabs_left1 by lra|rewrite Rabs_pos_eq by lra]; lra. }
  rewrite E. assert (I : In (Rmin (s i) (s j)) l) by (unfold Rmin; destruct (Rle_dec (s i) (s j)); auto).
  rewrite <- (W2 _ I), Rplus_0_l, <- lsum_scal. f_equal. apply map_ext_in. intros p Hp. destruct (proj1 (Forall_forall _ _) W1 p Hp) as [P _]. unfold step, Rmin.
  pose proof (sqrt_sqrt _ P). destruct (Rle_dec (s i) (s j)), (Rle_dec (snd p) (s i)), (Rle_dec (snd p) (s j)); try lra; rewrite <- H0 at 1; ring.
Qed.

(** ** Average over directions *)
Definition proj (a b t : R) : R := Rabs (a * cos t + b * sin t).
Lemma cos_lip x y : Rabs (cos x - cos y) <= Rabs (x - y).
Proof.
  destruct (MVT_gen cos y x (fun t => - sin t)) as [c [_ E]].
  - intros t _. auto_derive; [trivial|ring].
  - intros t _. apply continuity_cos.
  - rewrite E, Rabs_mult, Rabs_Ropp. pose proof (SIN_bound c). assert (Rabs (sin c) <= 1) by (apply Rabs_le; lra). pose proof (Rabs_pos (x - y)). nra.
Qed.
Lemma sin_lip x y : Rabs (sin x - sin y) <= Rabs (x - y).
Proof.
  destruct (MVT_gen sin y x (fun t => cos t)) as [c [_ E]].
  - intros t _. auto_derive; [trivial|ring].
  - intros t _. apply continuity_sin.
  - rewrite E, Rabs_mult. pose proof (COS_bound c). assert (Rabs (cos c) <= 1) by (apply Rabs_le; lra). pose proof (Rabs_pos (x - y)). nra.
Qed.
Lemma proj_lip a b x y : Rabs (proj a b x - proj a b y) <= (Rabs a + Rabs b) * Rabs (x - y).
Proof.
  unfold proj. eapply Rle_trans; [apply Rabs_triang_inv2|]. replace (a * cos x + b * sin x - (a * cos y + b * sin y)) with (a * (cos x - cos y) + b * (sin x - sin y)) by ring.
  eapply Rle_trans; [apply Rabs_triang|]. rewrite !Rabs_mult. pose proof (cos_lip x y). pose proof (sin_lip x y). pose proof (Rabs_pos a). pose proof (Rabs_pos b). nra.
Qed.
Lemma proj_continuous a b x : continuous (proj a b) x.
Proof.
  unfold proj. apply continuous_comp; [|apply continuous_Rabs]. apply (ex_derive_continuous (fun t => a * cos t + b * sin t)). auto_derive. trivial.
Qed.
Lemma proj_ex a b x y : ex_RInt (proj a b) x y.
Proof. apply (ex_RInt_continuous (V := R_CompleteNormedModule)). intros. apply proj_continuous. Qed.
Lemma cell a b x h : 0 <= h -> Rabs (h * proj a b x - RInt (proj a b) x (x + h)) <= (Rabs a + Rabs b) * h * h.
Proof.
  intros H. assert (E : h * proj a b x - RInt (proj a b) x (x + h) = RInt (fun t => proj a b x - proj a b t) x (x + h)).
  { assert (M := RInt_minus (V := R_CompleteNormedModule) (fun _ => proj a b x) (proj a b) x (x + h) (ex_RInt_const _ _ _) (proj_ex _ _ _ _)). transitivity (minus (RInt (fun _ => proj a b x) x (x + h)) (RInt (proj a b) x (x + h))); [|symmetry; exact M].
    rewrite RInt_const. unfold minus, plus, opp, scal; simpl. unfold mult; simpl. ring. }
  rewrite E. replace ((Rabs a + Rabs b) * h * h) with ((x + h - x) * ((Rabs a + Rabs b) * h)) by ring. apply abs_RInt_le_const; [lra| |].
  - apply (ex_RInt_minus (V := R_NormedModule) (fun _ => proj a b x) (proj a b)); [apply ex_RInt_const|apply proj_ex].
  - intros t Ht. eapply Rle_trans; [apply proj_lip|]. apply Rmult_le_compat_l; [pose proof (Rabs_pos a); pose proof (Rabs_pos b); lra|]. apply Rabs_le. lra.
Qed.
Lemma cells a b h n : RInt (proj a b) 0 (INR n * h) = rsum n (fun k => RInt (proj a b) (INR k * h) (INR k * h + h)).
Proof.
  induction n as [|n IH]; [simpl; rewrite Rmult_0_l; apply (RInt_point (V := R_CompleteNormedModule))|]. simpl rsum. rewrite <- IH. rewrite S_INR. replace ((INR n + 1) * h) with (INR n * h + h) by ring.
  symmetry. apply (RInt_Chasles (V := R_CompleteNormedModule)); apply proj_ex.
Qed.
Lemma riemann a b h n : 0 <= h -> Rabs (rsum n (fun k => h * proj a b (INR k * h)) - RInt (proj a b) 0 (INR n * h)) <= INR n * ((Rabs a + Rabs b) * h * h).
Proof.
  intros H. rewrite cells, <- rsum_minus. eapply Rle_trans; [apply rsum_abs|]. rewrite <- rsum_const. apply rsum_le. intros k _. now apply cell.
Qed.
(** the integral over half a circle, for a > 0 *)
Lemma piece_pos a b u v : u <= v -> (forall t, u < t < v -> 0 <= a * cos t + b * sin t) -> RInt (proj a b) u v = (a * sin v - b * cos v) - (a * sin u - b * cos u).
Proof.
  intros L P. apply is_RInt_unique. apply (is_RInt_ext (fun t => a * cos t + b * sin t)).
  - intros t. rewrite Rmin_left, Rmax_right by assumption. intros Ht. unfold proj. now rewrite Rabs_pos_eq by (apply P; assumption).
  - apply (is_RInt_derive (V := R_CompleteNormedModule) (fun t => a * sin t - b * cos t) (fun t => a * cos t + b * sin t)).
    + intros t _. auto_derive; [trivial|ring].
    + intros t _. apply (ex_derive_continuous (fun t => a * cos t + b * sin t)). auto_derive. trivial.
Qed.
Lemma proj_opp a b t : proj (- a) (- b) t = proj a b t.
Proof. unfold proj. rewrite <- Rabs_Ropp. f_equal. ring. Qed.
Lemma half_circle_pos a b : 0 < a -> RInt (proj a b) 0 PI = 2 * sqrt (a * a + b * b).
Proof.
  intros A. set (r := sqrt (a * a + b * b)). set (f := atan (b / a)). assert (R0 : 0 < r) by (apply sqrt_lt_R0; nra).
  assert (RR : r * r = a * a + b * b) by (apply sqrt_sqrt; nra).
  assert (F : - PI / 2 < f < PI / 2) by apply atan_bound.
  assert (C : 0 < cos f) by (apply cos_gt_0; lra).
  assert (T : tan f = b / a) by apply tan_atan. unfold tan in T.
  assert (SB : sin f = b / a * cos f) by (rewrite <- T; field; lra).
  assert (S2 : sin f * sin f + cos f * cos f = 1) by (pose proof (sin2_cos2 f) as Q; unfold Rsqr in Q; exact Q).
  assert (CA : r * cos f = a).
  { assert (E : (r * cos f) * (r * cos f) = a * a).
    { rewrite SB in S2. replace (r * cos f * (r * cos f)) with (r * r * (cos f * cos f)) by ring. rewrite RR.
      assert (E1 : (b / a * cos f * (b / a * cos f) + cos f * cos f) * (a * a) = a * a) by (rewrite S2; ring). transitivity ((b / a * cos f * (b / a * cos f) + cos f * cos f) * (a * a)); [field; lra|exact E1]. }
    assert (0 < r * cos f) by nra. nra. }
  assert (CB : r * sin f = b) by (rewrite SB; replace (r * (b / a * cos f)) with (b / a * (r * cos f)) by ring; rewrite CA; field; lra).
  assert (G : forall t, a * cos t + b * sin t = r * cos (t - f)) by (intros t; rewrite cos_minus, <- CA at 1; rewrite <- CB at 1; ring).
  pose proof PI_RGT_0.
  rewrite <- (RInt_Chasles (V := R_CompleteNormedModule) (proj a b) 0 (f + PI / 2) PI) by apply proj_ex. unfold plus; simpl.
  rewrite (piece_pos a b 0 (f + PI / 2)); [|lra|].
  2:{ intros t Ht. rewrite G. apply Rmult_le_pos; [lra|]. apply cos_ge_0; lra. }
  rewrite (RInt_ext (proj a b) (proj (- a) (- b))) by (intros; now rewrite proj_opp).
  rewrite (piece_pos (- a) (- b) (f + PI / 2) PI); [|lra|].
  2:{ intros t Ht. replace (- a * cos t + - b * sin t) with (- (a * cos t + b * sin t)) by ring. rewrite G.
      assert (cos (t - f) <= 0) by (apply cos_le_0; lra). nra. }
  rewrite sin_plus, cos_plus, sin_PI2, cos_PI2, sin_PI, cos_PI, sin_0, cos_0. nra.
Qed.
Lemma half_circle a b : RInt (proj a b) 0 PI = 2 * sqrt (a * a + b * b).
Proof.
  destruct (Rtotal_order a 0) as [L|[->|L]].
  - rewrite (RInt_ext (proj a b) (proj (- a) (- b))) by (intros; now rewrite proj_opp). rewrite half_circle_pos by lra. replace (- a * - a + - b * - b) with (a * a + b * b) by ring. reflexivity.
  - rewrite Rmult_0_l, Rplus_0_l. pose proof PI_RGT_0. destruct (Rle_dec 0 b) as [P|P].
    + rewrite piece_pos; [|lra|intros t Ht; assert (0 <= sin t) by (apply sin_ge_0; lra); nra]. rewrite sqrt_square by assumption. rewrite cos_PI, cos_0. lazymatch goal with |- ?x = ?y => change (@eq R x y) end. ring.
    + rewrite (RInt_ext (proj 0 b) (proj (- 0) (- b))) by (intros; now rewrite proj_opp).
      rewrite piece_pos; [|lra|intros t Ht; assert (0 <= sin t) by (apply sin_ge_0; lra); nra]. replace (b * b) with ((- b) * (- b)) by ring. rewrite sqrt_square by lra. rewrite cos_PI, cos_0. lazymatch goal with |- ?x = ?y => change (@eq R x y) end. ring.
  - now apply half_circle_pos.
Qed.
Definition average (a b : R) (n : nat) : R := rsum (S n) (fun k => PI / INR (S n) / 2 * proj a b (INR k * (PI / INR (S n)))).
Lemma average_limit a b : is_lim_seq (average a b) (sqrt (a * a + b * b)).
Proof.
  set (L := Rabs a + Rabs b). apply (is_lim_seq_ext (fun n => sqrt (a * a + b * b) + (average a b n - sqrt (a * a + b * b)))); [intros n; ring|].
  replace (Finite (sqrt (a * a + b * b))) with (Finite (sqrt (a * a + b * b) + 0)) by (f_equal; ring). apply is_lim_seq_plus'; [apply is_lim_seq_const|].
  apply is_lim_seq_abs_0. apply (is_lim_seq_le_le (fun _ => 0) _ (fun n => L * PI * PI / 2 * / INR (S n))).
  - intros n. split; [apply Rabs_pos|]. assert (H : 0 < INR (S n)) by (apply lt_0_INR; lia). pose proof PI_RGT_0. assert (HP : 0 <= PI / INR (S n)) by (apply Rlt_le, Rdiv_lt_0_compat; lra).
    pose proof (riemann a b _ (S n) HP) as Q. replace (INR (S n) * (PI / INR (S n))) with PI in Q by (field; lra). rewrite half_circle in Q.
    assert (E : average a b n = / 2 * rsum (S n) (fun k => PI / INR (S n) * proj a b (INR k * (PI / INR (S n))))) by (unfold average; rewrite <- rsum_scal; apply rsum_ext; intros; field; lra).
    rewrite E. set (s := rsum _ _) in *. replace (/ 2 * s - sqrt (a * a + b * b)) with (/ 2 * (s - 2 * sqrt (a * a + b * b))) by field. rewrite Rabs_mult, (Rabs_pos_eq (/ 2)) by lra.
    fold L in Q. replace (INR (S n) * (L * (PI / INR (S n)) * (PI / INR (S n)))) with (L * PI * PI * / INR (S n)) in Q by (field; lra). lra.
  - apply is_lim_seq_const.
  - replace (Finite 0) with (Rbar_mult (L * PI * PI / 2) 0) by (simpl; f_equal; ring). apply is_lim_seq_scal_l. change (Finite 0) with (Rbar_inv p_infty). apply is_lim_seq_inv; [|discriminate].
    apply (proj1 (is_lim_seq_incr_1 INR p_infty)). apply is_lim_seq_INR.
Qed.

(** ** Points of a plane *)
Lemma gram_prod n (K : nat -> nat -> nat -> R) m : (forall k, (k < m)%nat -> gram n (fun i j => exp (K k i j))) -> gram n (fun i j => exp (rsum m (fun k => K k i j))).
Proof.
  induction m as [|m IH]; intros H.
  - apply (gram_ext n (fun _ _ => 1)); [intros; simpl; now rewrite exp_0|apply gram_one].
  - apply (gram_ext n (fun i j => exp (rsum m (fun k => K k i j)) * exp (K m i j))); [intros; simpl; now rewrite exp_plus|]. apply gram_mult; auto.
Qed.
Lemma rsum_lim n (f : nat -> nat -> R) (g : nat -> R) : (forall k, (k < n)%nat -> is_lim_seq (fun m => f m k) (g k)) -> is_lim_seq (fun m => rsum n (f m)) (rsum n g).
Proof.
  induction n as [|n IH]; intros H; simpl; [apply is_lim_seq_const|]. apply is_lim_seq_plus'; [apply IH; intros; apply H; lia|apply H; lia].
Qed.
Lemma plane_psd n (P : nat -> R * R) l c : 0 <= l -> 0 <= qf n c (fun i j => exp (- (l * edist (P i) (P j)))).
Proof.
  intros L. set (K := fun m i j => exp (- (l * average (fst (P i) - fst (P j)) (snd (P i) - snd (P j)) m))).
  assert (LIM : is_lim_seq (fun m => qf n c (K m)) (qf n c (fun i j => exp (- (l * edist (P i) (P j)))))).
  { unfold qf. apply rsum_lim. intros i _. apply rsum_lim. intros j _. apply (is_lim_seq_scal_l _ (c i * c j) (exp (- (l * edist (P i) (P j))))).
    unfold K. apply (is_lim_seq_continuous (fun t => exp (- (l * t)))); [|apply average_limit]. apply derivable_continuous_pt, ex_derive_Reals_0. auto_derive. trivial. }
  assert (POS : forall m, 0 <= qf n c (K m)).
  { intros m. apply gram_psd. unfold K, average. pose proof PI_RGT_0. assert (HN : 0 < INR (S m)) by (apply lt_0_INR; lia). set (h := PI / INR (S m)). assert (HP : 0 <= h) by (apply Rlt_le, Rdiv_lt_0_compat; lra).
    apply (gram_ext n (fun i j => exp (rsum (S m) (fun k => - Rabs (l * (h / 2) * (fst (P i) * cos (INR k * h) + snd (P i) * sin (INR k * h)) - l * (h / 2) * (fst (P j) * cos (INR k * h) + snd (P j) * sin (INR k * h))))))).
    - intros i j _ _. f_equal. rewrite <- rsum_scal. replace (- rsum (S m) (fun k => l * (h / 2 * proj (fst (P i) - fst (P j)) (snd (P i) - snd (P j)) (INR k * h)))) with (-1 * rsum (S m) (fun k => l * (h / 2 * proj (fst (P i) - fst (P j)) (snd (P i) - snd (P j)) (INR k * h)))) by ring. rewrite <- rsum_scal.
      apply rsum_ext. intros k _. unfold proj. rewrite <- Rmult_minus_distr_l, Rabs_mult, Rabs_mult. rewrite (Rabs_pos_eq l), (Rabs_pos_eq (h / 2)) by lra.
      replace (fst (P i) * cos (INR k * h) + snd (P i) * sin (INR k * h) - (fst (P j) * cos (INR k * h) + snd (P j) * sin (INR k * h))) with ((fst (P i) - fst (P j)) * cos (INR k * h) + (snd (P i) - snd (P j)) * sin (INR k * h)) by ring. ring.
    - apply (gram_prod n (fun k i j => - Rabs (l * (h / 2) * (fst (P i) * cos (INR k * h) + snd (P i) * sin (INR k * h)) - l * (h / 2) * (fst (P j) * cos (INR k * h) + snd (P j) * sin (INR k * h))))).
      intros k _. exact (gram_line n (fun i => l * (h / 2) * (fst (P i) * cos (INR k * h) + snd (P i) * sin (INR k * h)))). }
  exact (is_lim_seq_le (fun _ => 0) _ 0 _ POS (is_lim_seq_const 0) LIM).
Qed.

(** ** Strictness *)
Lemma qf_S n c K : qf (S n) c K = qf n c K + rsum n (fun i => c i * c n * K i n) + rsum n (fun j => c n * c j * K n j) + c n * c n * K n n.
Proof. unfold qf. simpl. rewrite rsum_plus. ring. Qed.
Lemma edist_sym p q : edist p q = edist q p.
Proof. unfold edist. f_equal. ring. Qed.
Lemma edist_refl p : edist p p = 0.
Proof. unfold edist. rewrite !Rminus_eq_0, Rmult_0_l, Rplus_0_l. apply sqrt_0. Qed.
Lemma null_everywhere n (P : nat -> R * R) l c : 0 <= l -> qf n c (fun i j => exp (- (l * edist (P i) (P j)))) = 0 -> forall x, rsum n (fun i => c i * exp (- (l * edist (P i) x))) = 0.
Proof.
  intros L Z x. set (F := rsum n _).
  assert (Q : forall t, 0 <= 2 * t * F + t * t).
  { intros t. set (P' := fun k => if (k <? n)%nat then P k else x). set (c' := fun k => if (k <? n)%nat then c k else t).
    pose proof (plane_psd (S n) P' l c' L) as H. rewrite qf_S in H.
    assert (B : forall k, (k < n)%nat -> P' k = P k /\ c' k = c k) by (intros k Hk; unfold P', c'; apply Nat.ltb_lt in Hk; now rewrite Hk).
    assert (N : P' n = x /\ c' n = t) by (unfold P', c'; now rewrite Nat.ltb_irrefl). destruct N as [N1 N2].
    rewrite N1, N2, edist_refl in H.
    replace (qf n c' (fun i j => exp (- (l * edist (P' i) (P' j))))) with 0 in H.
    2:{ rewrite <- Z. apply rsum_ext. intros i Hi. apply rsum_ext. intros j Hj. destruct (B i Hi) as [-> ->], (B j Hj) as [-> ->]. reflexivity. }
    replace (rsum n (fun i => c' i * t * exp (- (l * edist (P' i) x)))) with (t * F) in H.
    2:{ unfold F. rewrite <- rsum_scal. apply rsum_ext. intros i Hi. destruct (B i Hi) as [-> ->]. ring. }
    replace (rsum n (fun j => t * c' j * exp (- (l * edist x (P' j))))) with (t * F) in H.
    2:{ unfold F. rewrite <- rsum_scal. apply rsum_ext. intros i Hi. destruct (B i Hi) as [-> ->]. rewrite (edist_sym x). ring. }
    rewrite Rmult_0_r, Ropp_0, exp_0 in H. lra. }
  pose proof (Q (- F)). nra.
Qed.
Lemma no_derivative l : 0 < l -> ~ ex_derive (fun h => exp (- (l * Rabs h))) 0.
Proof.
  intros L [d D]. apply is_derive_Reals in D.
  assert (D1 : derivable_pt_lim (fun h => exp (- (l * h))) 0 (- l)) by (apply is_derive_Reals; auto_derive; [trivial|rewrite Rmult_0_r, Ropp_0, exp_0; ring]).
  assert (D2 : derivable_pt_lim (fun h => exp (l * h)) 0 l) by (apply is_derive_Reals; auto_derive; [trivial|rewrite Rmult_0_r, exp_0; ring]).
  assert (E : 0 < l / 4) by lra. destruct (D _ E) as [e H], (D1 _ E) as [e1 H1], (D2 _ E) as [e2 H2].
  pose proof (cond_pos e). pose proof (cond_pos e1). pose proof (cond_pos e2). set (m := Rmin e (Rmin e1 e2)).
  assert (M : 0 < m) by (unfold m; repeat apply Rmin_glb_lt; lra). assert (M1 : m <= e) by apply Rmin_l. assert (M2 : m <= e1) by (eapply Rle_trans; [apply Rmin_r|apply Rmin_l]). assert (M3 : m <= e2) by (eapply Rle_trans; [apply Rmin_r|apply Rmin_r]).
  assert (A1 : Rabs (m / 2) < m) by (rewrite Rabs_pos_eq; lra). assert (A2 : Rabs (- (m / 2)) < m) by (rewrite Rabs_Ropp; exact A1).
  pose proof (H (m / 2) ltac:(lra) ltac:(lra)) as X1. pose proof (H1 (m / 2) ltac:(lra) ltac:(lra)) as X2. pose proof (H (- (m / 2)) ltac:(lra) ltac:(lra)) as X3. pose proof (H2 (- (m / 2)) ltac:(lra) ltac:(lra)) as X4.
  rewrite !Rplus_0_l, Rabs_R0 in X1, X3. rewrite !Rplus_0_l in X2, X4. rewrite (Rabs_pos_eq (m / 2)) in X1 by lra. rewrite (Rabs_left1 (- (m / 2))), Ropp_involutive in X3 by lra.
  replace (l * - (m / 2)) with (- (l * (m / 2))) in X4 by ring. rewrite !Rmult_0_r, Ropp_0 in *.
  apply Rabs_def2 in X1, X2, X3, X4. lra.
Qed.
Lemma others_derive n (c : nat -> R) (P : nat -> R * R) l i : (forall j, (j < n)%nat -> j <> i -> P j <> P i) ->
  ex_derive (fun h => rsum n (fun j => if (j =? i)%nat then 0 else c j * exp (- (l * edist (P j) (fst (P i) + h, snd (P i)))))) 0.
Proof.
  induction n as [|n IH]; intros H; simpl; [apply ex_derive_const|]. apply (ex_derive_plus (V := R_NormedModule)); [apply IH; intros; apply H; lia|].
  destruct (Nat.eqb_spec n i) as [->|N]; [apply ex_derive_const|]. specialize (H n ltac:(lia) N). unfold edist. simpl. auto_derive. rewrite Rplus_0_r.
  pose proof (Rle_0_sqr (fst (P n) - fst (P i))) as Q1. pose proof (Rle_0_sqr (snd (P n) - snd (P i))) as Q2. unfold Rsqr in Q1, Q2.
  destruct (Req_dec (fst (P n)) (fst (P i))) as [Q|Q]; [|pose proof (Rlt_0_sqr (fst (P n) - fst (P i)) ltac:(lra)) as Q3; unfold Rsqr in Q3; lra].
  destruct (Req_dec (snd (P n)) (snd (P i))) as [Q'|Q']; [|pose proof (Rlt_0_sqr (snd (P n) - snd (P i)) ltac:(lra)) as Q3; unfold Rsqr in Q3; lra].
  exfalso. apply H. destruct (P n), (P i); simpl in *. f_equal; lra.
Qed.
Theorem plane_positive n (P : nat -> R * R) l c : 0 < l -> (forall i j, (i < n)%nat -> (j < n)%nat -> i <> j -> P i <> P j) -> (exists i, (i < n)%nat /\ c i <> 0) ->
  0 < qf n c (fun i j => exp (- (l * edist (P i) (P j)))).
Proof.
  intros L D [i [Hi Ci]]. destruct (plane_psd n P l c (Rlt_le _ _ L)) as [H|H]; [exact H|]. exfalso. symmetry in H.
  pose proof (null_everywhere n P l c (Rlt_le _ _ L) H) as F. apply (no_derivative l L).
  apply (ex_derive_ext (fun h => - / c i * rsum n (fun j => if (j =? i)%nat then 0 else c j * exp (- (l * edist (P j) (fst (P i) + h, snd (P i))))))).
  - intros h. specialize (F (fst (P i) + h, snd (P i))).
    rewrite (rsum_ext n _ (fun j => (if (j =? i)%nat then c i * exp (- (l * Rabs h)) else 0) + (if (j =? i)%nat then 0 else c j * exp (- (l * edist (P j) (fst (P i) + h, snd (P i))))))) in F.
    2:{ intros j Hj. destruct (Nat.eqb_spec j i) as [->|N]; [|ring]. rewrite Rplus_0_r. do 4 f_equal. unfold edist. simpl. replace ((fst (P i) - (fst (P i) + h)) * (fst (P i) - (fst (P i) + h)) + (snd (P i) - snd (P i)) * (snd (P i) - snd (P i))) with (Rsqr h) by (unfold Rsqr; ring). apply sqrt_Rsqr_abs. }
    rewrite rsum_plus in F. rewrite (rsum_single n i) in F; [|assumption|intros k _ N; now apply Nat.eqb_neq in N; rewrite N]. rewrite Nat.eqb_refl in F. set (s := rsum n _) in *.
    replace s with (- (c i * exp (- (l * Rabs h)))) by lra. lazymatch goal with |- ?x = ?y => change (@eq R x y) end. field. assumption.
  - apply ex_derive_scal. apply others_derive. intros j Hj N. now apply D.
Qed.
