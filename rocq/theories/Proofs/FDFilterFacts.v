From Coq Require Import Reals QArith Qabs Lra Lia.
From Verif Require Import Lib.Base Model.Spectral Model.FDFilter.
Local Open Scope Z_scope.

Lemma argmin_spec l : l <> [] -> (argmin l < length l)%nat /\ (forall i, (i < length l)%nat -> (nth (argmin l) l 0 <= nth i l 0)%Q) /\
  (forall i, (i < argmin l)%nat -> (nth (argmin l) l 0 < nth i l 0)%Q).
Proof.
  induction l as [|x r IH]; [congruence|]. intros _. destruct r as [|y r].
  - cbn. split; [lia|]. split; [intros i H; destruct i; [apply Qle_refl|lia]|lia].
  - destruct IH as (A & B & C); [congruence|]. change (argmin (x :: y :: r)) with (if Qle_bool x (nth (argmin (y :: r)) (y :: r) 0%Q) then 0%nat else S (argmin (y :: r))).
    set (j := argmin (y :: r)) in *. set (t := y :: r) in *. destruct (Qle_bool x (nth j t 0%Q)) eqn:E.
    + apply Qle_bool_iff in E. split; [cbn; lia|]. split; [|lia]. intros i H. destruct i as [|i]; [apply Qle_refl|]. cbn [nth]. eapply Qle_trans; [exact E|]. apply B. cbn in *. lia.
    + assert (L : (nth j t 0 < x)%Q) by (apply Qnot_le_lt; intros K; apply Qle_bool_iff in K; congruence).
      split; [cbn [length]; lia|]. cbn [nth]. split.
      * intros i H. destruct i as [|i]; [now apply Qlt_le_weak|]. cbn [nth]. apply B. cbn [length] in H. lia.
      * intros i H. destruct i as [|i]; [exact L|]. apply C. lia.
Qed.

(** the frequencies of rfft: 0, df, 2 df, ... *)
Section Grid.
  Variables (n : nat) (df : Q).
  Hypothesis Hn : (1 <= n)%nat.
  Hypothesis Hdf : (0 < df)%Q.
  Let freqs := map (fun k => inject_Z (Z.of_nat k) * df)%Q (seq 0 n).
  Notation fr k := (inject_Z k * df)%Q.

  Lemma fr_mono a b : a <= b -> (fr a <= fr b)%Q.
  Proof. intros H. apply Qmult_le_compat_r; [now rewrite <- Zle_Qle|now apply Qlt_le_weak]. Qed.
  Lemma fr_strict a b : a < b -> (fr a < fr b)%Q.
  Proof. intros H. apply Qmult_lt_compat_r; [exact Hdf|now rewrite <- Zlt_Qlt]. Qed.
  Lemma fr_lt a b : (fr a < fr b)%Q -> a < b.
  Proof. intros H. destruct (Z_lt_le_dec a b) as [|L]; [assumption|]. apply fr_mono in L. exfalso. eapply Qlt_not_le; eassumption. Qed.
  Lemma fr_succ a : (fr (a + 1) == fr a + df)%Q.
  Proof. rewrite inject_Z_plus. unfold inject_Z at 2. ring. Qed.

  Lemma dist_nth f k : (k < n)%nat -> nth k (map (fun g => Qabs (g - f)) freqs) 0%Q = Qabs (fr (Z.of_nat k) - f).
  Proof.
    intros H. unfold freqs. rewrite map_map. rewrite (nth_indep _ 0%Q (Qabs (fr (Z.of_nat 0) - f))) by (rewrite map_length, seq_length; exact H).
    rewrite (map_nth (fun k => Qabs (fr (Z.of_nat k) - f)) (seq 0 n) 0%nat k). now rewrite seq_nth by exact H.
  Qed.
  Lemma nearest_spec f : 0 <= nearest freqs f < Z.of_nat n /\ (forall k, 0 <= k < Z.of_nat n -> (Qabs (fr (nearest freqs f) - f) <= Qabs (fr k - f))%Q) /\
    (forall k, 0 <= k < nearest freqs f -> (Qabs (fr (nearest freqs f) - f) < Qabs (fr k - f))%Q).
  Proof.
    unfold nearest. set (l := map (fun g => Qabs (g - f)) freqs). assert (L : length l = n) by (unfold l, freqs; now rewrite !map_length, seq_length).
    destruct (argmin_spec l) as (A & B & C); [intros E; rewrite E in L; cbn in L; lia|]. rewrite L in *. split; [lia|]. split.
    - intros k K. specialize (B (Z.to_nat k) ltac:(lia)). unfold l in B. rewrite !dist_nth in B by (fold l; lia). now rewrite Z2Nat.id in B by lia.
    - intros k K. specialize (C (Z.to_nat k) ltac:(lia)). unfold l in C. rewrite !dist_nth in C by (fold l; lia). now rewrite Z2Nat.id in C by lia.
  Qed.
  Ltac qabs := repeat match goal with H : context [Qabs ?x] |- _ => revert H; apply (Qabs_case x); intros end; try Lqa.lra.
  Lemma nearest_above f k : 0 <= k < Z.of_nat n -> (f <= fr k)%Q -> nearest freqs f <= k.
  Proof.
    intros K F. destruct (nearest_spec f) as (A & B & C). destruct (Z_le_gt_dec (nearest freqs f) k) as [|G]; [assumption|]. exfalso.
    pose proof (fr_strict k (nearest freqs f) ltac:(lia)). specialize (C k ltac:(lia)). qabs.
  Qed.
  Lemma nearest_below f k : 0 <= k < Z.of_nat n -> (fr k <= f)%Q -> k <= nearest freqs f.
  Proof.
    intros K F. destruct (nearest_spec f) as (A & B & C). destruct (Z_le_gt_dec k (nearest freqs f)) as [|G]; [assumption|]. exfalso.
    pose proof (fr_strict (nearest freqs f) k ltac:(lia)). specialize (B k K). qabs.
  Qed.
  Lemma nearest_apart f1 f2 : (0 <= f1)%Q -> (f1 + df <= f2)%Q -> (f2 <= fr (Z.of_nat n - 1))%Q -> nearest freqs f1 < nearest freqs f2.
  Proof.
    intros P S T. destruct (nearest_spec f1) as (A1 & B1 & C1). destruct (nearest_spec f2) as (A2 & B2 & C2). set (a := nearest freqs f1) in *. set (b := nearest freqs f2) in *.
    assert (X : (fr a < f1 + df * (1 # 2))%Q).
    { destruct (Z.eq_dec a 0) as [E|E]; [rewrite E; change (inject_Z 0) with 0%Q; Lqa.lra|].
      specialize (C1 (a - 1) ltac:(lia)). pose proof (fr_succ (a - 1)) as Q. replace (a - 1 + 1) with a in Q by lia. qabs. }
    destruct (Z.eq_dec b (Z.of_nat n - 1)) as [E|E].
    - rewrite E. destruct (Z_lt_le_dec a (Z.of_nat n - 1)) as [|G]; [assumption|]. exfalso. replace a with (Z.of_nat n - 1) in X by lia. Lqa.lra.
    - assert (Y : (f2 <= fr b + df * (1 # 2))%Q).
      { specialize (B2 (b + 1) ltac:(lia)). pose proof (fr_succ b). qabs. }
      apply fr_lt. Lqa.lra.
  Qed.
  Lemma nearest_mono f1 f2 : (f1 <= f2)%Q -> nearest freqs f1 <= nearest freqs f2.
  Proof.
    intros F. destruct (nearest_spec f1) as (A1 & B1 & C1). destruct (nearest_spec f2) as (A2 & B2 & C2). set (a := nearest freqs f1) in *. set (b := nearest freqs f2) in *.
    destruct (Z_le_gt_dec a b) as [|G]; [assumption|]. exfalso. pose proof (fr_strict b a ltac:(lia)). specialize (C1 b ltac:(lia)). specialize (B2 a ltac:(lia)). qabs.
  Qed.
  Lemma nearest_high f : (fr (Z.of_nat n - 1) <= f)%Q -> nearest freqs f = Z.of_nat n - 1.
  Proof. intros H. pose proof (nearest_below f (Z.of_nat n - 1) ltac:(lia) H). destruct (nearest_spec f) as (A & _). lia. Qed.
End Grid.

Lemma half_plus x : (0 <= (1 + cos x) / 2 <= 1)%R.
Proof. pose proof (COS_bound x). lra. Qed.
Lemma half_minus x : (0 <= (1 - cos x) / 2 <= 1)%R.
Proof. pose proof (COS_bound x). lra. Qed.
Lemma weight_bounds a b c d i : (0 <= flank_weight a b c d i <= 1)%R.
Proof. unfold flank_weight. destruct (_ && _); [apply half_plus|]. destruct (_ && _); [lra|]. destruct (_ && _); [apply half_minus|lra]. Qed.
Ltac weight := unfold flank_weight; repeat (match goal with |- context [?x <=? ?y] => destruct (Z.leb_spec x y); try lia | |- context [?x <? ?y] => destruct (Z.ltb_spec x y); try lia end; cbn [andb]).
Lemma weight_pass a b c d i : a < b -> b <= c -> c < d -> b <= i <= c -> flank_weight a b c d i = 1%R.
Proof.
  intros H1 H2 H3 I. destruct (Z.eq_dec i c) as [->|Ic]; [|destruct (Z.eq_dec i b) as [->|Ib]; [|weight; reflexivity]]; weight.
  - replace (c - c) with 0 by lia. rewrite Rmult_0_r. unfold Rdiv at 2. rewrite Rmult_0_l, cos_0. lra.
  - replace (PI * IZR (b - a) / IZR (b - a))%R with PI by (field; apply not_0_IZR; lia). rewrite cos_PI. lra.
Qed.
Lemma weight_stop a b c d i : a < b -> b <= c -> c < d -> i <= a \/ d <= i -> flank_weight a b c d i = 0%R.
Proof.
  intros H1 H2 H3 I. destruct (Z.eq_dec i d) as [->|Id]; [|destruct (Z.eq_dec i a) as [->|Ia]; [|weight; reflexivity]]; weight.
  - replace (c - d) with (- (d - c)) by lia. rewrite opp_IZR. replace (PI * - IZR (d - c) / IZR (d - c))%R with (- PI)%R by (field; apply not_0_IZR; lia). rewrite cos_neg, cos_PI. lra.
  - replace (a - a) with 0 by lia. rewrite Rmult_0_r. unfold Rdiv at 2. rewrite Rmult_0_l, cos_0. lra.
Qed.
Lemma angle_range k m : 0 <= k <= m -> 0 < m -> (0 <= PI * IZR k / IZR m <= PI)%R.
Proof.
  intros K M. pose proof PI_RGT_0. assert (0 < IZR m)%R by (apply IZR_lt; lia). assert (0 <= IZR k)%R by (apply IZR_le; lia). assert (IZR k <= IZR m)%R by (apply IZR_le; lia). split.
  - apply Rmult_le_pos; [apply Rmult_le_pos; lra|apply Rlt_le, Rinv_0_lt_compat; lra].
  - apply Rmult_le_reg_r with (IZR m); [assumption|]. unfold Rdiv. rewrite Rmult_assoc, Rinv_l, Rmult_1_r by lra. apply Rmult_le_compat_l; lra.
Qed.
Lemma angle_mono k l m : k <= l -> 0 < m -> (PI * IZR k / IZR m <= PI * IZR l / IZR m)%R.
Proof.
  intros K M. pose proof PI_RGT_0. apply Rmult_le_compat_r; [apply Rlt_le, Rinv_0_lt_compat, IZR_lt; lia|]. apply Rmult_le_compat_l; [lra|apply IZR_le; lia].
Qed.
Lemma weight_up a b c d i j : a < b -> b <= c -> c < d -> i <= j <= c -> (flank_weight a b c d i <= flank_weight a b c d j)%R.
Proof.
  intros H1 H2 H3 [I J]. destruct (Z_le_gt_dec b j) as [B|B]; [rewrite (weight_pass a b c d j) by lia; apply weight_bounds|].
  destruct (Z_le_gt_dec i a) as [A|A]; [rewrite (weight_stop a b c d i) by lia; apply weight_bounds|].
  weight. apply Rmult_le_compat_r; [lra|]. apply Rplus_le_compat_l, Ropp_le_contravar.
  pose proof (angle_range (i - a) (b - a) ltac:(lia) ltac:(lia)). pose proof (angle_range (j - a) (b - a) ltac:(lia) ltac:(lia)). apply cos_decr_1; try lra. apply angle_mono; lia.
Qed.
Lemma weight_down a b c d i j : a < b -> b <= c -> c < d -> b <= i <= j -> (flank_weight a b c d j <= flank_weight a b c d i)%R.
Proof.
  intros H1 H2 H3 [I J]. destruct (Z_le_gt_dec i c) as [B|B]; [rewrite (weight_pass a b c d i) by lia; apply weight_bounds|].
  destruct (Z_le_gt_dec d j) as [A|A]; [rewrite (weight_stop a b c d j) by lia; apply weight_bounds|].
  weight. apply Rmult_le_compat_r; [lra|]. apply Rplus_le_compat_l. rewrite <- (cos_neg (PI * IZR (c - j) / _)), <- (cos_neg (PI * IZR (c - i) / _)).
  replace (- (PI * IZR (c - j) / IZR (d - c)))%R with (PI * IZR (j - c) / IZR (d - c))%R by (rewrite !minus_IZR; unfold Rdiv; ring).
  replace (- (PI * IZR (c - i) / IZR (d - c)))%R with (PI * IZR (i - c) / IZR (d - c))%R by (rewrite !minus_IZR; unfold Rdiv; ring).
  pose proof (angle_range (i - c) (d - c) ltac:(lia) ltac:(lia)). pose proof (angle_range (j - c) (d - c) ltac:(lia) ltac:(lia)). apply cos_decr_1; try lra. apply angle_mono; lia.
Qed.
