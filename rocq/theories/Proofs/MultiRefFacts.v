From Verif Require Import Lib.Base Model.Similarity Model.MultiRef Spec.MultiRefSpec Proofs.SimilarityFacts.
From Coq Require Import Reals Lra.
Local Open Scope R_scope.

(** ** sums *)
Lemma sum_plus {A} (f g : A -> R) l : sum (map (fun x => f x + g x) l) = sum (map f l) + sum (map g l).
Proof. induction l; cbn; unfold sum in *; cbn; lra. Qed.
Lemma sum_scale {A} (k : R) (f : A -> R) l : sum (map (fun x => k * f x) l) = k * sum (map f l).
Proof. induction l; cbn; unfold sum in *; cbn; [lra|]. rewrite IHl. lra. Qed.
Lemma sum_ext {A} (f g : A -> R) l : (forall x, In x l -> f x = g x) -> sum (map f l) = sum (map g l).
Proof. intros H. f_equal. apply map_ext_in, H. Qed.
Lemma sum_zero {A} (f : A -> R) l : (forall x, In x l -> f x = 0) -> sum (map f l) = 0.
Proof. induction l as [|a l IH]; intros H; [reflexivity|]. change (sum (map f (a :: l))) with (f a + sum (map f l)).
  rewrite IH, H; [lra|left; reflexivity|]. intros x Hx. apply H. right. exact Hx. Qed.
Lemma sum_nonneg {A} (f : A -> R) l : (forall x, In x l -> 0 <= f x) -> 0 <= sum (map f l).
Proof. induction l as [|a l IH]; intros H; [cbn; lra|]. change (sum (map f (a :: l))) with (f a + sum (map f l)).
  assert (0 <= f a) by (apply H; left; reflexivity). assert (0 <= sum (map f l)) by (apply IH; intros; apply H; right; assumption). lra. Qed.
Lemma sum_nonneg_zero {A} (f : A -> R) l : (forall x, In x l -> 0 <= f x) -> sum (map f l) = 0 -> forall x, In x l -> f x = 0.
Proof. induction l as [|a l IH]; intros H E x Hx; [destruct Hx|].
  change (sum (map f (a :: l))) with (f a + sum (map f l)) in E.
  assert (0 <= f a) by (apply H; left; reflexivity).
  assert (0 <= sum (map f l)) by (apply sum_nonneg; intros; apply H; right; assumption).
  destruct Hx as [<-|Hx]; [lra|]. apply IH; [intros; apply H; right; assumption|lra|exact Hx]. Qed.
Lemma sum_app a b : sum (a ++ b) = sum a + sum b.
Proof. induction a; cbn; unfold sum in *; cbn; [lra|]. rewrite IHa. lra. Qed.

Lemma sum_indicator (f : nat -> R) a c : (a < c)%nat ->
  sum (map (fun k => if (k =? a)%nat then f k else 0) (seq 0 c)) = f a.
Proof.
  intros Ha. replace c with (a + (1 + (c - a - 1)))%nat by lia. rewrite seq_app, map_app, sum_app.
  rewrite (sum_zero _ (seq 0 a)).
  2:{ intros x Hx. apply in_seq in Hx. destruct (Nat.eqb_spec x a); [lia|reflexivity]. }
  rewrite seq_app, map_app, sum_app. rewrite (sum_zero _ (seq (0 + a + 1) _)).
  2:{ intros x Hx. apply in_seq in Hx. destruct (Nat.eqb_spec x a); [lia|reflexivity]. }
  cbn [seq map]. rewrite Nat.add_0_l, Nat.eqb_refl. unfold sum. cbn. lra.
Qed.

Lemma dot_cons a l b m : dot (a :: l) (b :: m) = a * b + dot l m.
Proof. reflexivity. Qed.

Lemma seq_shift' s n : seq (S s) n = map S (seq s n).
Proof. symmetry. apply seq_shift. Qed.

Lemma dot_seq c : forall a b, length a = c -> length b = c ->
  dot a b = sum (map (fun k => nth k a 0 * nth k b 0) (seq 0 c)).
Proof.
  induction c as [|c IH]; intros [|x a] [|y b] Ha Hb; try discriminate; [reflexivity|].
  rewrite dot_cons. cbn [seq map]. change (sum (?u :: ?v)) with (u + sum v).
  rewrite seq_shift', map_map. cbn [nth]. rewrite (IH a b); [reflexivity|injection Ha; auto|injection Hb; auto].
Qed.

Lemma nth_map_seq' (f : nat -> R) n k : (k < n)%nat -> nth k (map f (seq 0 n)) 0 = f k.
Proof. intros H. rewrite (nth_indep _ 0 (f 0%nat)) by (rewrite map_length, seq_length; exact H). rewrite map_nth, seq_nth by exact H. reflexivity. Qed.

(** ** the matrix G *)
Lemma G_row_length n p : length (G_row n p) = (n - 1)%nat.
Proof. unfold G_row. rewrite map_length, seq_length. reflexivity. Qed.

Lemma dot_G n p x : length x = (n - 1)%nat -> (fst p < n)%nat -> (snd p < n)%nat -> fst p <> snd p ->
  dot (G_row n p) x = nth (snd p) (0 :: x) 0 - nth (fst p) (0 :: x) 0.
Proof.
  destruct p as [j i]. cbn [fst snd]. intros Hx Hj Hi Hne.
  rewrite (dot_seq (n - 1)); [|apply G_row_length|exact Hx].
  transitivity (sum (map (fun k => (if (0 <? i)%nat then if (k =? i - 1)%nat then nth k x 0 else 0 else 0) +
                                   (if (0 <? j)%nat then if (k =? j - 1)%nat then - nth k x 0 else 0 else 0)) (seq 0 (n - 1)))).
  - apply sum_ext. intros k Hk. apply in_seq in Hk. unfold G_row.
    rewrite (nth_map_seq' _ (n - 1) k) by lia. cbn [fst snd].
    destruct (Nat.ltb_spec 0 i), (Nat.ltb_spec 0 j); cbn [andb];
      destruct (Nat.eqb_spec k (i - 1)), (Nat.eqb_spec k (j - 1)); cbn [andb]; solve [lra | exfalso; lia].
  - rewrite sum_plus. unfold Rminus. apply f_equal2.
    + destruct (Nat.ltb_spec 0 i).
      * rewrite (sum_indicator (fun k => nth k x 0)) by lia. destruct i; [lia|]. cbn [nth]. f_equal. lia.
      * rewrite sum_zero by reflexivity. replace i with 0%nat by lia. reflexivity.
    + destruct (Nat.ltb_spec 0 j).
      * rewrite (sum_indicator (fun k => - nth k x 0)) by lia. destruct j; [lia|]. cbn [nth]. do 2 f_equal. lia.
      * rewrite sum_zero by reflexivity. replace j with 0%nat by lia. cbn. lra.
Qed.

Lemma in_pairs n p : In p (pairs n) <-> (fst p < n)%nat /\ (snd p < n)%nat /\ fst p <> snd p.
Proof.
  destruct p as [j i]. unfold pairs, others. rewrite in_flat_map. cbn [fst snd]. split.
  - intros [j' [Hj H]]. apply in_map_iff in H. destruct H as [i' [E H]]. injection E as -> ->.
    apply filter_In in H. destruct H as [Hi Hne]. apply in_seq in Hj, Hi. apply negb_true_iff, Nat.eqb_neq in Hne. lia.
  - intros [Hj [Hi Hne]]. exists j. split; [apply in_seq; lia|]. apply in_map, filter_In. split; [apply in_seq; lia|].
    apply negb_true_iff, Nat.eqb_neq. auto.
Qed.

(** ** matrix algebra *)
Lemma mat_vec_length M v : length (mat_vec M v) = length M.
Proof. apply map_length. Qed.
Lemma GTW_length c G w : length (GTW c G w) = c.
Proof. unfold GTW. rewrite map_length, seq_length. reflexivity. Qed.

Lemma dot_nil_r a : dot a [] = 0.
Proof. destruct a; reflexivity. Qed.
Lemma dot_zero_r a k : dot a (repeat 0 k) = 0.
Proof. revert k. induction a; intros [|k]; try reflexivity. cbn [repeat]. rewrite dot_cons, IHa. lra. Qed.

Lemma dot_map_plus {A} (f g : A -> R) x : forall l, dot (map (fun k => f k + g k) l) x = dot (map f l) x + dot (map g l) x.
Proof. induction x as [|y x IH]; intros [|k l]; cbn [map]; rewrite ?dot_nil_r; try (cbn; lra).
  rewrite !dot_cons, IH. lra. Qed.
Lemma dot_map_scale {A} (s : R) (f : A -> R) x : forall l, dot (map (fun k => s * f k) l) x = s * dot (map f l) x.
Proof. induction x as [|y x IH]; intros [|k l]; cbn [map]; rewrite ?dot_nil_r; try (cbn; lra).
  rewrite !dot_cons, IH. lra. Qed.

Lemma map_nth_seq (g : list R) c : length g = c -> map (fun k => nth k g 0) (seq 0 c) = g.
Proof.
  revert c. induction g as [|x g IH]; intros c H; destruct c; try discriminate; [reflexivity|].
  cbn [seq map nth]. f_equal. rewrite seq_shift', map_map. apply IH. injection H; auto.
Qed.

Lemma mat_mul_row c G x : Forall (fun r => length r = c) G -> forall a,
  dot (map (fun k => dot a (column G k)) (seq 0 c)) x = dot a (mat_vec G x).
Proof.
  intros HG. induction HG as [|g G Hg HG IH]; intros a.
  - cbn [mat_vec map]. rewrite dot_nil_r.
    rewrite (map_ext _ (fun _ => 0 * 0)) by (intros; cbn [column map]; rewrite dot_nil_r; lra).
    rewrite (dot_map_scale 0 (fun _ : nat => 0)). lra.
  - destruct a as [|y a].
    + rewrite (map_ext _ (fun _ => 0 * 0)) by (intros; cbn; lra). rewrite (dot_map_scale 0 (fun _ : nat => 0)). cbn. lra.
    + cbn [mat_vec map]. rewrite dot_cons.
      rewrite (map_ext _ (fun k => y * nth k g 0 + dot a (column G k))) by reflexivity.
      rewrite dot_map_plus, (dot_map_scale y (fun k => nth k g 0)), map_nth_seq by exact Hg. rewrite IH. reflexivity.
Qed.

Lemma mat_mul_vec c M G x : Forall (fun r => length r = c) G ->
  mat_vec (mat_mul c M G) x = mat_vec M (mat_vec G x).
Proof. intros HG. unfold mat_vec at 1 2, mat_mul. rewrite map_map. apply map_ext. intros a. apply mat_mul_row, HG. Qed.

(** <z, G^T W v> = sum_r w_r (g_r . z) v_r *)
Lemma adjoint c z : length z = c -> forall G w v, Forall (fun r => length r = c) G -> length w = length G -> length v = length G ->
  dot z (mat_vec (GTW c G w) v) = sum (map (fun p => fst (snd p) * dot (fst p) z * snd (snd p)) (combine G (combine w v))).
Proof.
  intros Hz. induction G as [|g G IH]; intros w v HG Hw Hv.
  - unfold mat_vec, GTW. rewrite map_map. cbn [column map combine].
    rewrite (map_ext _ (fun _ => 0 * 0)) by (intros; cbn; lra). rewrite dot_comm, (dot_map_scale 0 (fun _ : nat => 0)). cbn. lra.
  - destruct w as [|w0 w], v as [|v0 v]; try discriminate. injection Hw as Hw. injection Hv as Hv.
    inversion HG as [|g' G' Hg HG']; subst g' G'. cbn [combine map fst snd].
    change (sum (?u :: ?l)) with (u + sum l). rewrite <- IH by assumption.
    unfold mat_vec, GTW. rewrite !map_map. cbn [column map combine fst snd].
    rewrite (map_ext _ (fun k => (w0 * v0) * nth k g 0 + dot (map (fun p => fst p * snd p) (combine (column G k) w)) v)).
    2:{ intros k. rewrite dot_cons. unfold column. lra. }
    rewrite dot_comm, dot_map_plus, (dot_map_scale (w0 * v0) (fun k => nth k g 0)), map_nth_seq by exact Hg.
    rewrite (dot_comm z). lra.
Qed.

Definition vminus (x y : list R) : list R := map (fun p => fst p - snd p) (combine x y).
Lemma vminus_length x y c : length x = c -> length y = c -> length (vminus x y) = c.
Proof. intros Hx Hy. unfold vminus. rewrite map_length, combine_length. lia. Qed.
Lemma dot_vminus r : forall x y, length x = length y -> dot r (vminus x y) = dot r x - dot r y.
Proof. induction r as [|a r IH]; intros [|b x] [|d y] H; try discriminate; try (cbn; lra).
  unfold vminus. cbn [combine map fst snd]. rewrite !dot_cons. fold (vminus x y). rewrite IH by (injection H; auto). lra. Qed.
Lemma vminus_zero x : forall y, length x = length y -> Forall (fun d => d = 0) (vminus x y) -> x = y.
Proof. induction x as [|a x IH]; intros [|b y] H F; try discriminate; [reflexivity|].
  unfold vminus in F. cbn [combine map fst snd] in F. inversion F as [|u v E F']; subst.
  f_equal; [lra|]. apply IH; [injection H; auto|exact F']. Qed.

Lemma create_G_rows n : Forall (fun r => length r = (n - 1)%nat) (create_G n).
Proof. unfold create_G. apply Forall_forall. intros r Hr. apply in_map_iff in Hr. destruct Hr as [p [<- _]]. apply G_row_length. Qed.
Lemma create_G_length n : length (create_G n) = length (pairs n).
Proof. apply map_length. Qed.

Definition normal_matrix (n : nat) (w : list R) : list (list R) := mat_mul (n - 1) (GTW (n - 1) (create_G n) w) (create_G n).

Lemma in_combine_map {A B C} (f : A -> B) (l : list A) (m : list C) x : forall c, In (x, c) (combine l m) -> In (f x, c) (combine (map f l) m).
Proof. revert m. induction l as [|a l IH]; intros [|b m] c H; try destruct H. 
  - injection H as -> ->. left. reflexivity.
  - right. apply IH, H. Qed.

Lemma in_combine_exists {A B} (l : list A) : forall (m : list B) x, length l = length m -> In x l -> exists y, In (x, y) (combine l m).
Proof. induction l as [|a l IH]; intros [|b m] x H I; try discriminate; try destruct I as [<-|I]; try destruct I.
  - exists b. left. reflexivity.
  - destruct (IH m x) as [y Hy]; [injection H; auto|exact I|]. exists y. right. exact Hy. Qed.

Lemma normal_injective n w x y : (1 <= n)%nat -> length w = length (pairs n) -> Forall (fun r => 0 < r) w ->
  length x = (n - 1)%nat -> length y = (n - 1)%nat ->
  mat_vec (normal_matrix n w) x = mat_vec (normal_matrix n w) y -> x = y.
Proof.
  intros Hn Hw Hpos Hx Hy E. set (z := vminus x y).
  assert (Hz : length z = (n - 1)%nat) by (apply vminus_length; assumption).
  assert (Ez : forall r, In r (normal_matrix n w) -> dot r z = 0).
  { intros r Hr. unfold z. rewrite dot_vminus by congruence.
    assert (forall M, map (fun r => dot r x) M = map (fun r => dot r y) M -> forall r, In r M -> dot r x = dot r y) as K.
    { clear. induction M as [|a M IH]; intros H r Hr; [destruct Hr|]. cbn [map] in H. injection H as H1 H2.
      destruct Hr as [<-|Hr]; [exact H1|apply IH; assumption]. }
    rewrite (K _ E r Hr). lra. }
  assert (S0 : dot z (mat_vec (normal_matrix n w) z) = 0).
  { unfold mat_vec. rewrite (map_ext_in _ (fun _ => 0 * 0)) by (intros r Hr; rewrite (Ez r Hr); lra).
    rewrite dot_comm, (dot_map_scale 0 (fun _ : list R => 0)). lra. }
  unfold normal_matrix in S0. rewrite mat_mul_vec in S0 by apply create_G_rows.
  rewrite adjoint in S0; [|exact Hz|apply create_G_rows|rewrite create_G_length; exact Hw|rewrite mat_vec_length; reflexivity].
  assert (Hd : forall p, In p (pairs n) -> dot (G_row n p) z = 0).
  { intros p Hp. 
    destruct (in_combine_exists (pairs n) w p) as [wp Hwp]; [congruence|exact Hp|].
    assert (0 < wp) by (apply in_combine_r in Hwp; rewrite Forall_forall in Hpos; apply Hpos, Hwp).
    assert (I : In (G_row n p, (wp, dot (G_row n p) z)) (combine (create_G n) (combine w (mat_vec (create_G n) z)))).
    { unfold create_G, mat_vec. rewrite map_map. clear - Hwp. revert Hwp. generalize (pairs n). intros l. revert w. 
      induction l as [|a l IH]; intros [|b w] H; try destruct H.
      - injection H as -> ->. left. reflexivity.
      - right. apply IH, H. }
    assert (NN : forall q, In q (combine (create_G n) (combine w (mat_vec (create_G n) z))) -> 0 <= fst (snd q) * dot (fst q) z * snd (snd q)).
    { intros [r [u v]] Hq. cbn [fst snd].
      assert (Hr : v = dot r z /\ 0 < u).
      { clear - Hq Hpos. revert w Hq Hpos. unfold mat_vec. generalize (create_G n) as l. induction l as [|a l IH]; intros w H P; [destruct H|].
        destruct w as [|b w]; [destruct H|]. inversion P; subst. cbn [map combine] in H. destruct H as [H|H].
        - injection H as <- <- <-. auto.
        - apply (IH w H). assumption. }
      destruct Hr as [-> Hu]. pose proof (Rle_0_sqr (dot r z)) as Q. unfold Rsqr in Q. rewrite Rmult_assoc. apply Rmult_le_pos; lra. }
    pose proof (sum_nonneg_zero _ _ NN S0 _ I) as K. cbn [fst snd] in K.
    rewrite Rmult_assoc in K. apply Rmult_integral in K. destruct K as [K|K]; [lra|]. apply Rmult_integral in K. tauto. }
  apply vminus_zero; [congruence|]. fold z. apply Forall_forall. intros d Hin.
  apply (In_nth _ _ 0) in Hin. destruct Hin as [k [Hk <-]].
  assert (K := Hd (0%nat, S k)). rewrite dot_G in K; cbn [fst snd] in *; try lia.
  cbn [nth] in K. rewrite <- (Rminus_0_r (nth k z 0)). apply K. apply in_pairs. cbn [fst snd]. lia.
Qed.

(** the weighted least-squares solution of consistent differences *)
Lemma solve_consistent pinv n w x d : (1 <= n)%nat -> pseudo_inverse (n - 1) pinv ->
  length w = length (pairs n) -> Forall (fun r => 0 < r) w -> length x = (n - 1)%nat ->
  d = mat_vec (create_G n) x -> solve pinv n w d = x.
Proof.
  intros Hn HP Hw Hpos Hx ->. unfold solve. fold (normal_matrix n w).
  rewrite <- (mat_mul_vec (n - 1) (GTW (n - 1) (create_G n) w)) by apply create_G_rows. fold (normal_matrix n w).
  assert (Hsq : square (n - 1) (normal_matrix n w)).
  { split.
    - unfold normal_matrix, mat_mul. rewrite map_length. apply GTW_length.
    - unfold normal_matrix, mat_mul. apply Forall_forall. intros r Hr. apply in_map_iff in Hr. destruct Hr as [a [<- _]].
      rewrite map_length, seq_length. reflexivity. }
  destruct (HP _ Hsq) as [[HPl _] HPe].
  apply (normal_injective n w); try assumption.
  - rewrite mat_vec_length. exact HPl.
  - apply HPe. exact Hx.
Qed.
