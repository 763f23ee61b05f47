From Verif Require Import Lib.Base Lib.Sorting Model.Partition.
From Coq Require Import Sorted.

#[local] Ltac Zify.zify_post_hook ::= Z.div_mod_to_equations.

Lemma pmap_length p n : length (pmap p n) = n.
Proof. unfold pmap. now rewrite map_length, seq_length. Qed.

Lemma pmap_nth p n i : i < n -> nth i (pmap p n) 0 = (i * p) / n.
Proof.
  intros H. unfold pmap. rewrite (nth_indep _ 0 ((0 * p) / n)) by (rewrite map_length, seq_length; auto).
  rewrite (map_nth (fun i => i * p / n)), seq_nth; auto.
Qed.

Lemma pmap_range p n i : i < n -> 0 < p -> (i * p) / n < p.
Proof. intros H Hp. apply Nat.div_lt_upper_bound; nia. Qed.

Lemma pmap_mono p n i j : i <= j -> (i * p) / n <= (j * p) / n.
Proof.
  intros H. destruct n as [|n]; [simpl; lia|]. apply Nat.div_le_mono; nia.
Qed.

(** Selecting by a mask in terms of indices *)
Lemma my_items_combine {A} p r (l : list A) :
  my_items p r l = map snd (filter (fun q => fst q =? r) (combine (pmap p (length l)) l)).
Proof.
  unfold my_items, mask_select, ind. generalize (pmap p (length l)) as m.
  revert l. induction l as [|x l IH]; intros m; destruct m as [|a m]; simpl; auto.
  destruct (a =? r); simpl; rewrite IH; auto.
Qed.

(** For keys in nondecreasing order, the classes concatenate to the list. *)
Lemma concat_classes {A} (l : list (nat * A)) lo n :
  StronglySorted (fun a b => fst a <= fst b) l ->
  Forall (fun a => lo <= fst a < lo + n) l ->
  concat (map (fun r => filter (fun q => fst q =? r) l) (seq lo n)) = l.
Proof.
  revert lo l. induction n as [|n IH]; intros lo l Hs HF.
  - destruct l; auto. inversion HF; lia.
  - simpl.
    assert (E : forall l, StronglySorted (fun a b : nat * A => fst a <= fst b) l ->
              Forall (fun a : nat * A => lo <= fst a) l ->
              l = filter (fun q => fst q =? lo) l ++ filter (fun q => negb (fst q =? lo)) l).
    { clear. induction 1 as [|x l Hs IH HF]; auto. intros HL. inversion HL; subst. simpl.
      destruct (Nat.eqb_spec (fst x) lo).
      - simpl. f_equal. now apply IH.
      - simpl. assert (G : filter (fun q => fst q =? lo) l = []).
        { clear IH HL Hs. induction HF as [|y l Hy HF IH]; auto. simpl.
          inversion H2; subst. destruct (Nat.eqb_spec (fst y) lo); [lia|auto]. }
        rewrite G. simpl. f_equal. specialize (IH H2). rewrite G in IH. exact IH. }
    assert (HL : Forall (fun a : nat * A => lo <= fst a) l)
      by (eapply Forall_impl; [|exact HF]; simpl; intros; lia).
    etransitivity; [|symmetry; exact (E l Hs HL)]. f_equal.
    set (l' := filter (fun q => negb (fst q =? lo)) l).
    rewrite <- (IH (S lo) l').
    + f_equal. apply map_ext_in. intros r Hr. apply in_seq in Hr. unfold l'.
      clear - Hr. induction l as [|x l IH]; simpl; auto.
      destruct (Nat.eqb_spec (fst x) r), (Nat.eqb_spec (fst x) lo); simpl; try lia.
      * destruct (Nat.eqb_spec (fst x) r); [|lia]. now rewrite IH.
      * exact IH.
      * destruct (Nat.eqb_spec (fst x) r); [lia|]. exact IH.
    + unfold l'. clear - Hs. induction Hs as [|x l Hs IH HF]; simpl; [constructor|].
      destruct (negb (fst x =? lo)); auto. constructor; auto.
      apply Forall_forall. intros y Hy. apply filter_In in Hy. rewrite Forall_forall in HF. now apply HF.
    + apply Forall_forall. intros y Hy. apply filter_In in Hy as [Hy1 Hy2].
      rewrite Forall_forall in HF. apply HF in Hy1. lia.
Qed.

Lemma combine_pmap_sorted {A} p n k (l : list A) :
  StronglySorted (fun a b => fst a <= fst b)
    (combine (map (fun i => (i * p) / n) (seq k (length l))) l).
Proof.
  revert k. induction l as [|x l IH]; intros k; simpl; constructor; auto.
  apply Forall_forall. intros [a b] H. apply in_combine_l in H. apply in_map_iff in H as (i & <- & Hi).
  apply in_seq in Hi. simpl. apply pmap_mono. lia.
Qed.

Lemma map_snd_combine {A B} (m : list A) (l : list B) :
  length m = length l -> map snd (combine m l) = l.
Proof.
  revert m; induction l as [|x l IH]; intros [|a m]; simpl; intros; try discriminate; auto.
  f_equal. auto.
Qed.

Lemma combine_pmap_range {A} p (l : list A) : 0 < p ->
  Forall (fun a => 0 <= fst a < 0 + p) (combine (pmap p (length l)) l).
Proof.
  intros Hp. apply Forall_forall. intros [a b] H. apply in_combine_l in H. unfold pmap in H.
  apply in_map_iff in H as (i & <- & Hi). apply in_seq in Hi. simpl.
  split; [apply Nat.le_0_l|]. apply pmap_range; lia.
Qed.

Lemma partition_concat {A} p (l : list A) : 0 < p ->
  concat (map (fun r => my_items p r l) (seq 0 p)) = l.
Proof.
  intros Hp.
  pose proof (concat_classes (combine (pmap p (length l)) l) 0 p
                (combine_pmap_sorted p (length l) 0 l) (combine_pmap_range p l Hp)) as E.
  apply (f_equal (map snd)) in E. rewrite map_snd_combine in E by apply pmap_length.
  etransitivity; [|exact E]. rewrite concat_map, map_map. f_equal. apply map_ext. intros r.
  apply my_items_combine.
Qed.

(** Number of items with floor(i p / n) = r *)
Definition cdiv (a b : nat) : nat := (a + b - 1) / b.

Lemma count_range (n p r k : nat) : 0 < n -> 0 < p ->
  length (filter (fun i => (i * p) / n =? r) (seq 0 k)) =
  Nat.min k (cdiv ((r + 1) * n) p) - Nat.min k (cdiv (r * n) p).
Proof.
  intros Hn Hp. induction k as [|k IH]; [simpl; auto|].
  rewrite seq_S, filter_app, app_length, IH. simpl plus.
  assert (H : ((k * p) / n =? r) = (cdiv (r * n) p <=? k) && (k <? cdiv ((r + 1) * n) p)).
  { apply eq_true_iff_eq. rewrite andb_true_iff, Nat.eqb_eq, Nat.leb_le, Nat.ltb_lt. unfold cdiv.
    split.
    - intros <-. pose proof (Nat.div_mod (k * p) n ltac:(lia)) as D.
      pose proof (Nat.mod_upper_bound (k * p) n ltac:(lia)) as M.
      set (q := k * p / n) in *. split.
      + assert ((q * n + p - 1) / p < k + 1) by (apply Nat.div_lt_upper_bound; nia). lia.
      + assert (k + 1 <= ((q + 1) * n + p - 1) / p) by (apply Nat.div_le_lower_bound; nia). lia.
    - intros [H1 H2].
      assert (A1 : r * n <= k * p).
      { pose proof (Nat.div_mod (r * n + p - 1) p ltac:(lia)).
        pose proof (Nat.mod_upper_bound (r * n + p - 1) p ltac:(lia)). nia. }
      assert (A2 : k * p < (r + 1) * n).
      { pose proof (Nat.div_mod ((r + 1) * n + p - 1) p ltac:(lia)).
        pose proof (Nat.mod_upper_bound ((r + 1) * n + p - 1) p ltac:(lia)). nia. }
      symmetry. apply (Nat.div_unique _ _ _ (k * p - r * n)); nia. }
  assert (Hc : cdiv (r * n) p <= cdiv ((r + 1) * n) p)
    by (unfold cdiv; apply Nat.div_le_mono; nia).
  simpl filter. destruct ((k * p) / n =? r); simpl length; symmetry in H;
    [apply andb_true_iff in H as [H1 H2]|apply andb_false_iff in H as [H|H]]; lia.
Qed.

Lemma count_combine {A} p r n k (l : list A) :
  length (filter (fun q => fst q =? r) (combine (map (fun i => (i * p) / n) (seq k (length l))) l)) =
  length (filter (fun i => (i * p) / n =? r) (seq k (length l))).
Proof.
  revert k. induction l as [|x l IH]; intros k; simpl; auto.
  destruct (k * p / n =? r); simpl; rewrite IH; auto.
Qed.

Lemma my_items_length {A} p r (l : list A) : 0 < p -> l <> [] ->
  r < p -> length (my_items p r l) = cdiv ((r + 1) * length l) p - cdiv (r * length l) p.
Proof.
  intros Hp Hl Hr.
  assert (Hn : 0 < length l) by (destruct l; simpl; [contradiction|lia]).
  rewrite my_items_combine, map_length.
  assert (E : length (filter (fun q => fst q =? r) (combine (pmap p (length l)) l)) =
              length (filter (fun i => (i * p) / length l =? r) (seq 0 (length l))))
    by apply count_combine.
  rewrite E, count_range by auto.
  assert (cdiv ((r + 1) * length l) p <= length l).
  { unfold cdiv. assert (((r + 1) * length l + p - 1) / p < length l + 1) by (apply Nat.div_lt_upper_bound; nia). lia. }
  assert (cdiv (r * length l) p <= cdiv ((r + 1) * length l) p) by (unfold cdiv; apply Nat.div_le_mono; nia).
  lia.
Qed.

Lemma balance {A} p r1 r2 (l : list A) : r1 < p -> r2 < p ->
  length (my_items p r1 l) <= length (my_items p r2 l) + 1.
Proof.
  intros H1 H2. destruct l as [|x l]; [simpl; lia|].
  rewrite !my_items_length by (auto; try lia; discriminate).
  set (n := length (x :: l)). assert (0 < n) by (unfold n; simpl; lia).
  assert (B : forall r, n / p <= cdiv ((r + 1) * n) p - cdiv (r * n) p <= n / p + 1).
  { intros r. unfold cdiv.
    pose proof (Nat.div_mod n p ltac:(lia)) as D. pose proof (Nat.mod_upper_bound n p ltac:(lia)) as M.
    pose proof (Nat.div_mod (r * n + p - 1) p ltac:(lia)) as D1.
    pose proof (Nat.mod_upper_bound (r * n + p - 1) p ltac:(lia)) as M1.
    pose proof (Nat.div_mod ((r + 1) * n + p - 1) p ltac:(lia)) as D2.
    pose proof (Nat.mod_upper_bound ((r + 1) * n + p - 1) p ltac:(lia)) as M2.
    set (a := (r * n + p - 1) / p) in *. set (b := ((r + 1) * n + p - 1) / p) in *. set (q := n / p) in *.
    assert (a + q <= b) by nia. assert (b <= a + q + 1) by nia. lia. }
  pose proof (B r1). pose proof (B r2). lia.
Qed.

(** Item i goes to process floor(i p / n), and to no other. *)
Lemma item_owner {A} p r (l : list A) i x : nth_error l i = Some x ->
  (i * p) / length l = r -> In x (my_items p r l).
Proof.
  intros H <-. rewrite my_items_combine. apply in_map_iff. exists (i * p / length l, x). split; auto.
  apply filter_In. split; [|simpl; apply Nat.eqb_refl].
  assert (Hi : i < length l) by (apply nth_error_Some; congruence).
  assert (E : nth i (combine (pmap p (length l)) l) (0, x) = (i * p / length l, x)).
  { rewrite combine_nth by now rewrite pmap_length. rewrite pmap_nth by auto.
    f_equal. now apply nth_error_nth. }
  rewrite <- E. apply nth_In. rewrite combine_length, pmap_length. lia.
Qed.

Lemma no_such_rank {A} p r (l : list A) : 0 < p -> p <= r -> my_items p r l = [].
Proof.
  intros Hp Hr. destruct (my_items p r l) as [|x t] eqn:E; auto. exfalso.
  assert (H : In x (my_items p r l)) by (rewrite E; now left).
  rewrite my_items_combine in H. apply in_map_iff in H as ([a b] & _ & H).
  apply filter_In in H as [H1 H2]. apply in_combine_l in H1. apply in_map_iff in H1 as (i & <- & Hi).
  apply in_seq in Hi. simpl in H2. apply Nat.eqb_eq in H2. 
  pose proof (pmap_range p (length l) i ltac:(lia) Hp). lia.
Qed.
