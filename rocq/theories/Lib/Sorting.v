(** Stable sorting ([list.sort], [sorted]) as insertion sort, with its laws. *)
From Verif Require Import Lib.Base.
From Coq Require Import Permutation Sorted.

Section Sort.
  Context {A : Type} (leb : A -> A -> bool).

  Fixpoint insert (x : A) (l : list A) : list A :=
    match l with
    | [] => [x]
    | y :: r => if leb x y then x :: y :: r else y :: insert x r
    end.
  Fixpoint sort (l : list A) : list A :=
    match l with [] => [] | x :: r => insert x (sort r) end.

  Lemma insert_perm x l : Permutation (insert x l) (x :: l).
  Proof.
    induction l as [|y l IH]; simpl; auto. destruct (leb x y); auto.
    rewrite IH. apply perm_swap.
  Qed.
  Lemma sort_perm l : Permutation (sort l) l.
  Proof. induction l; simpl; auto. rewrite insert_perm. now constructor. Qed.
  Lemma sort_in x l : In x (sort l) <-> In x l.
  Proof. split; apply Permutation_in; [|symmetry]; apply sort_perm. Qed.
  Lemma sort_length l : length (sort l) = length l.
  Proof. apply Permutation_length, sort_perm. Qed.
  Lemma sort_nodup l : NoDup l -> NoDup (sort l).
  Proof. apply Permutation_NoDup. symmetry. apply sort_perm. Qed.

  Hypothesis leb_total : forall a b, leb a b = true \/ leb b a = true.
  Hypothesis leb_trans : forall a b c, leb a b = true -> leb b c = true -> leb a c = true.

  Definition le_rel a b := leb a b = true.

  Lemma insert_sorted x l : StronglySorted le_rel l -> StronglySorted le_rel (insert x l).
  Proof.
    induction 1 as [|y l Hs IH HF]; simpl.
    - constructor; constructor.
    - destruct (leb x y) eqn:E.
      + constructor; [constructor; auto|]. constructor; auto.
        eapply Forall_impl; [|exact HF]. intros z Hz. eapply leb_trans; eauto.
      + constructor; auto. apply Forall_forall. intros z Hz.
        apply (Permutation_in _ (insert_perm x l)) in Hz as [<-|Hz].
        * destruct (leb_total x y); [congruence|auto].
        * rewrite Forall_forall in HF; auto.
  Qed.
  Lemma sort_sorted l : StronglySorted le_rel (sort l).
  Proof. induction l; simpl; [constructor | now apply insert_sorted]. Qed.

  (** Sorting a sorted list changes nothing. *)
  Lemma sort_id l : StronglySorted le_rel l -> sort l = l.
  Proof.
    induction 1 as [|x l Hs IH HF]; simpl; auto. rewrite IH.
    destruct l as [|y l]; simpl; auto. inversion HF; subst.
    unfold le_rel in *. now rewrite H1.
  Qed.

  (** Stability in its useful form: filtering commutes with sorting. *)
  Lemma filter_insert p x l :
    StronglySorted le_rel l ->
    filter p (insert x l) = if p x then insert x (filter p l) else filter p l.
  Proof.
    induction 1 as [|y l Hs IH HF]; simpl.
    - now destruct (p x).
    - destruct (leb x y) eqn:E; simpl.
      + destruct (p x) eqn:Px; destruct (p y) eqn:Py; simpl; auto.
        * now rewrite E.
        * destruct (filter p l) as [|z r] eqn:El; simpl; auto.
          assert (In z l) by (apply (filter_In p); rewrite El; now left).
          rewrite Forall_forall in HF. rewrite (leb_trans x y z); auto. now apply HF.
      + rewrite IH. destruct (p x) eqn:Px; destruct (p y) eqn:Py; simpl; auto.
        now rewrite E.
  Qed.
  Lemma filter_sort p l : filter p (sort l) = sort (filter p l).
  Proof.
    induction l as [|x l IH]; simpl; auto.
    rewrite filter_insert by apply sort_sorted. rewrite IH.
    destruct (p x); reflexivity.
  Qed.

  Lemma StronglySorted_filter p l : StronglySorted le_rel l -> StronglySorted le_rel (filter p l).
  Proof.
    induction 1 as [|x l Hs IH HF]; simpl; [constructor|]. destruct (p x); auto.
    constructor; auto. apply Forall_forall. intros y Hy. apply filter_In in Hy as [Hy _].
    rewrite Forall_forall in HF; auto.
  Qed.

  (** Two sorted permutations of one another coincide when the order is antisymmetric. *)
  Lemma sorted_unique l1 l2 :
    (forall a b, leb a b = true -> leb b a = true -> a = b) ->
    StronglySorted le_rel l1 -> StronglySorted le_rel l2 -> Permutation l1 l2 -> l1 = l2.
  Proof.
    intros anti H1. revert l2. induction H1 as [|x l1 Hs IH HF]; intros l2 H2 HP.
    - apply Permutation_nil in HP. auto.
    - destruct l2 as [|y l2]; [apply Permutation_sym, Permutation_nil in HP; discriminate|].
      inversion H2 as [|? ? Hs2 HF2]; subst.
      assert (x = y) as ->.
      { assert (Hx : In x (y :: l2)) by (eapply Permutation_in; [exact HP|now left]).
        assert (Hy : In y (x :: l1)) by (eapply Permutation_in; [symmetry; exact HP|now left]).
        destruct Hx as [->|Hx]; auto. destruct Hy as [->|Hy]; auto.
        rewrite Forall_forall in HF, HF2. apply anti; [now apply HF|now apply HF2]. }
      f_equal. apply IH; auto. eapply Permutation_cons_inv; eauto.
  Qed.
End Sort.

(** Removing duplicates from strings as [sorted(set(l))] does. *)
Section Uniq.
  Context {A : Type} (eqb : A -> A -> bool).
  Hypothesis eqb_spec : forall a b, reflect (a = b) (eqb a b).
  Fixpoint dedup (l : list A) : list A :=
    match l with
    | [] => []
    | x :: r => let d := dedup r in if existsb (eqb x) d then d else x :: d
    end.
  Lemma existsb_eqb x l : existsb (eqb x) l = true <-> In x l.
  Proof.
    rewrite existsb_exists. split.
    - intros (y & Hy & E). destruct (eqb_spec x y); [now subst|discriminate].
    - intros H. exists x. split; auto. destruct (eqb_spec x x); auto.
  Qed.
  Lemma dedup_in x l : In x (dedup l) <-> In x l.
  Proof.
    induction l as [|y l IH]; simpl; [tauto|].
    destruct (existsb (eqb y) (dedup l)) eqn:E.
    - rewrite IH. split; auto. intros [<-|H]; auto. apply existsb_eqb in E. now apply IH.
    - simpl. now rewrite IH.
  Qed.
  Lemma dedup_nodup l : NoDup (dedup l).
  Proof.
    induction l as [|y l IH]; simpl; [constructor|].
    destruct (existsb (eqb y) (dedup l)) eqn:E; auto. constructor; auto.
    intros H. apply existsb_eqb in H. congruence.
  Qed.
End Uniq.
