From Coq Require Import QArith Qfield Reals Qreals Lra Lia.
From Verif Require Import Lib.Base Model.Masking Model.TimeDomain Spec.MaskSpec Proofs.AmplitudeFacts Proofs.MaskFacts Proofs.WfcFacts Model.Gaps Spec.GapsSpec.
Local Open Scope Z_scope.

Lemma same_nth_error {A} (x y : list A) : length x = length y -> (forall k, (k < length x)%nat -> nth_error x k = nth_error y k) -> x = y.
Proof.
  revert y. induction x as [|a x IH]; intros [|b y] L H; try discriminate; [reflexivity|]. assert (a = b) by (specialize (H 0%nat ltac:(cbn; lia)); cbn in H; congruence).
  subst. f_equal. apply IH; [cbn in L; lia|]. intros k K. apply (H (S k)). cbn. lia.
Qed.
(** ** runs and their joins *)
Section Runs.
  Context {A : Type}.
  Implicit Types (rs : list (Z * list A)) (l : list (option A)) (x : list A).
  Fixpoint ordered (i : Z) rs : Prop :=
    match rs with [] => True | (s, x) :: q => i <= s /\ ordered (s + Z.of_nat (length x)) q end.
  Fixpoint lookup rs (p : Z) : option A :=
    match rs with
    | [] => None
    | (s, x) :: q => if (s <=? p) && (p <? s + Z.of_nat (length x)) then nth_error x (Z.to_nat (p - s)) else lookup q p
    end.
  Lemma ordered_le i j rs : i <= j -> ordered j rs -> ordered i rs.
  Proof. destruct rs as [|[s x] q]; cbn; [auto|]. intros H [H1 H2]. split; [lia|assumption]. Qed.
  Lemma lookup_below i rs p : ordered i rs -> p < i -> lookup rs p = None.
  Proof.
    revert i. induction rs as [|[s x] q IH]; intros i; cbn [ordered lookup]; [auto|]. intros [H1 H2] H.
    destruct (s <=? p) eqn:E; [apply Z.leb_le in E; lia|]. cbn. apply IH with (2 := ltac:(lia) : p < s + Z.of_nat (length x)). assumption.
  Qed.
  Lemma nth_some (x : list A) k : nth k (map Some x) None = nth_error x k.
  Proof. revert k. induction x as [|a x IH]; intros [|k]; cbn; auto. Qed.
  Lemma nth_none k n : nth k (repeat (@None A) n) None = None.
  Proof. revert k. induction n; intros [|k]; cbn; auto. Qed.
  Lemma join_at i rs p : ordered i rs -> i <= p -> nth (Z.to_nat (p - i)) (join i rs) None = lookup rs p.
  Proof.
    revert i. induction rs as [|[s x] q IH]; intros i; cbn [ordered join lookup]; [intros; now destruct (Z.to_nat (p - i))|].
    intros [H1 H2] H. destruct (Z.leb_spec s p) as [E|E].
    - rewrite app_nth2 by (rewrite repeat_length; lia). rewrite repeat_length.
      replace (Z.to_nat (p - i) - Z.to_nat (s - i))%nat with (Z.to_nat (p - s)) by lia.
      destruct (Z.ltb_spec p (s + Z.of_nat (length x))) as [E2|E2]; cbn [andb].
      + rewrite app_nth1 by (rewrite map_length; lia). apply nth_some.
      + rewrite app_nth2 by (rewrite map_length; lia). rewrite map_length. rewrite <- (IH _ H2 E2). f_equal. lia.
    - cbn [andb]. rewrite app_nth1 by (rewrite repeat_length; lia). rewrite nth_none. symmetry.
      apply lookup_below with (1 := H2). lia.
  Qed.
  Lemma merge_at i rs p : ordered i rs -> at_opt (merge rs) p = lookup rs p.
  Proof.
    intros H. destruct rs as [|[s x] q]; [reflexivity|]. unfold merge, at_opt, at_pos, t_start, t_data.
    assert (O : ordered s ((s, x) :: q)) by (cbn in *; split; [lia|tauto]).
    destruct (Z.ltb_spec p s) as [E|E]; [symmetry; now apply lookup_below with (1 := O)|]. now apply join_at.
  Qed.

  Lemma runs_cons i (v : A) r : runs i (Some v :: r) =
    match r with Some _ :: _ => match runs (i + 1) r with (_, x) :: q => (i, v :: x) :: q | [] => [(i, [v])] end
               | _ => (i, [v]) :: runs (i + 1) r end.
  Proof. reflexivity. Qed.
  Lemma runs_head i (v : A) r : exists x q, runs i (Some v :: r) = (i, v :: x) :: q.
  Proof.
    revert i v. induction r as [|[w|] r IH]; intros i v; rewrite runs_cons; [now eexists _, _| |now eexists _, _].
    destruct (IH (i + 1) w) as (x & q & ->). now eexists _, _.
  Qed.
  (** the runs are ordered, and hold exactly the samples *)
  Lemma runs_ordered i l : ordered i (runs i l).
  Proof.
    revert i. induction l as [|[v|] r IH]; intros i; [exact I| |].
    - rewrite runs_cons. destruct r as [|[w|] r'].
      + cbn. lia.
      + destruct (runs_head (i + 1) w r') as (x & q & E). specialize (IH (i + 1)). rewrite E in *. cbn [ordered] in *.
        destruct IH as [_ IH]. split; [lia|]. replace (i + Z.of_nat (length (v :: w :: x))) with (i + 1 + Z.of_nat (length (w :: x))); [assumption|cbn [length]; lia].
      + split; [lia|]. apply IH.
    - cbn [runs]. apply ordered_le with (i + 1); [lia|apply IH].
  Qed.
  Lemma runs_lookup i l p : i <= p -> lookup (runs i l) p = nth (Z.to_nat (p - i)) l None.
  Proof.
    revert i. induction l as [|[v|] r IH]; intros i H; [now destruct (Z.to_nat (p - i))| |].
    - assert (C : forall x q, runs i (Some v :: r) = (i, v :: x) :: q -> i < p -> lookup (runs i (Some v :: r)) p = lookup (runs (i + 1) r) p).
      { intros x q E L. rewrite E. rewrite runs_cons in E. destruct r as [|[w|] r'].
        - injection E as <- <-. cbn [lookup length]. destruct (Z.ltb_spec p (i + Z.of_nat 1)); [lia|]. now rewrite andb_false_r.
        - destruct (runs_head (i + 1) w r') as (x' & q' & E'). rewrite E' in *. injection E as <- <-. cbn [lookup].
          replace (i + Z.of_nat (length (v :: w :: x'))) with (i + 1 + Z.of_nat (length (w :: x'))) by (cbn [length]; lia).
          destruct (Z.leb_spec i p); [|lia]. destruct (Z.leb_spec (i + 1) p); [|lia].
          destruct (p <? i + 1 + Z.of_nat (length (w :: x'))); [|reflexivity]. cbn [andb].
          replace (Z.to_nat (p - i)) with (S (Z.to_nat (p - (i + 1)))) by lia. reflexivity.
        - injection E as <- <-. cbn [lookup length]. destruct (Z.ltb_spec p (i + Z.of_nat 1)); [lia|]. now rewrite andb_false_r. }
      destruct (runs_head i v r) as (x & q & E). destruct (Z.eq_dec p i) as [->|N].
      + rewrite E. cbn [lookup length]. destruct (Z.leb_spec i i); [|lia]. destruct (Z.ltb_spec i (i + Z.of_nat (S (length x)))); [|lia].
        rewrite Z.sub_diag. reflexivity.
      + rewrite (C x q E) by lia. rewrite IH by lia. replace (Z.to_nat (p - i)) with (S (Z.to_nat (p - (i + 1)))) by lia. reflexivity.
    - cbn [runs]. destruct (Z.eq_dec p i) as [->|N].
      + rewrite Z.sub_diag. apply lookup_below with (i + 1); [apply runs_ordered|lia].
      + rewrite IH by lia. replace (Z.to_nat (p - i)) with (S (Z.to_nat (p - (i + 1)))) by lia. reflexivity.
  Qed.
  Lemma split_at (t : trace A) p : lookup (split t) p = at_pos t p.
  Proof.
    unfold split, at_pos. destruct (Z.ltb_spec p (t_start t)) as [E|E]; [|now apply runs_lookup].
    apply lookup_below with (1 := runs_ordered _ _). assumption.
  Qed.
  (** runs are separated and not empty *)
  Fixpoint apart (i : Z) rs : Prop :=
    match rs with [] => True | (s, x) :: q => i < s /\ x <> [] /\ apart (s + Z.of_nat (length x)) q end.
  Lemma apart_le i j rs : i <= j -> apart j rs -> apart i rs.
  Proof. destruct rs as [|[s x] q]; cbn; [auto|]. intros H (H1 & H2). split; [lia|assumption]. Qed.
  Lemma runs_apart i l : apart (i - 1) (runs i l).
  Proof.
    revert i. induction l as [|[v|] r IH]; intros i; [exact I| |].
    - rewrite runs_cons. destruct r as [|[w|] r'].
      + cbn. repeat split; [lia|discriminate].
      + destruct (runs_head (i + 1) w r') as (x & q & E). specialize (IH (i + 1)). rewrite E in *. cbn [apart] in *.
        destruct IH as (_ & _ & IH). repeat split; [lia|discriminate|]. replace (i + Z.of_nat (length (v :: w :: x))) with (i + 1 + Z.of_nat (length (w :: x))); [assumption|cbn [length]; lia].
      + cbn [apart length]. repeat split; [lia|discriminate|]. cbn [runs]. specialize (IH (i + 1)). cbn [runs] in IH.
        (* the element after is masked *)
        assert (O : apart (i + 1 + 1 - 1) (runs (i + 1 + 1) r')).
        { clear -IH. revert IH. generalize (runs (i + 1 + 1) r') (runs_ordered (i + 1 + 1) r'). intros rs O. destruct rs as [|[s x] q]; cbn; [auto|].
          cbn in O. intros (H1 & H2). split; [lia|assumption]. }
        revert O. apply apart_le. lia.
    - cbn [runs]. specialize (IH (i + 1)). revert IH. apply apart_le. lia.
  Qed.
  Lemma apart_ordered i rs : apart i rs -> ordered i rs.
  Proof. revert i. induction rs as [|[s x] q IH]; intros i; cbn; [auto|]. intros (H & _ & H2). split; [lia|auto]. Qed.
  Lemma lookup_in i rs s x p : ordered i rs -> In (s, x) rs -> s <= p < s + Z.of_nat (length x) -> lookup rs p = nth_error x (Z.to_nat (p - s)).
  Proof.
    revert i. induction rs as [|[s' y] q IH]; intros i O I H; [contradiction|]. cbn [ordered] in O. destruct O as [O1 O2]. cbn [lookup]. destruct I as [I|I].
    - injection I as -> ->. destruct (Z.leb_spec s p); [|lia]. now destruct (Z.ltb_spec p (s + Z.of_nat (length x))); [|lia].
    - assert (L : s' + Z.of_nat (length y) <= s).
      { clear -O2 I. revert O2 I. generalize (s' + Z.of_nat (length y)). induction q as [|[s0 z] q IH]; intros i O I; [contradiction|]. cbn in O. destruct O as [O1 O2].
        destruct I as [I|I]; [injection I as -> ->; assumption|]. specialize (IH _ O2 I). lia. }
      destruct (Z.ltb_spec p (s' + Z.of_nat (length y))); [lia|]. rewrite andb_false_r. eapply IH; eassumption.
  Qed.
  Lemma lookup_some rs p v : lookup rs p = Some v -> exists s x, In (s, x) rs /\ s <= p < s + Z.of_nat (length x) /\ nth_error x (Z.to_nat (p - s)) = Some v.
  Proof.
    induction rs as [|[s x] q IH]; cbn [lookup]; [discriminate|]. destruct (Z.leb_spec s p) as [E|E], (Z.ltb_spec p (s + Z.of_nat (length x))) as [E2|E2]; cbn [andb]; intros H.
    1: { exists s, x. split; [now left|]. split; [lia|assumption]. }
    all: destruct (IH H) as (s' & x' & I & R); exists s', x'; split; [now right|assumption].
  Qed.
  Lemma apart_edges i rs s x : apart i rs -> In (s, x) rs -> x <> [] /\ lookup rs (s - 1) = None /\ lookup rs (s + Z.of_nat (length x)) = None.
  Proof.
    revert i. induction rs as [|[s' y] q IH]; intros i O I; [contradiction|]. cbn [apart] in O. destruct O as (O1 & O2 & O3). destruct I as [I|I].
    - injection I as -> ->. split; [assumption|]. cbn [lookup]. destruct (Z.leb_spec s (s - 1)); [lia|]. cbn [andb].
      destruct (Z.ltb_spec (s + Z.of_nat (length x)) (s + Z.of_nat (length x))); [lia|]. rewrite andb_false_r.
      split; [apply lookup_below with (1 := apart_ordered _ _ O3); lia|].
      destruct q as [|[s0 z] q]; [reflexivity|]. cbn [apart] in O3. destruct O3 as (L & _ & O4). apply lookup_below with (i := s0); [|assumption].
      cbn [ordered]. split; [lia|now apply apart_ordered].
    - destruct (IH _ O3 I) as (N & E1 & E2). split; [assumption|].
      assert (L : s' + Z.of_nat (length y) < s).
      { clear -O3 I. revert O3 I. generalize (s' + Z.of_nat (length y)). induction q as [|[s0 z] q IH]; intros i O I; [contradiction|]. cbn in O. destruct O as (O1 & N & O2).
        destruct I as [I|I]; [injection I as -> ->; assumption|]. specialize (IH _ O2 I). lia. }
      cbn [lookup]. destruct (Z.ltb_spec (s - 1) (s' + Z.of_nat (length y))); [lia|]. rewrite andb_false_r.
      destruct (Z.ltb_spec (s + Z.of_nat (length x)) (s' + Z.of_nat (length y))); [lia|]. rewrite andb_false_r. auto.
  Qed.
  Lemma parts_of i rs (t : samples A) s x : apart i rs -> (forall p, lookup rs p = t p) -> In (s, x) rs <-> part t s x.
  Proof.
    intros AP LK. pose proof (apart_ordered _ _ AP) as OR. split.
    - intros I. destruct (apart_edges _ _ _ _ AP I) as (N & E1 & E2). rewrite LK in E1, E2.
      repeat split; try assumption. intros k K. rewrite <- LK. rewrite (lookup_in _ _ _ _ _ OR I) by lia. f_equal. lia.
    - intros (N & V & E1 & E2). destruct x as [|v x]; [contradiction|]. assert (L : lookup rs s = Some v).
      { rewrite LK. specialize (V 0%nat ltac:(cbn; lia)). rewrite Z.add_0_r in V. exact V. }
      destruct (lookup_some _ _ _ L) as (s' & y & I & R & _). destruct (apart_edges _ _ _ _ AP I) as (Ny & F1 & F2). rewrite LK in F1, F2.
      assert (IN : forall p, s' <= p < s' + Z.of_nat (length y) -> t p = nth_error y (Z.to_nat (p - s'))).
      { intros p P. rewrite <- LK. now apply (lookup_in _ _ _ _ _ OR I). }
      assert (s' = s).
      { destruct (Z.eq_dec s' s); [assumption|]. exfalso. rewrite IN in E1 by lia. apply nth_error_None in E1. lia. }
      subst s'. assert (LE : length y = length (v :: x)).
      { destruct (Nat.lt_total (length y) (length (v :: x))) as [C|[C|C]]; [|assumption|]; exfalso.
        - rewrite V in F2 by assumption. apply nth_error_None in F2. lia.
        - rewrite IN in E2 by lia. apply nth_error_None in E2. lia. }
      enough (y = v :: x) by congruence. apply same_nth_error; [assumption|]. intros k K. rewrite <- V by lia. rewrite IN by lia. f_equal. lia.
  Qed.
  Lemma split_part (t : trace A) s x : In (s, x) (split t) <-> part (at_pos t) s x.
  Proof. apply parts_of with (t_start t - 1); [apply runs_apart|apply split_at]. Qed.
  Lemma ordered_filter i rs k : ordered i rs -> ordered i (filter k rs).
  Proof.
    revert i. induction rs as [|[s x] q IH]; intros i; cbn [ordered filter]; [auto|]. intros [H1 H2]. destruct (k (s, x)); cbn [ordered].
    - auto.
    - apply IH. apply ordered_le with (2 := H2). lia.
  Qed.
  Lemma lookup_app r1 r2 p : lookup (r1 ++ r2) p = match lookup r1 p with Some v => Some v | None => lookup r2 p end.
  Proof.
    induction r1 as [|[s x] q IH]; cbn [app lookup]; [reflexivity|]. destruct (Z.leb_spec s p), (Z.ltb_spec p (s + Z.of_nat (length x))); cbn [andb]; try assumption.
    destruct (nth_error x (Z.to_nat (p - s))) eqn:E; [reflexivity|]. apply nth_error_None in E. lia.
  Qed.
  Lemma apart_app i e r1 r2 : apart i r1 -> (forall s x, In (s, x) r1 -> s + Z.of_nat (length x) <= e) -> i <= e -> apart e r2 -> apart i (r1 ++ r2).
  Proof.
    revert i. induction r1 as [|[s x] q IH]; intros i; cbn [apart app]; intros H1 B L H2; [now apply apart_le with (2 := H2)|].
    destruct H1 as (P & N & H1). repeat split; [assumption..|]. apply IH; [assumption| |apply (B s x); now left|assumption]. intros. apply B. now right.
  Qed.
  Lemma split_within (t : trace A) s x : In (s, x) (split t) -> s + Z.of_nat (length x) <= t_start t + Z.of_nat (length (t_data t)).
  Proof.
    intros I. apply split_part in I. destruct I as (N & V & _). destruct x as [|v x]; [contradiction|]. specialize (V (length x) ltac:(cbn; lia)).
    unfold at_pos in V. destruct (Z.ltb_spec (s + Z.of_nat (length x)) (t_start t)) as [E|E].
    - symmetry in V. apply nth_error_None in V. cbn in V. lia.
    - destruct (Nat.le_gt_cases (length (t_data t)) (Z.to_nat (s + Z.of_nat (length x) - t_start t))) as [C|C]; [|cbn [length]; lia].
      rewrite nth_overflow in V by assumption. symmetry in V. apply nth_error_None in V. cbn in V. lia.
  Qed.
End Runs.

Lemma ordered_map {A B} (f : list A -> list B) i rs : (forall x, length (f x) = length x) -> ordered i rs -> ordered i (map (fun r => (fst r, f (snd r))) rs).
Proof. intros L. revert i. induction rs as [|[s x] q IH]; intros i; cbn [ordered map fst snd]; [auto|]. intros [H1 H2]. rewrite L. auto. Qed.

(** ** functions on each part *)
Theorem each_part_merged {A B} (keep : list A -> bool) (f : list A -> list B) i rs (t : samples A) :
  (forall x, length (f x) = length x) -> apart i rs -> (forall p, lookup rs p = t p) ->
  each_part (fun x => keep x = true) (fun x y => y = f x) t
    (at_opt (merge (map (fun r => (fst r, f (snd r))) (filter (fun r => keep (snd r)) rs)))).
Proof.
  intros L AP LK. pose proof (apart_ordered _ _ AP) as OR. set (rs' := map _ _).
  assert (O' : ordered i rs') by (apply ordered_map, ordered_filter; assumption).
  assert (M : forall p v, lookup rs' p = Some v -> exists s x, In (s, x) rs /\ keep x = true /\ s <= p < s + Z.of_nat (length x)).
  { intros p v E. destruct (lookup_some _ _ _ E) as (s & y & I & R & _). apply in_map_iff in I. destruct I as ([s' x] & Q & I). injection Q as <- <-.
    apply filter_In in I. destruct I as [I K]. exists s', x. rewrite L in R. auto. }
  split.
  - intros p N. rewrite (merge_at i) by assumption. destruct (lookup rs' p) eqn:E; [|reflexivity]. exfalso. destruct (M _ _ E) as (s & x & I & _ & R).
    rewrite <- LK, (lookup_in _ _ _ _ _ OR I R) in N. apply nth_error_None in N. lia.
  - intros a x P. apply (parts_of _ _ _ _ _ AP LK) in P. split; intros K.
    + exists (f x). repeat split; [apply L|]. intros k Hk. rewrite (merge_at i) by assumption.
      assert (I : In (a, f x) rs').
      { apply in_map_iff. exists (a, x). split; [reflexivity|]. apply filter_In. auto. }
      rewrite (lookup_in _ _ _ _ _ O' I) by (rewrite L; lia). f_equal. lia.
    + intros k Hk. rewrite (merge_at i) by assumption. destruct (lookup rs' (a + Z.of_nat k)) eqn:E; [|reflexivity]. exfalso. destruct (M _ _ E) as (s & y & I & Ky & R).
      pose proof (apart_edges _ _ _ _ AP I) as (_ & Y1 & Y2). pose proof (apart_edges _ _ _ _ AP P) as (_ & X1 & X2).
      assert (s = a /\ length y = length x) as [-> LE].
      { assert (SA : s = a).
        { destruct (Z.lt_total s a) as [C|[C|C]]; [|assumption|]; exfalso.
          - rewrite (lookup_in _ _ _ _ _ OR I) in X1 by lia. apply nth_error_None in X1. lia.
          - rewrite (lookup_in _ _ _ _ _ OR P) in Y1 by lia. apply nth_error_None in Y1. lia. }
        subst s. split; [reflexivity|]. destruct (Nat.lt_total (length y) (length x)) as [C|[C|C]]; [|assumption|]; exfalso.
        - rewrite (lookup_in _ _ _ _ _ OR P) in Y2 by lia. apply nth_error_None in Y2. lia.
        - rewrite (lookup_in _ _ _ _ _ OR I) in X2 by lia. apply nth_error_None in X2. lia. }
      apply K. replace x with y; [assumption|]. apply same_nth_error; [assumption|]. intros j J.
      transitivity (lookup rs (a + Z.of_nat j)).
      * rewrite (lookup_in _ _ _ _ _ OR I) by lia. f_equal. lia.
      * rewrite (lookup_in _ _ _ _ _ OR P) by lia. f_equal. lia.
Qed.
Lemma filter_all {A} (l : list A) : filter (fun _ => true) l = l.
Proof. induction l; cbn; congruence. Qed.
Theorem filter_parts f t : (forall x, length (f x) = length x) ->
  each_part (fun _ => True) (fun x y => y = f x) (at_pos t) (at_opt (filter_trace f t)).
Proof.
  intros L. pose proof (each_part_merged (fun _ => true) f (t_start t - 1) (split t) (at_pos t) L (runs_apart _ _) (split_at t)) as [H1 H2].
  rewrite filter_all in *. split; [exact H1|]. intros a x P. destruct (H2 a x P) as [H3 _]. split; [auto|]. intros C. now destruct C.
Qed.
Lemma filter_none f t : filter_trace f t = None <-> forall p, at_pos t p = None.
Proof.
  unfold filter_trace, merge. split; intros H.
  - intros p. rewrite <- split_at. destruct (split t) as [|[s x] q]; [reflexivity|discriminate].
  - destruct (split t) as [|[s x] q] eqn:E; [reflexivity|]. assert (I : In (s, x) (split t)) by (rewrite E; now left). apply split_part in I.
    destruct I as (N & V & _). destruct x as [|v x]; [contradiction|]. specialize (V 0%nat ltac:(cbn; lia)). rewrite H in V. discriminate.
Qed.

(** ** the start time is not updated *)
Lemma split_first {A} (t : trace A) s x q : split t = (s, x) :: q -> masked_before t (s - t_start t).
Proof.
  intros E. assert (I : In (s, x) (split t)) by (rewrite E; now left). pose proof (runs_ordered (t_start t) (t_data t)) as O. fold (split t) in O. rewrite E in O. cbn [ordered] in O.
  destruct O as [O1 O2]. apply split_part in I. destruct I as (N & V & _). unfold masked_before. replace (t_start t + (s - t_start t)) with s by lia. split; [lia|]. split.
  - destruct x as [|v x]; [contradiction|]. specialize (V 0%nat ltac:(cbn; lia)). rewrite Z.add_0_r in V. rewrite V. discriminate.
  - intros p P. rewrite <- split_at, E. apply lookup_below with s; [|assumption]. cbn [ordered]. split; [lia|assumption].
Qed.
Lemma masked_before_unique {A} (t : trace A) c d : masked_before t c -> masked_before t d -> c = d.
Proof.
  intros (_ & C & C') (_ & D & D'). destruct (Z.lt_total c d) as [H|[H|H]]; [|assumption|]; exfalso; [apply C, D'|apply D, C']; lia.
Qed.
Theorem restarted (f : list R -> list R) t (m : trace R) d : (forall x, length (f x) = length x) -> merge (map (fun r => (fst r, f (snd r))) (split t)) = Some m -> masked_before t d ->
  exists w, each_part (fun _ => True) (fun x y => y = f x) (at_pos t) w /\ moved (- d) w (at_pos (mkT (t_start t) (t_data m))).
Proof.
  intros L E D. exists (at_opt (filter_trace f t)). split; [now apply filter_parts|]. unfold filter_trace. rewrite E.
  assert (SM : t_start m = t_start t + d).
  { destruct (split t) as [|[s x] q] eqn:Q; [discriminate|]. pose proof (masked_before_unique _ _ _ (split_first _ _ _ _ Q) D). cbn in E. injection E as <-. cbn. lia. }
  intros p. unfold at_opt, at_pos. cbn [t_start t_data]. rewrite SM. destruct (Z.ltb_spec p (t_start t)), (Z.ltb_spec (p - - d) (t_start t + d)); try lia; [reflexivity|]. f_equal. lia.
Qed.
Theorem detrend_moves dt t d : (forall x, length (dt x) = length x) -> masked_before t d ->
  exists u w, detrend_trace dt t = Ok u /\ each_part (fun _ => True) (fun x y => y = dt x) (at_pos t) w /\ moved (- d) w (at_pos u).
Proof.
  intros L D. unfold detrend_trace. destruct (merge (map (fun r => (fst r, dt (snd r))) (split t))) as [m|] eqn:E.
  - destruct (restarted dt t m d L E D) as (w & W1 & W2). exists (mkT (t_start t) (t_data m)), w. auto.
  - exfalso. destruct D as (_ & D & _). apply D. apply (proj1 (filter_none dt t) E).
Qed.
Lemma detrend_fails dt (t : trace R) e : detrend_trace dt t = Raise e <-> e = IndexError /\ forall p, at_pos t p = None.
Proof.
  rewrite <- (filter_none dt). unfold detrend_trace, filter_trace. destruct (merge _); split; [discriminate|intros [_ H]; discriminate| |].
  - intros H. split; congruence.
  - intros [-> _]. reflexivity.
Qed.

(** ** tapering *)
Lemma taper_run_length len n x : length (taper_run len n x) = length x.
Proof.
  unfold taper_run, cos_taper, cos_taper_row. destruct (Qle_bool len 0); [reflexivity|]. destruct (length x <? n * 2)%nat; [reflexivity|].
  destruct (n =? 0)%nat; [|now rewrite map_length, seq_length]. destruct (length x =? 0)%nat eqn:E; [apply Nat.eqb_eq in E; rewrite E|]; reflexivity.
Qed.
Lemma taper_run_spec len n x : (0 < len)%Q -> tapered n x (taper_run len n x).
Proof.
  intros L. split.
  - intros H. unfold taper_run, cos_taper, cos_taper_row. destruct (Qle_bool len 0); [reflexivity|]. destruct (Nat.ltb_spec (length x) (n * 2)); [reflexivity|].
    destruct (Nat.eqb_spec n 0); [|lia]. destruct x; reflexivity.
  - intros [N X]. destruct (cos_taper_ok (fun v => v) len n x L N X) as (y & E & LY & V). exists (taper_weight (fun v => v) n (length x)).
    intros i I. unfold taper_run. rewrite E. pose proof (weight_bounds n (length x) i N X I) as W. rewrite V by assumption. tauto.
Qed.
Theorem masked_taper_moves len n t d : (0 < len)%Q -> masked_before t d ->
  exists u w, taper_at_masked len n t = Ok u /\ each_part (fun _ => True) (tapered n) (at_pos t) w /\ moved (- d) w (at_pos u).
Proof.
  intros L D. unfold taper_at_masked. destruct (Qle_bool len 0) eqn:Q; [apply Qle_bool_iff in Q; exfalso; revert L Q; apply Qlt_not_le|].
  destruct (merge (map (fun r => (fst r, taper_run len n (snd r))) (split t))) as [m|] eqn:E.
  - destruct (restarted (taper_run len n) t m d (taper_run_length len n) E D) as (w & [W0 W1] & W2). exists (mkT (t_start t) (t_data m)), w. repeat split; [exact W0| | |exact W2].
    + intros _. destruct (W1 _ _ H) as [W _]. destruct (W I) as (y & -> & LY & V). exists (taper_run len n x). auto using taper_run_spec.
    + intros C. now destruct C.
  - exfalso. destruct D as (_ & D & _). apply D. apply (proj1 (filter_none (taper_run len n) t) E).
Qed.

(** ** several traces *)
Lemma joined_cons t r : joined (t :: r) = match joined r with
   | u :: q => if t_start u =? t_start t + Z.of_nat (length (t_data t)) then mkT (t_start t) (t_data t ++ t_data u) :: q else t :: u :: q
   | [] => [t] end.
Proof. reflexivity. Qed.
Lemma joined_spec l : in_order l ->
  separate (joined l) /\ (forall p, at_stream (joined l) p = at_stream l p) /\
  (forall p, (exists t, In t (joined l) /\ inside t p) <-> (exists t, In t l /\ inside t p)) /\
  match l with [] => joined l = [] | t :: _ => exists u q, joined l = u :: q /\ t_start u = t_start t end.
Proof.
  induction l as [|t r IH]; intros O; [repeat split; auto|].
  assert (O' : in_order r) by (destruct r; cbn in *; tauto). destruct (IH O') as (S & AT & IN & HD). clear IH. rewrite joined_cons. destruct r as [|t' r'].
  - cbn [joined]. split; [exact I|]. split; [intros; reflexivity|]. split; [tauto|]. now exists t, [].
  - destruct HD as (u & q & E & HS). rewrite E in *. cbn [in_order] in O. destruct O as [LE _].
    destruct (Z.eqb_spec (t_start u) (t_start t + Z.of_nat (length (t_data t)))) as [EQ|NE].
    + split.
      { destruct q as [|v q]; [exact I|]. cbn [separate] in *. cbn [t_start t_data]. rewrite app_length. split; [lia|tauto]. }
      split.
      { intros p. cbn [at_stream]. specialize (AT p). cbn [at_stream] in AT. rewrite <- AT.
        assert (M : at_pos (mkT (t_start t) (t_data t ++ t_data u)) p = match at_pos t p with Some v => Some v | None => at_pos u p end).
        { unfold at_pos. cbn [t_start t_data]. destruct (Z.ltb_spec p (t_start t)); [now destruct (Z.ltb_spec p (t_start u)); [|lia]|].
          destruct (Z.ltb_spec p (t_start u)).
          - rewrite app_nth1 by lia. now destruct (nth (Z.to_nat (p - t_start t)) (t_data t) None).
          - rewrite app_nth2 by lia. rewrite (nth_overflow (t_data t)) by lia. f_equal. lia. }
        rewrite M. now destruct (at_pos t p), (at_pos u p). }
      split.
      { intros p. specialize (IN p). unfold inside, last_pos in *. split.
        - intros (w & [<-|I] & R).
          + cbn [t_start t_data] in R. rewrite app_length in R. destruct (Z.lt_ge_cases p (t_start u)); [exists t; split; [now left|lia]|].
            destruct IN as [IN _]. destruct IN as (w & I & R'); [exists u; split; [now left|lia]|]. exists w. split; [now right|assumption].
          + destruct IN as [IN _]. destruct IN as (w' & I' & R'); [exists w; split; [now right|assumption]|]. exists w'. split; [now right|assumption].
        - intros (w & [<-|I] & R).
          + eexists. split; [now left|]. cbn [t_start t_data]. rewrite app_length. lia.
          + destruct IN as [_ IN]. destruct IN as (w' & [<-|I'] & R'); [exists w; auto| |].
            * eexists. split; [now left|]. cbn [t_start t_data]. rewrite app_length. lia.
            * exists w'. split; [now right|assumption]. }
      eexists _, _. split; [reflexivity|reflexivity].
    + split; [cbn [separate] in *; split; [lia|assumption]|]. split.
      { intros p. specialize (AT p). cbn [at_stream] in *. now rewrite <- AT. }
      split.
      { intros p. specialize (IN p). split.
        - intros (w & [<-|I] & R); [exists t; split; [now left|assumption]|]. destruct IN as [IN _]. destruct IN as (w' & I' & R'); [exists w; auto|]. exists w'. split; [now right|assumption].
        - intros (w & [<-|I] & R); [exists t; split; [now left|assumption]|]. destruct IN as [_ IN]. destruct IN as (w' & I' & R'); [exists w; auto|]. exists w'. split; [now right|assumption]. }
      now eexists _, _.
Qed.
Lemma separate_runs {A} (l : list (trace A)) i : separate l -> match l with t :: _ => i < t_start t | [] => True end ->
  apart i (concat (map split l)).
Proof.
  revert i. induction l as [|t r IH]; intros i S B; [exact I|]. cbn [map concat].
  apply apart_app with (e := t_start t + Z.of_nat (length (t_data t))).
  - apply apart_le with (2 := runs_apart _ _). lia.
  - apply split_within.
  - lia.
  - apply IH; [destruct r; cbn in *; tauto|]. destruct r; [exact I|]. cbn [separate] in S. tauto.
Qed.
Lemma stream_runs {A} (l : list (trace A)) p : lookup (concat (map split l)) p = at_stream l p.
Proof.
  induction l as [|t r IH]; [reflexivity|]. cbn [map concat at_stream]. rewrite lookup_app, split_at, IH. reflexivity.
Qed.

Lemma interp_length max t u : interpolated max t u -> length (t_data u) = length (t_data t).
Proof. intros [_ H]. apply interpolate_gaps_spec in H. tauto. Qed.
Lemma interp_separate max l l' : Forall2 (interpolated max) l l' -> separate l -> separate l'.
Proof.
  induction 1 as [|t u r q H F IH]; [auto|]. destruct F as [|t2 u2 r q H2 F]; [auto|]. intros [X Y]. split; [|exact (IH Y)].
  rewrite (interp_length _ _ _ H). destruct H as [-> _], H2 as [-> _]. assumption.
Qed.
Lemma real_separate l : separate l -> separate (map real_trace l).
Proof.
  induction l as [|t r IH]; [auto|]. destruct r as [|u r]; [auto|]. intros [H S]. split; [|exact (IH S)]. unfold real_trace. cbn [t_start t_data]. rewrite map_length. assumption.
Qed.
Lemma mapM_forall2 {A B} (f : A -> result B) l l' : mapM f l = Ok l' -> Forall2 (fun a b => f a = Ok b) l l'.
Proof.
  revert l'. induction l as [|a l IH]; intros l'; cbn [mapM]; [intros [= <-]; constructor|]. destruct (f a) eqn:E; cbn [bind]; [|discriminate].
  destruct (mapM f l) eqn:E2; cbn [bind]; [|discriminate]. intros [= <-]. constructor; auto.
Qed.
Lemma outside_none {A} (t : trace A) p : ~ inside t p -> at_pos t p = None.
Proof.
  intros N. unfold at_pos. destruct (Z.ltb_spec p (t_start t)); [reflexivity|]. apply nth_overflow. unfold inside, last_pos in N. lia.
Qed.
Lemma outside_stream {A} (l : list (trace A)) p : (forall t, In t l -> ~ inside t p) -> at_stream l p = None.
Proof.
  induction l as [|t r IH]; [reflexivity|]. intros H. cbn [at_stream]. rewrite outside_none by (apply H; now left). apply IH. intros. apply H. now right.
Qed.
Lemma each_part_impl {A B} (k k' : list A -> Prop) (f f' : list A -> list B -> Prop) t u : (forall x, k x <-> k' x) -> (forall x y, f x y -> f' x y) ->
  each_part k f t u -> each_part k' f' t u.
Proof.
  intros K F [H1 H2]. split; [assumption|]. intros a x P. destruct (H2 a x P) as [H3 H4]. split.
  - intros H. destruct (H3 (proj2 (K x) H)) as (y & Y & R). exists y. auto.
  - intros H. apply H4. intros C. apply H. now apply K.
Qed.
Theorem gap_handler_spec max retain len n sr l o : (0 < len)%Q -> in_order l -> gap_handler max retain len n sr l = Ok o ->
  exists l1 l2, (separate l1 /\ (forall p, at_stream l1 p = at_stream l p) /\ (forall p, (exists t, In t l1 /\ inside t p) <-> exists t, In t l /\ inside t p)) /\
    Forall2 (interpolated max) l1 l2 /\
    each_part (longer sr retain) (tapered n) (at_stream (map real_trace l2)) (at_opt o).
Proof.
  intros L O. unfold gap_handler. destruct (mapM _ (joined l)) as [l2|] eqn:E; cbn [bind]; [|discriminate]. intros H. assert (Ho : o = merge (map (fun r => (fst r, taper_run len n (snd r)))
     (filter (fun r => negb (too_short sr retain (length (snd r)))) (concat (map (fun t => split (mkT (t_start t) (map (option_map Q2R) (t_data t)))) l2))))) by congruence. clear H.
  destruct (joined_spec l O) as (S & AT & IN & _). exists (joined l), l2. split; [auto|].
  assert (F : Forall2 (interpolated max) (joined l) l2).
  { apply mapM_forall2 in E. clear -E. induction E as [|a b ? ? H E IH]; constructor; [|assumption]. destruct (interpolate_gaps max (t_data a)) eqn:I; cbn [bind] in H; [|discriminate].
    assert (b = mkT (t_start a) a0) by congruence. subst b. now split. }
  split; [assumption|]. pose proof (real_separate _ (interp_separate _ _ _ F S)) as S2.
  replace (concat (map (fun t => split (mkT (t_start t) (map (option_map Q2R) (t_data t)))) l2)) with (concat (map split (map real_trace l2))) in Ho by (now rewrite map_map).
  set (l3 := map real_trace l2) in *.
  assert (AP : exists i, apart i (concat (map split l3))).
  { destruct l3 as [|t r]; [exists 0; exact I|]. exists (t_start t - 1). apply separate_runs; [assumption|lia]. }
  destruct AP as [i AP].
  pose proof (each_part_merged (fun x => negb (too_short sr retain (length x))) (taper_run len n) i _ (at_stream l3) (taper_run_length len n) AP (stream_runs l3)) as M.
  cbv beta in M. rewrite <- Ho in M. revert M. apply each_part_impl.
  - intros x. unfold too_short, longer. rewrite negb_true_iff. split; intros H.
    + apply Qnot_le_lt. intros C. apply Qle_bool_iff in C. congruence.
    + destruct (Qle_bool _ _) eqn:C; [|reflexivity]. apply Qle_bool_iff in C. now apply Qlt_not_le in H.
  - intros x y ->. now apply taper_run_spec.
Qed.
Theorem gap_between max retain len n sr l o p : (0 < len)%Q -> in_order l -> gap_handler max retain len n sr l = Ok o ->
  (forall t, In t l -> ~ inside t p) -> at_opt o p = None.
Proof.
  intros L O H N. destruct (gap_handler_spec _ _ _ _ _ _ _ L O H) as (l1 & l2 & (S & AT & IN) & F & [P _]). apply P. apply outside_stream.
  intros t I. apply in_map_iff in I. destruct I as (u & <- & I). unfold inside, last_pos, real_trace. cbn [t_start t_data]. rewrite map_length. intros R.
  assert (exists t, In t l1 /\ inside t p) as X.
  { clear -F I R. induction F as [|a b r q H F IH]; [contradiction|]. destruct I as [->|I].
    - exists a. split; [now left|]. unfold inside, last_pos. rewrite <- (interp_length _ _ _ H). destruct H as [<- _]. assumption.
    - destruct (IH I) as (t & T & R'). exists t. split; [now right|assumption]. }
  apply IN in X. destruct X as (t & T & R'). exact (N t T R').
Qed.

(** ** removing traces *)
Theorem discard_filter {T} (same : T -> T -> bool) bad l : (forall x, same x x = true) -> (forall x y, same y x = true -> bad x = true -> bad y = true) ->
  discard_traces same bad l = filter (fun x => negb (bad x)) l.
Proof.
  intros R B. unfold discard_traces.
  assert (G : forall todo good, Forall (fun x => bad x = false) good -> discard same bad todo (good ++ todo) = good ++ filter (fun x => negb (bad x)) todo).
  { induction todo as [|x r IH]; intros good F; [reflexivity|]. cbn [discard filter]. destruct (bad x) eqn:E; cbn [negb].
    - replace (remove_first same x (good ++ x :: r)) with (good ++ r); [now apply IH|]. clear IH. induction F as [|y good Y F IH]; cbn [remove_first app].
      + now rewrite R.
      + destruct (same y x) eqn:S; [|now rewrite IH]. rewrite (B _ _ S E) in Y. discriminate.
    - replace (good ++ x :: r) with ((good ++ [x]) ++ r) by (now rewrite <- app_assoc). rewrite IH by (apply Forall_app; auto). now rewrite <- app_assoc. }
  exact (G l [] (Forall_nil _)).
Qed.
(** parts that preprocess_stream retains can be tapered *)
Lemma retained_tapers (tl sr : Q) n (x : list R) : (0 < sr)%Q -> (inject_Z (Z.of_nat n) <= tl * sr + (1 # 2))%Q -> longer sr (tl * 4) x -> (2 * n <= length x)%nat.
Proof.
  intros S N L. unfold longer in L. assert (L' : (tl * 4 * sr < inject_Z (Z.of_nat (length x)))%Q).
  { assert (E : (inject_Z (Z.of_nat (length x)) / sr * sr == inject_Z (Z.of_nat (length x)))%Q) by (field; intros C; rewrite C in S; discriminate).
    apply (Qmult_lt_r _ _ sr S) in L. rewrite E in L. exact L. }
  destruct n as [|n]; [lia|]. unfold Qle, Qlt, Qmult, Qplus, inject_Z in *. destruct tl as [a b], sr as [c d]. cbn [Qnum Qden] in *. 
  rewrite ?Pos2Z.inj_mul in *. nia.
Qed.
