(** Proofs about reading from a directory tree *)
From Coq Require Import Permutation Sorted.
From Verif Require Import Lib.Base Lib.Str Lib.StrFacts Lib.Sorting Lib.Time Model.Archive Spec.ArchiveSpec
  Model.MonitorFiles Model.ReadFiles Spec.ReadFilesSpec Proofs.CalendarFacts Proofs.ExtractFacts.
Local Open Scope Z_scope.
#[local] Ltac Zify.zify_post_hook ::= Z.div_mod_to_equations.

(** ** values *)
Lemma value_range w n v : value w n = Some v -> no w <= n <= end_no w.
Proof.
  unfold value, end_no, npts. destruct (Z.ltb_spec n (no w)) as [?|L]; [discriminate|]. intros H.
  destruct (Nat.lt_ge_cases (Z.to_nat (n - no w)) (length (vals w))) as [?|G]; [lia|].
  now rewrite nth_overflow in H.
Qed.
Lemma nth_skip {A} (d : A) k l i : nth i (skipn k l) d = nth (k + i) l d.
Proof. revert k; induction l as [|x l IH]; intros [|k]; simpl; auto; now destruct i. Qed.
Lemma nth_first {A} (d : A) k l i : (i < k)%nat -> nth i (firstn k l) d = nth i l d.
Proof. revert l i; induction k as [|k IH]; intros [|x l] [|i] H; simpl; auto; try lia. apply IH. lia. Qed.
Lemma npts_nonneg w : 0 <= npts w.
Proof. unfold npts. lia. Qed.

Lemma value_skip w d n : 0 <= d ->
  value (mkTr (no w + d) (skipn (Z.to_nat d) (vals w))) n = if n <? no w + d then None else value w n.
Proof.
  intros D. unfold value. cbn [no vals]. destruct (Z.ltb_spec n (no w + d)) as [?|L]; [reflexivity|].
  destruct (Z.ltb_spec n (no w)); [lia|]. rewrite nth_skip. f_equal. lia.
Qed.
Lemma value_first w k n : value (mkTr (no w) (firstn k (vals w))) n =
  if n <? no w + Z.of_nat k then value w n else None.
Proof.
  unfold value. cbn [no vals]. destruct (Z.ltb_spec n (no w + Z.of_nat k)) as [L|L]; destruct (Z.ltb_spec n (no w)); auto.
  - apply nth_first. lia.
  - apply nth_overflow. rewrite firstn_length. lia.
Qed.

Section Facts.
  Variables (origin delta : Z).
  Hypothesis Dpos : 0 < delta.
  Notation time_no := (time_no origin delta).
  Notation starttime := (starttime origin delta).
  Notation endtime := (endtime origin delta).

  Lemma time_le m n : m <= n <-> time_no m <= time_no n.
  Proof. unfold ReadFiles.time_no. nia. Qed.
  Lemma time_lt m n : m < n <-> time_no m < time_no n.
  Proof. unfold ReadFiles.time_no. nia. Qed.

  Lemma round_near a : 2 * a - delta <= 2 * delta * round_away delta a <= 2 * a + delta.
  Proof.
    unfold round_away. destruct (Z.leb_spec 0 a).
    - pose proof (Z.div_mod (2 * a + delta) (2 * delta) ltac:(lia)).
      pose proof (Z.mod_pos_bound (2 * a + delta) (2 * delta) ltac:(lia)). lia.
    - pose proof (Z.div_mod (2 * - a + delta) (2 * delta) ltac:(lia)).
      pose proof (Z.mod_pos_bound (2 * - a + delta) (2 * delta) ltac:(lia)). lia.
  Qed.

  Definition near_start (s n : Z) : Prop := 2 * s - delta <= 2 * time_no n.
  Definition near_end (e n : Z) : Prop := 2 * time_no n <= 2 * e + delta.

  Lemma ltrim_value s w n v : value (ltrim origin delta s w) n = Some v -> value w n = Some v /\ near_start s n.
  Proof.
    unfold ltrim. pose proof (round_near (s - starttime w)) as R. set (d := round_away _ _) in *. clearbody d.
    unfold ReadFiles.starttime in *.
    destruct (Z.leb_spec d 0) as [L|L].
    - intros H. split; [exact H|]. apply value_range in H. unfold near_start, ReadFiles.time_no in *. nia.
    - rewrite value_skip by lia. destruct (Z.ltb_spec n (no w + d)) as [?|G]; [discriminate|]. intros H. split; [exact H|].
      unfold near_start, ReadFiles.time_no in *. nia.
  Qed.
  Lemma ltrim_keeps s w n v : value w n = Some v -> s <= time_no n -> value (ltrim origin delta s w) n = Some v.
  Proof.
    intros H S. unfold ltrim. pose proof (round_near (s - starttime w)) as R. set (d := round_away _ _) in *. clearbody d.
    unfold ReadFiles.starttime in *. destruct (Z.leb_spec d 0) as [L|L]; [exact H|].
    rewrite value_skip by lia. destruct (Z.ltb_spec n (no w + d)); [|exact H].
    exfalso. unfold ReadFiles.time_no in *. nia.
  Qed.
  Lemma ltrim_bounds s w : 0 < npts (ltrim origin delta s w) ->
    no w <= no (ltrim origin delta s w) /\ end_no (ltrim origin delta s w) = end_no w.
  Proof.
    unfold ltrim. set (d := round_away _ _). destruct (Z.leb_spec d 0) as [L|L]; [lia|].
    unfold end_no, npts. cbn [no vals]. rewrite skipn_length. lia.
  Qed.
  Lemma rtrim_value e w n v : value (rtrim origin delta e w) n = Some v -> value w n = Some v /\ near_end e n.
  Proof.
    unfold rtrim. pose proof (round_near (e - starttime w)) as R. set (r := round_away _ _) in *. clearbody r.
    unfold ReadFiles.starttime in *.
    destruct (Z.leb_spec 0 (r - npts w + 1)) as [L|L].
    - intros H. split; [exact H|]. apply value_range in H. unfold end_no in H. unfold near_end, ReadFiles.time_no in *. nia.
    - destruct (Z.ltb_spec e (time_no (no w))) as [E|E].
      + unfold value. cbn. now destruct (n <? no w), (Z.to_nat (n - no w)).
      + destruct (Z.eqb_spec e (time_no (no w))) as [E'|E']; rewrite value_first;
          match goal with |- context [n <? ?b] => destruct (Z.ltb_spec n b) as [N|N] end; try discriminate; intros H; (split; [exact H|]);
          apply value_range in H; unfold near_end, ReadFiles.time_no in *; nia.
  Qed.
  Lemma rtrim_keeps e w n v : value w n = Some v -> time_no n <= e -> value (rtrim origin delta e w) n = Some v.
  Proof.
    intros H S. pose proof (value_range w n v H) as V.
    unfold rtrim. pose proof (round_near (e - starttime w)) as R. set (r := round_away _ _) in *. clearbody r.
    unfold ReadFiles.starttime in *. unfold end_no in V.
    destruct (Z.leb_spec 0 (r - npts w + 1)) as [L|L]; [exact H|].
    destruct (Z.ltb_spec e (time_no (no w))) as [E|E]; [exfalso; unfold ReadFiles.time_no in *; nia|].
    destruct (Z.eqb_spec e (time_no (no w))) as [E'|E']; rewrite value_first;
      match goal with |- context [n <? ?b] => destruct (Z.ltb_spec n b) as [N|N] end; auto; exfalso.
    - unfold ReadFiles.time_no in *. nia.
    - assert (n - no w <= r) by (unfold ReadFiles.time_no in *; nia). lia.
  Qed.
  Lemma rtrim_bounds e w : 0 < npts (rtrim origin delta e w) ->
    no (rtrim origin delta e w) = no w /\ end_no (rtrim origin delta e w) <= end_no w.
  Proof.
    unfold rtrim. set (r := round_away _ _). clearbody r.
    destruct (0 <=? _); [lia|]. destruct (e <? _); [cbn; lia|].
    destruct (e =? _); unfold end_no, npts; cbn [no vals]; rewrite firstn_length; lia.
  Qed.
  Notation cut := (fun s e w => rtrim origin delta e (ltrim origin delta s w)).
  Lemma cut_bounds s e w : 0 < npts (rtrim origin delta e (ltrim origin delta s w)) ->
    no w <= no (rtrim origin delta e (ltrim origin delta s w)) /\
    end_no (rtrim origin delta e (ltrim origin delta s w)) <= end_no w.
  Proof.
    intros H. destruct (rtrim_bounds e _ H) as [A B].
    assert (P : 0 < npts (ltrim origin delta s w)) by (unfold end_no in *; lia).
    destruct (ltrim_bounds s w P). lia.
  Qed.

  (** ** merging *)
  Variable overlap : trace -> trace -> trace.
  Notation add := (add overlap).
  Notation merge := (merge overlap).

  Lemma add_before a b : before a b -> 0 < npts a ->
    no (add a b) = no a /\ end_no (add a b) = end_no b /\
    (forall n, value (add a b) n = if n <? no b then value a n else value b n).
  Proof.
    unfold before, end_no. intros B P. unfold ReadFiles.add.
    destruct (Z.leb_spec 0 (no b - (no a + npts a))) as [_|?]; [|lia]. cbn [no].
    split; [reflexivity|]. split.
    - unfold npts at 1. cbn [vals]. rewrite !app_length, repeat_length. unfold npts in *. lia.
    - intros n. unfold value. cbn [no vals].
      destruct (Z.ltb_spec n (no a)); destruct (Z.ltb_spec n (no b)); auto; try lia.
      + destruct (Nat.lt_ge_cases (Z.to_nat (n - no a)) (length (vals a))) as [L|L]; [now rewrite app_nth1|].
        rewrite app_nth2 by exact L. rewrite app_nth1 by (rewrite repeat_length; unfold npts in *; lia).
        rewrite nth_repeat. now rewrite nth_overflow.
      + unfold npts in *. rewrite app_nth2 by lia. rewrite app_nth2 by (rewrite repeat_length; lia).
        rewrite repeat_length. f_equal. lia.
  Qed.

  Lemma add_all r : forall w, StronglySorted before (w :: r) -> Forall (fun x => 0 < npts x) (w :: r) ->
    let m := fold_left add r w in
    no m = no w /\ 0 < npts m /\ (exists x, In x (w :: r) /\ end_no x = end_no m) /\
    (forall x, In x (w :: r) -> end_no x <= end_no m) /\
    (forall n v, value m n = Some v <-> exists x, In x (w :: r) /\ value x n = Some v).
  Proof.
    induction r as [|x r IH]; intros w S P; cbn [fold_left].
    - apply Forall_inv in P. split; [reflexivity|]. split; [exact P|]. split; [exists w; cbn; auto|]. split.
      + intros x [<-|[]]. lia.
      + intros n v. split; [intros H; exists w; cbn; auto|]. now intros (x & [<-|[]] & H).
    - pose proof (Forall_inv P) as Pw. pose proof (Forall_inv_tail P) as Pr. pose proof (Forall_inv Pr) as Px.
      inversion S as [|? ? S' F]; subst. pose proof (Forall_inv F) as B. cbn beta in B, Pw, Px.
      destruct (add_before w x B Pw) as (N & E & V).
      assert (Pm : 0 < npts (add w x)) by (unfold before, end_no in *; lia).
      destruct (IH (add w x)) as (I1 & I2 & I3 & I4 & I5).
      { constructor; [now inversion S'|]. inversion S' as [|? ? ? F']; subst.
        eapply Forall_impl; [|exact F']. unfold before. intros y. now rewrite E. }
      { constructor; [exact Pm|]. now apply Forall_inv_tail in Pr. }
      split; [congruence|]. split; [exact I2|]. split; [|split].
      + destruct I3 as (y & [<-|Y] & Q); [exists x; cbn; auto; rewrite <- E; auto|exists y; cbn; auto].
      + intros y [<-|[<-|Y]]; [| |apply I4; cbn; auto].
        * pose proof (I4 _ (or_introl eq_refl)). unfold before, end_no in *. lia.
        * pose proof (I4 _ (or_introl eq_refl)). lia.
      + intros n v. rewrite I5. split.
        * intros (y & [<-|Y] & Q); [|exists y; cbn; auto]. rewrite V in Q.
          destruct (n <? no x); [exists w|exists x]; cbn; auto.
        * intros (y & [<-|[<-|Y]] & Q).
          -- exists (add w x). split; [now left|]. rewrite V. pose proof (value_range _ _ _ Q).
             destruct (Z.ltb_spec n (no x)); [exact Q|unfold before in B; lia].
          -- exists (add w x). split; [now left|]. rewrite V. pose proof (value_range _ _ _ Q).
             destruct (Z.ltb_spec n (no x)); [lia|exact Q].
          -- exists y. split; [now right|exact Q].
  Qed.

  Lemma earlier_total a b : earlier a b = true \/ earlier b a = true.
  Proof. unfold earlier. rewrite !orb_true_iff, !andb_true_iff, !Z.ltb_lt, !Z.eqb_eq, !Z.leb_le. lia. Qed.
  Lemma earlier_trans a b c : earlier a b = true -> earlier b c = true -> earlier a c = true.
  Proof. unfold earlier. rewrite !orb_true_iff, !andb_true_iff, !Z.ltb_lt, !Z.eqb_eq, !Z.leb_le. lia. Qed.

  Lemma pairs_perm (l l' : list trace) : Permutation l l' -> ForallOrdPairs apart l -> ForallOrdPairs apart l'.
  Proof.
    induction 1 as [|x l l' P IH|x y l|l1 l2 l3 P1 IH1 P2 IH2]; intros H; auto.
    - inversion H as [|? ? F G]; subst. constructor; [|auto].
      rewrite Forall_forall in *. intros z Z. apply F. eapply Permutation_in; [symmetry; exact P|exact Z].
    - inversion H as [|? ? F G]; subst. inversion G as [|? ? F' G']; subst.
      constructor; [|constructor; auto].
      + constructor; [|exact F']. apply Forall_inv in F. destruct F; [right|left]; auto.
      + now apply Forall_inv_tail in F.
  Qed.
  Lemma chronological l : StronglySorted (le_rel earlier) l -> ForallOrdPairs apart l -> Forall (fun x => 0 < npts x) l ->
    StronglySorted before l.
  Proof.
    induction 1 as [|x l S IH F]; intros P N; constructor.
    - apply IH; [now inversion P|now apply Forall_inv_tail in N].
    - inversion P as [|? ? A B]; subst. rewrite Forall_forall in *. intros y Y.
      specialize (F y Y). specialize (A y Y). pose proof (N x (or_introl eq_refl)) as Nx. pose proof (N y (or_intror Y)) as Ny. cbn beta in Nx, Ny.
      destruct A as [A|A]; [exact A|]. unfold le_rel, earlier, before, end_no in *.
      rewrite !orb_true_iff, !andb_true_iff, !Z.ltb_lt, !Z.eqb_eq, !Z.leb_le in F. lia.
  Qed.

  Lemma merge_all l : ForallOrdPairs apart l -> Forall (fun x => 0 < npts x) l ->
    (l = [] /\ merge l = []) \/
    exists w, merge l = [w] /\ 0 < npts w /\ (exists x, In x l /\ no x = no w) /\ (exists x, In x l /\ end_no x = end_no w) /\
      (forall n v, value w n = Some v <-> exists x, In x l /\ value x n = Some v).
  Proof.
    intros A N. unfold ReadFiles.merge. pose proof (sort_perm earlier l) as P.
    pose proof (pairs_perm _ _ (Permutation_sym P) A) as A'.
    assert (N' : Forall (fun x => 0 < npts x) (sort earlier l)).
    { rewrite Forall_forall in *. intros x X. apply N. eapply Permutation_in; [exact P|exact X]. }
    pose proof (chronological _ (sort_sorted earlier earlier_total earlier_trans l) A' N') as S.
    assert (I : forall x, In x (sort earlier l) <-> In x l) by (intros; apply sort_in).
    destruct (sort earlier l) as [|w r].
    - left. split; [|reflexivity]. now apply Permutation_nil.
    - right. destruct (add_all r w S N') as (A1 & A2 & (x & X & E) & A4 & A5).
      exists (fold_left add r w). split; [reflexivity|]. split; [exact A2|]. split; [|split].
      + exists w. split; [apply I; now left|congruence].
      + exists x. split; [now apply I|exact E].
      + intros n v. rewrite A5. split; intros (y & Y & Q); exists y; (split; [now apply I|exact Q]).
  Qed.
End Facts.
