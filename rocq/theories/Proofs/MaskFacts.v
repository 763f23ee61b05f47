(** Proofs about Model.Masking. *)
From Coq Require Import QArith.
From Verif Require Import Lib.Base Model.Masking Spec.MaskSpec.
Local Open Scope nat_scope.
#[local] Ltac Zify.zify_post_hook ::= Z.div_mod_to_equations.

Lemma enumerate_nth {A} (l : list A) k : nth_error (enumerate l) k = option_map (fun x => (k, x)) (nth_error l k).
Proof.
  unfold enumerate. assert (G : forall i, nth_error (combine (seq i (length l)) l) k = option_map (fun x => (i + k, x)) (nth_error l k)).
  { revert k. induction l as [|x r IH]; intros [|k] i; cbn; auto.
    - now rewrite Nat.add_0_r.
    - rewrite IH. destruct (nth_error r k); cbn; [|reflexivity]. repeat f_equal. lia. }
  apply G.
Qed.
Lemma enumerate_length {A} (l : list A) : length (enumerate l) = length l.
Proof. unfold enumerate. rewrite combine_length, seq_length. lia. Qed.
Lemma set_true_nth lo hi m k : nth_error (set_true lo hi m) k =
  option_map (fun b => ((lo <=? Z.of_nat k)%Z && (Z.of_nat k <? hi)%Z) || b) (nth_error m k).
Proof. unfold set_true. rewrite nth_error_map, enumerate_nth. now destruct (nth_error m k). Qed.

Section MaskAt.
  Variables (start delta : Z) (n : nat).
  Hypothesis (Hd : (0 < delta)%Z).
  Notation tend := (tr_end start delta n).
  Notation time := (sample_time start delta).

  Lemma fold_nth (c : Z * Z -> bool) (lo hi : Z * Z -> Z) ints m k :
    nth_error (fold_left (fun m x => if c x then set_true (lo x) (hi x) m else m) ints m) k =
    option_map (fun b => existsb (fun x => c x && ((lo x <=? Z.of_nat k)%Z && (Z.of_nat k <? hi x)%Z)) ints || b) (nth_error m k).
  Proof.
    revert m. induction ints as [|x r IH]; intros m; cbn [fold_left existsb].
    - destruct (nth_error m k); reflexivity.
    - rewrite IH. destruct (c x); [rewrite set_true_nth|]; destruct (nth_error m k); cbn; try reflexivity.
      f_equal. destruct ((lo x <=? Z.of_nat k)%Z && (Z.of_nat k <? hi x)%Z), (existsb _ r); reflexivity.
  Qed.

  Lemma mask_nth ints rv k : k < n -> nth_error (mask_at start delta n ints rv) k = Some (xorb rv
    (existsb (fun x =>
       (inside start delta n (fst x) && inside start delta n (snd x) && ((ns_of start delta (fst x) <=? Z.of_nat k)%Z && (Z.of_nat k <? ne_of start delta (snd x))%Z)) ||
       (inside start delta n (fst x) && negb (inside start delta n (snd x)) && ((ns_of start delta (fst x) <=? Z.of_nat k)%Z && (Z.of_nat k <? Z.of_nat n)%Z)) ||
       (negb (inside start delta n (fst x)) && inside start delta n (snd x) && ((0 <=? Z.of_nat k)%Z && (Z.of_nat k <? ne_of start delta (snd x))%Z))) ints)).
  Proof.
    intros K. unfold mask_at.
    set (m1 := fold_left _ ints (repeat false n)). set (m2 := fold_left _ ints m1). set (m3 := fold_left _ ints m2).
    assert (E : nth_error m3 k = Some (existsb (fun x =>
       (inside start delta n (fst x) && inside start delta n (snd x) && ((ns_of start delta (fst x) <=? Z.of_nat k)%Z && (Z.of_nat k <? ne_of start delta (snd x))%Z)) ||
       (inside start delta n (fst x) && negb (inside start delta n (snd x)) && ((ns_of start delta (fst x) <=? Z.of_nat k)%Z && (Z.of_nat k <? Z.of_nat n)%Z)) ||
       (negb (inside start delta n (fst x)) && inside start delta n (snd x) && ((0 <=? Z.of_nat k)%Z && (Z.of_nat k <? ne_of start delta (snd x))%Z))) ints)).
    { unfold m3. rewrite (fold_nth _ (fun _ => 0%Z) (fun x => ne_of start delta (snd x))).
      unfold m2. rewrite (fold_nth _ (fun x => ns_of start delta (fst x)) (fun _ => Z.of_nat n)).
      unfold m1. rewrite (fold_nth _ (fun x => ns_of start delta (fst x)) (fun x => ne_of start delta (snd x))).
      rewrite nth_error_repeat by exact K. cbn [option_map]. f_equal.
      induction ints as [|x r IH]; [reflexivity|]. cbn [existsb]. rewrite <- IH. clear.
      repeat match goal with |- context [existsb ?f r] => generalize (existsb f r); intro end.
      repeat match goal with |- context [?a && (?b && ?c)] => generalize (a && (b && c)); intro end.
      repeat match goal with b : bool |- _ => destruct b end; reflexivity. }
    clearbody m3. destruct rv; [rewrite nth_error_map|]; rewrite E; cbn [option_map]; f_equal; destruct (existsb _ ints); reflexivity.
  Qed.

  (** the limits in terms of times *)
  Lemma ns_le s k : (ns_of start delta s <=? Z.of_nat k)%Z = (s - delta <? time k)%Z.
  Proof.
    unfold ns_of, sample_time. apply eq_iff_eq_true. rewrite Z.leb_le, Z.ltb_lt. split; intros.
    - pose proof (Z.mul_succ_div_gt (s - start) delta Hd). nia.
    - pose proof (Z.mul_div_le (s - start) delta Hd). nia.
  Qed.
  Lemma ne_gt e k : (Z.of_nat k <? ne_of start delta e)%Z = (time k <? e + delta)%Z.
  Proof.
    unfold ne_of, sample_time. apply eq_iff_eq_true. rewrite !Z.ltb_lt. split; intros.
    - pose proof (Z.mul_succ_div_gt (- (e - start)) delta Hd). pose proof (Z.mul_div_le (- (e - start)) delta Hd). nia.
    - pose proof (Z.mul_succ_div_gt (- (e - start)) delta Hd). pose proof (Z.mul_div_le (- (e - start)) delta Hd). nia.
  Qed.
  Lemma time_le_end k : k < n -> (start <= time k <= tend)%Z.
  Proof. intros K. unfold sample_time, tr_end. nia. Qed.

  Lemma mask_at_spec ints k : k < n -> (forall s e, In (s, e) ints -> (s <= e)%Z) ->
    forall b, nth_error (mask_at start delta n ints false) k = Some b ->
    (b = true <-> exists s e, In (s, e) ints /\ ((start < s < tend)%Z \/ (start < e < tend)%Z) /\
                    (s - delta < time k < e + delta)%Z).
  Proof.
    intros K O b B. rewrite mask_nth in B by exact K. match type of B with Some (xorb false ?x) = _ => assert (B' : x = b) by (destruct x; cbn in B; congruence) end. subst b. clear B.
    pose proof (time_le_end k K) as T. rewrite existsb_exists. split.
    - intros ([s e] & I & H). exists s, e. specialize (O s e I). cbn [fst snd] in H. rewrite ns_le, ne_gt in H. unfold inside in H.
      rewrite !orb_true_iff, !andb_true_iff, !negb_true_iff, !andb_false_iff, !Z.ltb_lt, !Z.ltb_ge in H.
      split; [exact I|]. split; [lia|]. lia.
    - intros (s & e & I & H & R). specialize (O s e I). exists (s, e). split; [exact I|]. cbn [fst snd]. rewrite ns_le, ne_gt. unfold inside.
      rewrite !orb_true_iff, !andb_true_iff, !negb_true_iff, !andb_false_iff, !Z.ltb_lt, !Z.ltb_ge, Z.leb_le. lia.
  Qed.
  Lemma mask_at_length ints rv : length (mask_at start delta n ints rv) = n.
  Proof.
    assert (F : forall (c : Z * Z -> bool) (lo hi : Z * Z -> Z) l m, length (fold_left (fun m x => if c x then set_true (lo x) (hi x) m else m) l m) = length m).
    { intros c lo hi l. induction l as [|x r IH]; intros m; cbn; [reflexivity|]. rewrite IH. destruct (c x); [|reflexivity].
      unfold set_true. now rewrite map_length, enumerate_length. }
    unfold mask_at. destruct rv; rewrite ?map_length;
    rewrite (F _ (fun _ => 0%Z) (fun x => ne_of start delta (snd x))), (F _ (fun x => ns_of start delta (fst x)) (fun _ => Z.of_nat n)),
      (F _ (fun x => ns_of start delta (fst x)) (fun x => ne_of start delta (snd x))); apply repeat_length.
  Qed.
  Lemma mask_at_reverse ints : mask_at start delta n ints true = map negb (mask_at start delta n ints false).
  Proof. reflexivity. Qed.
  (** an interval that covers the whole trace masks nothing *)
  Lemma mask_covering s e k : (s <= start)%Z -> (tend <= e)%Z -> k < n ->
    nth_error (mask_at start delta n [(s, e)] false) k = Some false.
  Proof.
    intros A B K. rewrite mask_nth by exact K. cbn [existsb fst snd]. unfold inside.
    replace (start <? s)%Z with false by lia. replace (e <? tend)%Z with false by lia.
    rewrite !andb_false_r. reflexivity.
  Qed.
End MaskAt.

(** ** gaps *)
Fixpoint conc (p : bool) (m : list bool) : list bool :=
  match m with [] => [true] | x :: r => xorb p x :: conc x r end.
Lemma maskconc_conc m : m <> [] -> maskconc m = conc false m.
Proof.
  destruct m as [|b r]; [contradiction|]. intros _. unfold maskconc. cbn [hd tl app].
  assert (G : forall x q, map2 xorb (x :: q) q ++ [true] = conc x q).
  { intros x q. revert x. induction q as [|y q IH]; intros x; [reflexivity|].
    change (map2 xorb (x :: y :: q) (y :: q)) with (xorb x y :: map2 xorb (y :: q) q). cbn [app conc]. f_equal. apply IH. }
  cbn [conc]. rewrite G. now destruct b.
Qed.
Fixpoint starts_from (p : bool) (i : nat) (m : list bool) : list nat :=
  match m with [] => [] | x :: r => if xorb p x && x then i :: starts_from x (S i) r else starts_from x (S i) r end.
Lemma maskstart_eq m : m <> [] -> maskstart m = starts_from false 0 m.
Proof.
  intros N. unfold maskstart. rewrite maskconc_conc by exact N. clear N.
  generalize 0. generalize false. induction m as [|x r IH]; intros p i; [reflexivity|].
  assert (E : removelast (conc p (x :: r)) = xorb p x :: removelast (conc x r)).
  { cbn [conc]. destruct (conc x r) eqn:Q; [destruct r; discriminate|reflexivity]. }
  rewrite E. cbn [map2 where_from starts_from]. rewrite IH. reflexivity.
Qed.
Fixpoint runs (st : option nat) (i : nat) (m : list bool) : list (nat * nat) :=
  match m with
  | [] => match st with Some s => [(s, i - s)] | None => [] end
  | x :: r => match st with
              | None => if x then runs (Some i) (S i) r else runs None (S i) r
              | Some s => if x then runs (Some s) (S i) r else (s, i - s) :: runs None (S i) r
              end
  end.
Lemma conc_where_nonempty m p i : where_from i (conc p m) <> [].
Proof.
  revert p i. induction m as [|x r IH]; intros p i; cbn; [discriminate|]. destruct (xorb p x); [discriminate|apply IH].
Qed.
Lemma gaps_runs m : forall i,
  combine (starts_from false i m) (every_other (diff (where_from i (conc false m)))) = runs None i m /\
  forall s, combine (s :: starts_from true i m) (every_other (diff (s :: where_from i (conc true m)))) = runs (Some s) i m.
Proof.
  induction m as [|x r IH]; intros i.
  - split; [reflexivity|]. intros s. reflexivity.
  - destruct (IH (S i)) as [A B]. split.
    + cbn [starts_from conc runs]. destruct x; cbn [xorb andb where_from]; [apply B|exact A].
    + intros s. cbn [starts_from conc runs]. destruct x; cbn [xorb andb where_from]; [apply B|].
      pose proof (conc_where_nonempty r false (S i)) as N.
      destruct (where_from (S i) (conc false r)) as [|w W] eqn:E; [contradiction|].
      change (diff (s :: i :: w :: W)) with ((i - s) :: (w - i) :: diff (w :: W)).
      change (every_other ((i - s) :: (w - i) :: diff (w :: W))) with ((i - s) :: every_other (diff (w :: W))).
      cbn [combine]. f_equal. exact A.
Qed.
Lemma gaps_eq m : m <> [] -> combine (maskstart m) (masklen_of m) = runs None 0 m.
Proof.
  intros N. unfold masklen_of. rewrite maskstart_eq, maskconc_conc by exact N. apply gaps_runs.
Qed.

(** runs are the maximal runs of true *)
Definition bgap (m : list bool) (s n : nat) : Prop :=
  0 < n /\ s + n <= length m /\ (forall i, s <= i < s + n -> nth_error m i = Some true) /\
  (s = 0 \/ nth_error m (s - 1) = Some false) /\ (s + n = length m \/ nth_error m (s + n) = Some false).
Definition st_ok (mk : list bool) (st : option nat) (i : nat) : Prop :=
  match st with
  | None => i = 0 \/ nth_error mk (i - 1) = Some false
  | Some s => s < i /\ (forall k, s <= k < i -> nth_error mk k = Some true) /\ (s = 0 \/ nth_error mk (s - 1) = Some false)
  end.
Lemma skipn_cons_nth {A} (l : list A) i x r : skipn i l = x :: r -> nth_error l i = Some x /\ skipn (S i) l = r.
Proof. revert i. induction l as [|y l IH]; intros [|i] E; cbn in *; try discriminate. - injection E as <- <-. auto. - now apply IH. Qed.
Lemma runs_sound mk : forall m i st, skipn i mk = m -> i <= length mk -> st_ok mk st i ->
  (forall s n, In (s, n) (runs st i m) -> bgap mk s n) /\
  (forall k, nth_error mk k = Some true -> (match st with Some s => s | None => i end) <= k ->
     exists s n, In (s, n) (runs st i m) /\ s <= k < s + n).
Proof.
  induction m as [|x r IH]; intros i st E L S0.
  - assert (i = length mk). { assert (length (skipn i mk) = 0) by now rewrite E. rewrite skipn_length in H. lia. } subst i.
    destruct st as [s|]; cbn [runs].
    + destruct S0 as (S1 & S2 & S3). split.
      * intros s' n' [X|[]]. injection X as <- <-. unfold bgap.
        split; [lia|]. split; [lia|]. split; [intros k K; apply S2; lia|]. split; [exact S3|left; lia].
      * intros k K Ks. exists s, (length mk - s). split; [now left|].
        assert (k < length mk) by (apply nth_error_Some; congruence). lia.
    + split; [intros ? ? []|]. intros k K Ki. assert (k < length mk) by (apply nth_error_Some; congruence). lia.
  - apply skipn_cons_nth in E as [N E]. assert (Li : i < length mk) by (apply nth_error_Some; congruence).
    destruct st as [s|]; cbn [runs]; destruct x.
    + destruct S0 as (S1 & S2 & S3). destruct (IH (S i) (Some s) E ltac:(lia)) as [A B].
      { split; [lia|]. split; [|exact S3]. intros k K. destruct (Nat.eq_dec k i); [subst; exact N|apply S2; lia]. }
      split; [exact A|]. intros k K Ks. apply B; auto.
    + destruct S0 as (S1 & S2 & S3). destruct (IH (S i) None E ltac:(lia)) as [A B].
      { right. replace (S i - 1) with i by lia. exact N. }
      split.
      * intros s' n' [X|X]; [|exact (A _ _ X)]. injection X as <- <-. unfold bgap.
        split; [lia|]. split; [lia|]. split; [intros k K; apply S2; lia|]. split; [exact S3|right].
        replace (s + (i - s)) with i by lia. exact N.
      * intros k K Ks. destruct (Nat.lt_ge_cases k i).
        -- exists s, (i - s). split; [now left|lia].
        -- assert (k <> i) by (intros ->; congruence). destruct (B k K) as (s' & n' & I & R); [lia|].
           exists s', n'. split; [now right|exact R].
    + destruct (IH (S i) (Some i) E ltac:(lia)) as [A B].
      { split; [lia|]. split; [intros k K; replace k with i by lia; exact N|exact S0]. }
      split; [exact A|]. intros k K Ki. apply B; auto.
    + destruct (IH (S i) None E ltac:(lia)) as [A B].
      { right. replace (S i - 1) with i by lia. exact N. }
      split; [exact A|]. intros k K Ki. assert (k <> i) by (intros ->; congruence). apply B; [exact K|lia].
Qed.
Lemma bgap_unique m s n s' n' k : bgap m s n -> bgap m s' n' -> s <= k < s + n -> s' <= k < s' + n' -> s = s' /\ n = n'.
Proof.
  intros (P & L & I & A & B) (P' & L' & I' & A' & B') K K'.
  assert (s = s').
  { destruct (Nat.lt_trichotomy s s') as [H|[H|H]]; [|exact H|].
    - destruct A' as [A'|A']; [lia|]. rewrite I in A' by lia. discriminate.
    - destruct A as [A|A]; [lia|]. rewrite I' in A by lia. discriminate. }
  subst s'. split; [reflexivity|].
  destruct (Nat.lt_trichotomy n n') as [H|[H|H]]; [|exact H|].
  - destruct B as [B|B]; [lia|]. rewrite I' in B by lia. discriminate.
  - destruct B' as [B'|B']; [lia|]. rewrite I in B' by lia. discriminate.
Qed.

Notation miss := (fun o : option Q => negb (is_some o)).
Lemma is_gap_bgap l s n : is_gap l s n <-> bgap (map miss l) s n.
Proof.
  unfold is_gap, bgap. rewrite map_length.
  assert (T : forall i, nth_error (map miss l) i = Some true <-> nth_error l i = Some None).
  { intros i. rewrite nth_error_map. destruct (nth_error l i) as [[v|]|]; cbn; split; intros; congruence. }
  assert (F : forall i, nth_error (map miss l) i = Some false <-> exists v, nth_error l i = Some (Some v)).
  { intros i. rewrite nth_error_map. destruct (nth_error l i) as [[v|]|]; cbn; split; intros H; try discriminate; try (destruct H; discriminate); eauto. }
  rewrite !F. split; intros (A & B & C & D); (split; [exact A|split; [exact B|split; [|exact D]]]); intros i H; apply T; auto.
Qed.

Lemma set_seg_nth A s len f k : nth_error (set_seg A s len f) k =
  option_map (fun o => if (s <=? k) && (k <? s + len) then f k else o) (nth_error A k).
Proof. unfold set_seg. rewrite nth_error_map, enumerate_nth. now destruct (nth_error A k). Qed.
Lemma set_seg_length A s len f : length (set_seg A s len f) = length A.
Proof. unfold set_seg. now rewrite map_length, enumerate_length. Qed.

(** the loop over the gaps *)
Lemma fill_loop (f : nat -> option Q) (mx : Z) gs : forall A,
  exists A', fold_left (fun acc g => do A <- acc; if (mx <? Z.of_nat (snd g))%Z then Ok A else Ok (set_seg A (fst g) (snd g) f)) gs (Ok A) = Ok A' /\
    length A' = length A /\
    forall k o, nth_error A k = Some o ->
      nth_error A' k = Some (if existsb (fun g => negb (mx <? Z.of_nat (snd g))%Z && ((fst g <=? k) && (k <? fst g + snd g))) gs then f k else o).
Proof.
  induction gs as [|g r IH]; intros A.
  - exists A. cbn. auto.
  - cbn [fold_left bind existsb]. destruct (mx <? Z.of_nat (snd g))%Z; cbn [negb andb orb].
    + apply IH.
    + destruct (IH (set_seg A (fst g) (snd g) f)) as (A' & E & L & N). exists A'. split; [exact E|].
      split; [now rewrite L, set_seg_length|]. intros k o K.
      rewrite (N k (if (fst g <=? k) && (k <? fst g + snd g) then f k else o)) by (rewrite set_seg_nth, K; reflexivity).
      destruct ((fst g <=? k) && (k <? fst g + snd g)), (existsb _ r); reflexivity.
Qed.
Lemma fill_raise (mx : Z) gs (e : exc) : forall A : list (option Q),
  fold_left (fun acc g => do A <- acc; if (mx <? Z.of_nat (snd g))%Z then Ok A else Raise e) gs (Ok A) =
  if existsb (fun g : nat * nat => negb (mx <? Z.of_nat (snd g))%Z) gs then Raise e else Ok A.
Proof.
  induction gs as [|g r IH]; intros A; [reflexivity|]. cbn [fold_left bind existsb].
  destruct (mx <? Z.of_nat (snd g))%Z; cbn [negb orb]; [apply IH|].
  clear. induction r as [|h r IH]; [reflexivity|]. cbn. exact IH.
Qed.

(** interpolation between the neighbours *)
Lemma known_from_app l1 l2 : forall i,
  flat_map (fun x => match snd x with Some v => [(fst x, v)] | None => [] end) (combine (seq i (length (l1 ++ l2))) (l1 ++ l2)) =
  flat_map (fun x => match snd x with Some v => [(fst x, v : Q)] | None => [] end) (combine (seq i (length l1)) l1) ++
  flat_map (fun x => match snd x with Some v => [(fst x, v)] | None => [] end) (combine (seq (i + length l1) (length l2)) l2).
Proof.
  induction l1 as [|x r IH]; intros i; cbn.
  - now rewrite Nat.add_0_r.
  - rewrite IH. replace (i + S (length r)) with (S i + length r) by lia. now rewrite app_assoc.
Qed.
Notation known_from i l := (flat_map (fun x => match snd x with Some v => [(fst x, v : Q)] | None => [] end) (combine (seq i (length l)) l)).
Lemma known_from_in l i k v : In (k, v) (known_from i l) <-> i <= k /\ nth_error l (k - i) = Some (Some v).
Proof.
  revert i. induction l as [|x r IH]; intros i; cbn [length seq combine flat_map].
  - cbn. split; [tauto|]. intros [_ H]. destruct (k - i); discriminate.
  - rewrite in_app_iff, IH. cbn [snd fst]. split.
    + intros [H|[H1 H2]].
      * destruct x as [w|]; [|destruct H]. destruct H as [H|[]]. injection H as <- <-. split; [lia|]. now rewrite Nat.sub_diag.
      * split; [lia|]. replace (k - i) with (S (k - S i)) by lia. exact H2.
    + intros [H1 H2]. destruct (Nat.eq_dec k i) as [->|N].
      * left. rewrite Nat.sub_diag in H2. cbn in H2. injection H2 as ->. now left.
      * right. split; [lia|]. replace (k - i) with (S (k - S i)) in H2 by lia. exact H2.
Qed.
Lemma known_nones i n : known_from i (repeat (@None Q) n) = [].
Proof. revert i. induction n as [|n IH]; intros i; cbn; [reflexivity|apply IH]. Qed.

Lemma interp_mid P i a j b R x : (forall p, In p P -> fst p <= i) -> i < x -> x < j ->
  interp (P ++ (i, a) :: (j, b) :: R) x = Some (line i a j b x).
Proof.
  intros H X J. induction P as [|[k c] P IH].
  - cbn [app interp]. replace (x <? i) with false by (symmetry; apply Nat.ltb_ge; lia). replace (x <=? j) with true by (symmetry; apply Nat.leb_le; lia). reflexivity.
  - assert (Hk : k <= i) by exact (H (k, c) (or_introl eq_refl)).
    assert (IH' := IH (fun p Hp => H p (or_intror Hp))).
    cbn [app]. destruct (P ++ (i, a) :: (j, b) :: R) as [|[k' c'] Q'] eqn:E; [destruct P; discriminate|].
    assert (Hk' : k' <= i).
    { destruct P as [|p0 P']; cbn in E; injection E; intros _ E1; [inversion E1; subst; lia|]. subst p0.
      exact (H (k', c') (or_intror (or_introl eq_refl))). }
    cbn [interp]. cbn [interp] in IH'.
    replace (x <? k) with false by (symmetry; apply Nat.ltb_ge; lia).
    replace (x <=? k') with false by (symmetry; apply Nat.leb_gt; lia). exact IH'.
Qed.
Lemma interp_left P x : (forall p, In p P -> x < fst p) -> interp P x = None.
Proof.
  intros H. destruct P as [|[i a] [|[j b] r]]; [reflexivity| |].
  - cbn [interp]. specialize (H _ (or_introl eq_refl)). cbn in H. replace (x =? i) with false by (symmetry; apply Nat.eqb_neq; lia). reflexivity.
  - cbn [interp]. specialize (H _ (or_introl eq_refl)). cbn in H. replace (x <? i) with true by (symmetry; apply Nat.ltb_lt; lia). reflexivity.
Qed.
Lemma interp_right P x : (forall p, In p P -> fst p < x) -> interp P x = None.
Proof.
  induction P as [|[i a] r IH]; intros H; [reflexivity|]. pose proof (H _ (or_introl eq_refl)) as Hi. cbn in Hi.
  assert (IH' := IH (fun p Hp => H p (or_intror Hp))).
  destruct r as [|[j b] r].
  - cbn [app interp]. replace (x =? i) with false by (symmetry; apply Nat.eqb_neq; lia). reflexivity.
  - pose proof (H _ (or_intror (or_introl eq_refl))) as Hj. cbn in Hj. cbn [interp].
    replace (x <? i) with false by (symmetry; apply Nat.ltb_ge; lia). replace (x <=? j) with false by (symmetry; apply Nat.leb_gt; lia).
    exact IH'.
Qed.
Lemma line_on i a j b x : i < j -> on_line i a j b x (line i a j b x).
Proof.
  intros H. unfold on_line, line.
  assert (N : ~ (inject_Z (Z.of_nat j - Z.of_nat i) == 0)%Q) by (unfold Qeq; cbn; lia).
  field. exact N.
Qed.
Lemma nones_repeat {A} (l : list (option A)) n : length l = n -> (forall i, i < n -> nth_error l i = Some None) -> l = repeat None n.
Proof.
  revert n. induction l as [|x r IH]; intros n L H; cbn in L; subst n; [reflexivity|].
  pose proof (H 0 ltac:(cbn; lia)) as H0. cbn in H0. injection H0 as ->. cbn [repeat length]. f_equal.
  apply IH; [reflexivity|]. intros i Hi. apply (H (S i)). cbn. lia.
Qed.
Lemma nth_error_firstn' {A} (l : list A) n i : i < n -> nth_error (firstn n l) i = nth_error l i.
Proof. revert n i. induction l as [|x r IH]; intros [|n] [|i] H; cbn; auto; try lia. apply IH. lia. Qed.
Lemma nth_error_skipn' {A} (l : list A) n i : nth_error (skipn n l) i = nth_error l (n + i).
Proof. revert n. induction l as [|x r IH]; intros [|n]; cbn; auto. now destruct i. Qed.

Lemma interp_gap l s n a b x : is_gap l s n -> 0 < s -> nth_error l (s - 1) = Some (Some a) ->
  nth_error l (s + n) = Some (Some b) -> s <= x < s + n ->
  interp (known l) x = Some (line (s - 1) a (s + n) b x).
Proof.
  intros (P & L & I & _ & _) S0 A B X.
  assert (Ln : s + n < length l) by (apply nth_error_Some; congruence).
  (* l = l1 ++ [Some a] ++ repeat None n ++ [Some b] ++ l2 *)
  assert (E : l = firstn (s - 1) l ++ [Some a] ++ repeat None n ++ [Some b] ++ skipn (s + n + 1) l).
  { rewrite <- (firstn_skipn (s - 1) l) at 1. f_equal.
    assert (forall m (q : list (option Q)) v, nth_error q m = Some v -> skipn m q = v :: skipn (S m) q) as SK.
    { clear. induction m as [|m IH]; intros [|y q] v H; cbn in *; try discriminate; [congruence|]. rewrite (IH q v H). reflexivity. }
    rewrite (SK _ _ _ A). cbn [app]. f_equal. replace (S (s - 1)) with s by lia.
    rewrite <- (firstn_skipn n (skipn s l)). f_equal.
    - apply nones_repeat; [rewrite firstn_length, skipn_length; lia|]. intros i Hi.
      rewrite nth_error_firstn' by exact Hi. rewrite nth_error_skipn'. apply I. lia.
    - assert (SS : skipn n (skipn s l) = skipn (s + n) l).
      { clear. revert s. induction l as [|y q IH]; intros s; [now rewrite !skipn_nil|]. destruct s; [reflexivity|]. cbn. apply IH. }
      rewrite SS, (SK _ _ _ B). replace (S (s + n)) with (s + n + 1) by lia. reflexivity. }
  unfold known, enumerate. set (l1 := firstn (s - 1) l) in *. set (l2 := skipn (s + n + 1) l) in *.
  assert (L1 : length l1 = s - 1) by (unfold l1; rewrite firstn_length; lia).
  rewrite E. rewrite !known_from_app. rewrite known_nones. rewrite L1. cbn [length app].
  cbn [seq combine flat_map snd fst app]. rewrite repeat_length.
  replace (0 + (s - 1)) with (s - 1) by lia. replace (s - 1 + 1 + n) with (s + n) by lia.
  apply interp_mid; [|lia|lia]. intros [k v] Hk. rewrite <- L1 in Hk. apply known_from_in in Hk as [_ Hk].
  assert (k - 0 < length l1) by (apply nth_error_Some; congruence). cbn. lia.
Qed.

Theorem interpolate_gaps_spec max l l' : interpolate_gaps max l = Ok l' ->
  length l' = length l /\
  (forall i v, nth_error l i = Some (Some v) -> nth_error l' i = Some (Some v)) /\
  (forall s n, is_gap l s n -> forall x, s <= x < s + n ->
     (short max n -> forall a b, 0 < s -> nth_error l (s - 1) = Some (Some a) -> nth_error l (s + n) = Some (Some b) ->
        exists v, nth_error l' x = Some (Some v) /\ on_line (s - 1) a (s + n) b x v) /\
     (s = 0 \/ s + n = length l \/ ~ short max n -> nth_error l' x = Some None)).
Proof.
  unfold interpolate_gaps. set (mask := map miss l).
  destruct (existsb (fun b => b) mask) eqn:EX; cbn [negb].
  2:{ intros H. injection H as <-. split; [reflexivity|]. split; [auto|]. intros s n G x X.
      exfalso. assert (existsb (fun b => b) mask = true); [|congruence]. apply existsb_exists. exists true. split; [|reflexivity].
      apply (nth_error_In mask x). apply is_gap_bgap in G. destruct G as (_ & _ & G & _). now apply G. }
  assert (NE : mask <> []) by (intros C; rewrite C in EX; discriminate).
  rewrite (gaps_eq mask NE).
  destruct (runs_sound mask mask 0 None eq_refl ltac:(lia) ltac:(now left)) as [RS RC].
  set (mx := if (max =? -1)%Z then Z.of_nat (length l) else max).
  assert (SH : forall s n, is_gap l s n -> (mx <? Z.of_nat n)%Z = false <-> short max n).
  { intros s n (_ & L & _). unfold mx, short. destruct (Z.eqb_spec max (-1)); rewrite Z.ltb_ge; lia. }
  destruct (known l) as [|p0 P0] eqn:KN.
  - (* nothing known *)
    rewrite fill_raise. destruct (existsb _ (runs None 0 mask)) eqn:Q; [intros H; discriminate H|]. intros H. injection H as <-.
    split; [reflexivity|]. split; [auto|]. intros s n G x X. split.
    + intros _ a b S0 A. exfalso. assert (I : In (s - 1, a) (known l)).
      { unfold known, enumerate. apply known_from_in. rewrite Nat.sub_0_r. split; [lia|exact A]. }
      rewrite KN in I. destruct I.
    + intros _. destruct G as (_ & _ & G & _). now apply G.
  - rewrite <- KN. destruct (fill_loop (interp (known l)) mx (runs None 0 mask) l) as (A' & E & L & N).
    rewrite E. intros H. injection H as <-. split; [exact L|].
    assert (GIN : forall s n, is_gap l s n -> In (s, n) (runs None 0 mask)).
    { intros s n G. apply is_gap_bgap in G. pose proof G as (P & _ & I & _).
      destruct (RC s) as (s' & n' & R & X); [apply I; lia|lia|].
      destruct (bgap_unique mask s n s' n' s G (RS _ _ R) ltac:(lia) X) as [-> ->]. exact R. }
    split.
    + intros i v V. rewrite (N i _ V). destruct (existsb _ (runs None 0 mask)) eqn:Q; [|reflexivity]. exfalso.
      apply existsb_exists in Q as ([s n] & R & C). cbn [fst snd] in C. rewrite !andb_true_iff, Nat.leb_le, Nat.ltb_lt in C.
      apply RS in R. apply is_gap_bgap in R. destruct R as (_ & _ & R & _). rewrite R in V by lia. discriminate.
    + intros s n G x X. pose proof (GIN s n G) as GI. pose proof G as (P & Ls & I & B1 & B2).
      assert (EXB : existsb (fun g => negb (mx <? Z.of_nat (snd g))%Z && ((fst g <=? x) && (x <? fst g + snd g))) (runs None 0 mask) = negb (mx <? Z.of_nat n)%Z).
      { apply eq_iff_eq_true. rewrite existsb_exists. split.
        - intros ([s' n'] & R & C). cbn [fst snd] in C. rewrite !andb_true_iff, Nat.leb_le, Nat.ltb_lt in C.
          apply is_gap_bgap in G. destruct (bgap_unique mask s n s' n' x G (RS _ _ R) X ltac:(lia)) as [-> ->]. tauto.
        - intros C. exists (s, n). split; [exact GI|]. cbn [fst snd]. rewrite C. cbn [andb].
          apply andb_true_iff. rewrite Nat.leb_le, Nat.ltb_lt. exact X. }
      rewrite (N x None) by (apply I; exact X). rewrite EXB. split.
      * intros SHn a b S0 A B. apply (SH s n G) in SHn. rewrite SHn. cbn [negb].
        rewrite (interp_gap l s n a b x G S0 A B X). eexists. split; [reflexivity|]. apply line_on. lia.
      * intros C. destruct (mx <? Z.of_nat n)%Z eqn:Q; cbn [negb]; [reflexivity|]. f_equal.
        destruct C as [C|[C|C]].
        -- subst s. apply interp_left. intros [k v] K. cbn. unfold known, enumerate in K. apply known_from_in in K as [_ K].
           rewrite Nat.sub_0_r in K. destruct (Nat.lt_ge_cases x k); [assumption|]. rewrite I in K by lia. discriminate.
        -- apply interp_right. intros [k v] K. cbn. unfold known, enumerate in K. apply known_from_in in K as [_ K].
           rewrite Nat.sub_0_r in K. assert (k < length l) by (apply nth_error_Some; congruence).
           destruct (Nat.lt_ge_cases k x); [assumption|]. rewrite I in K by lia. discriminate.
        -- exfalso. apply C. now apply (SH s n G).
Qed.

Lemma short_dec max n : short max n \/ ~ short max n.
Proof. unfold short. destruct (Z.eq_dec max (-1)), (Z_le_gt_dec (Z.of_nat n) max); try (left; lia). right. lia. Qed.

(** the call fails exactly when every sample is missing and the gap is not too long *)
Theorem interpolate_gaps_fails max l e : interpolate_gaps max l = Raise e <->
  e = ValueError /\ l <> [] /\ (forall o, In o l -> o = None) /\ short max (length l).
Proof.
  unfold interpolate_gaps. set (mask := map miss l).
  destruct (existsb (fun b => b) mask) eqn:EX; cbn [negb].
  2:{ split; [discriminate|]. intros (_ & NE & H & _). exfalso. destruct l as [|o r]; [contradiction|].
      unfold mask in EX. cbn [map existsb] in EX. rewrite (H o) in EX by now left. discriminate. }
  assert (NE : mask <> []) by (intros C; rewrite C in EX; discriminate).
  assert (NL : l <> []) by (intros ->; now apply NE).
  rewrite (gaps_eq mask NE).
  destruct (runs_sound mask mask 0 None eq_refl ltac:(lia) ltac:(now left)) as [RS RC].
  set (mx := if (max =? -1)%Z then Z.of_nat (length l) else max).
  assert (SH : forall n, n <= length l -> (mx <? Z.of_nat n)%Z = false <-> short max n).
  { intros n L. unfold mx, short. destruct (Z.eqb_spec max (-1)); rewrite Z.ltb_ge; lia. }
  assert (KALL : known l = [] <-> forall o, In o l -> o = None).
  { split.
    - intros K o O. destruct o as [v|]; [|reflexivity]. apply In_nth_error in O as [i O].
      assert (I : In (i, v) (known l)) by (unfold known, enumerate; apply known_from_in; rewrite Nat.sub_0_r; split; [lia|exact O]).
      rewrite K in I. destruct I.
    - intros H. destruct (known l) as [|[i v] r] eqn:K; [reflexivity|].
      assert (I : In (i, v) (known l)) by (rewrite K; now left). unfold known, enumerate in I. apply known_from_in in I as [_ I].
      apply nth_error_In in I. apply H in I. discriminate. }
  destruct (known l) as [|p0 P0] eqn:KN.
  - pose proof (proj1 KALL eq_refl) as ALL. rewrite fill_raise.
    assert (LL : 0 < length l) by (destruct l; [contradiction|cbn; lia]).
    assert (G : is_gap l 0 (length l)).
    { split; [exact LL|]. split; [lia|]. split; [|split; left; lia].
      intros i Hi. destruct (nth_error l i) as [o|] eqn:O; [|apply nth_error_None in O; lia].
      rewrite (ALL o) by (eapply nth_error_In; eauto). reflexivity. }
    assert (EQ : existsb (fun g => negb (mx <? Z.of_nat (snd g))%Z) (runs None 0 mask) = negb (mx <? Z.of_nat (length l))%Z).
    { apply eq_iff_eq_true. rewrite existsb_exists. apply is_gap_bgap in G. split.
      - intros ([s n] & R & C). pose proof (RS _ _ R) as BG. pose proof BG as (P & Ls & _).
        destruct (bgap_unique mask 0 (length l) s n s G BG) as [<- <-]; [|lia|exact C].
        unfold mask in Ls. rewrite map_length in Ls. lia.
      - intros C. pose proof G as (P & _ & I & _). destruct (RC 0) as (s' & n' & R & X); [apply I; lia|lia|].
        destruct (bgap_unique mask 0 (length l) s' n' 0 G (RS _ _ R) ltac:(lia) X) as [<- <-]. exists (0, length l). auto. }
    rewrite EQ. specialize (SH (length l) ltac:(lia)). destruct (mx <? Z.of_nat (length l))%Z; cbn [negb].
    + split; [discriminate|]. intros (_ & _ & _ & C). apply SH in C. discriminate.
    + split; [intros H; injection H as <-|intros (-> & _); reflexivity]. repeat split; auto. now apply SH.
  - rewrite <- KN. destruct (fill_loop (interp (known l)) mx (runs None 0 mask) l) as (A' & E & _).
    rewrite E. split; [discriminate|]. intros (_ & _ & H & _). apply KALL in H. discriminate.
Qed.

(** ** arguments *)
Lemma stream_mask_intervals trs starts ends masklen rv m : stream_mask trs starts ends masklen rv = Ok m ->
  exists ints, m = map (fun x => mask_at (fst (fst x)) (snd (fst x)) (snd x) ints rv) trs /\ map fst ints = starts /\
    match masklen with
    | Some l => forall s e, In (s, e) ints -> (e = s + l)%Z
    | None => ends = Some (map snd ints)
    end.
Proof.
  assert (F : forall a b : list Z, length b = length a -> map fst (combine a b) = a /\ map snd (combine a b) = b).
  { induction a as [|x a IH]; intros [|y b] L; try discriminate; [now split|]. cbn. injection L as L.
    destruct (IH b L) as [-> ->]. now split. }
  destruct masklen as [l|], ends as [es|]; cbn; try discriminate.
  - intros [= <-]. eexists. split; [reflexivity|]. split; [apply F; now rewrite map_length|].
    intros s e I. clear F. induction starts as [|t r IH]; [destruct I|]. cbn in I. destruct I as [I|I]; [|now apply IH].
    injection I as <- <-. reflexivity.
  - destruct (Nat.eqb_spec (length es) (length starts)) as [L|L]; [|discriminate]. cbn. intros [= <-].
    eexists. split; [reflexivity|]. destruct (F starts es L) as [F1 F2]. split; [exact F1|]. now rewrite F2.
Qed.
