From Verif Require Import Lib.Base Lib.Str Lib.StrFacts Lib.Sorting Lib.Time Model.Combos Spec.ComboSpec.
From Coq Require Import Permutation Sorted.
Local Open Scope string_scope.
Local Open Scope nat_scope.
Local Open Scope list_scope.

(** ** filterM *)
Lemma filterM_ok {A} (f : A -> result bool) l r : filterM f l = Ok r ->
  r = filter (fun x => match f x with Ok true => true | _ => false end) l.
Proof.
  revert r; induction l as [|x l IH]; simpl; intros r H; [congruence|].
  destruct (f x) as [b|e]; simpl in H; [|discriminate].
  destruct (filterM f l) as [t|e]; simpl in H; [|discriminate]. injection H as <-.
  rewrite <- (IH t eq_refl). now destruct b.
Qed.
Lemma filterM_in {A} (f : A -> result bool) l r x : filterM f l = Ok r ->
  (In x r <-> In x l /\ f x = Ok true).
Proof.
  intros H. rewrite (filterM_ok _ _ _ H), filter_In.
  destruct (f x) as [[|]|]; intuition congruence.
Qed.
Lemma filterM_total {A} (f : A -> result bool) l : (forall x, In x l -> exists b, f x = Ok b) ->
  exists r, filterM f l = Ok r.
Proof.
  induction l as [|x l IH]; simpl; eauto. intros H.
  destruct (H x (or_introl eq_refl)) as [b ->]. destruct IH as [r ->]; eauto. simpl. eauto.
Qed.
Lemma filterM_nodup {A} (f : A -> result bool) l r : filterM f l = Ok r -> NoDup l -> NoDup r.
Proof. intros H. rewrite (filterM_ok _ _ _ H). apply NoDup_filter. Qed.
Lemma filterM_all_ok {A} (f : A -> result bool) l r x : filterM f l = Ok r -> In x l -> exists b, f x = Ok b.
Proof.
  revert r; induction l as [|y l IH]; simpl; intros r H; [tauto|].
  destruct (f y) as [b|e] eqn:E; simpl in H; [|discriminate].
  destruct (filterM f l) as [t|e]; simpl in H; [|discriminate].
  intros [<-|Hx]; eauto.
Qed.

(** ** enumeration of pairs *)
Section Enum.
  Context {A : Type}.
  Fixpoint upper (l : list A) : list (A * A) :=
    match l with [] => [] | x :: r => map (fun y => (x, y)) r ++ upper r end.
  Fixpoint upper_eq (l : list A) : list (A * A) :=
    match l with [] => [] | x :: r => map (fun y => (x, y)) (x :: r) ++ upper_eq r end.
  Definition diag (l : list A) : list (A * A) := map (fun x => (x, x)) l.
  Definition square (l : list A) : list (A * A) := list_prod l l.
End Enum.

Definition both {A B} (g : A -> B) (p : A * A) : B * B := (g (fst p), g (snd p)).
Definition both_in {A} (u : A -> bool) (p : A * A) : bool := u (fst p) && u (snd p).

Inductive enum := EUpper | EUpperEq | EDiag | ESquare.
Definition run_enum {A} (e : enum) (l : list A) : list (A * A) :=
  match e with EUpper => upper l | EUpperEq => upper_eq l | EDiag => diag l | ESquare => square l end.

Lemma list_prod_flat {A B} (l : list A) (l' : list B) :
  list_prod l l' = flat_map (fun x => map (fun y => (x, y)) l') l.
Proof. induction l; simpl; auto. now rewrite IHl. Qed.

Lemma list_prod_map {A B} (g : A -> B) l l' :
  list_prod (map g l) (map g l') = map (both g) (list_prod l l').
Proof. induction l as [|x l IH]; simpl; auto. rewrite IH, map_app, !map_map. reflexivity. Qed.

Lemma enum_map {A B} e (g : A -> B) l : run_enum e (map g l) = map (both g) (run_enum e l).
Proof.
  destruct e; simpl.
  - induction l as [|x l IH]; simpl; auto. rewrite IH, map_app, !map_map. reflexivity.
  - induction l as [|x l IH]; simpl; auto. rewrite IH, map_app, !map_map. reflexivity.
  - unfold diag. now rewrite !map_map.
  - apply list_prod_map.
Qed.

Lemma filter_map_pair {A} (u : A -> bool) x l :
  filter (both_in u) (map (fun y => (x, y)) l) = if u x then map (fun y => (x, y)) (filter u l) else [].
Proof.
  induction l as [|y l IH]; simpl; [now destruct (u x)|]. unfold both_in at 1; simpl. rewrite IH.
  destruct (u x); simpl; auto. now destruct (u y).
Qed.

Lemma list_prod_filter {A} (u : A -> bool) l l' :
  list_prod (filter u l) (filter u l') = filter (both_in u) (list_prod l l').
Proof.
  induction l as [|x l IH]; simpl; auto. rewrite filter_app, filter_map_pair, <- IH.
  destruct (u x); simpl; auto.
Qed.

Lemma enum_filter {A} e (u : A -> bool) l : run_enum e (filter u l) = filter (both_in u) (run_enum e l).
Proof.
  destruct e; simpl.
  - induction l as [|x l IH]; simpl; auto. rewrite filter_app, filter_map_pair.
    destruct (u x); simpl; rewrite IH; auto.
  - induction l as [|x l IH]; simpl; auto. rewrite filter_app, filter_map_pair. unfold both_in at 1; simpl.
    destruct (u x) eqn:E; simpl; rewrite IH; auto.
  - unfold diag. induction l as [|x l IH]; simpl; auto. unfold both_in at 1; simpl.
    destruct (u x); simpl; now rewrite IH.
  - apply list_prod_filter.
Qed.

Lemma pairs_from_S n : pairs_from S n = upper (seq 0 n).
Proof.
  unfold pairs_from.
  assert (G : forall m k, flat_map (fun i => map (fun j => (i, j)) (seq (S i) (k + m - S i))) (seq k m) = upper (seq k m)).
  { induction m as [|m IH]; intros k; simpl; auto. rewrite <- IH. f_equal.
    - f_equal. f_equal. lia.
    - apply flat_map_ext. intros i. f_equal. f_equal. lia. }
  apply (G n 0).
Qed.
Lemma pairs_from_id n : pairs_from (fun i => i) n = upper_eq (seq 0 n).
Proof.
  unfold pairs_from.
  assert (G : forall m k, flat_map (fun i => map (fun j => (i, j)) (seq i (k + m - i))) (seq k m) = upper_eq (seq k m)).
  { induction m as [|m IH]; intros k; auto. cbn [seq flat_map upper_eq]. rewrite <- IH. f_equal.
    - f_equal. replace (k + S m - k) with (S m) by lia. reflexivity.
    - apply flat_map_ext. intros i. f_equal. f_equal. lia. }
  apply (G n 0).
Qed.
Lemma pairs_from_0 n : pairs_from (fun _ => 0) n = square (seq 0 n).
Proof. unfold pairs_from, square. rewrite list_prod_flat. apply flat_map_ext. intros i. now rewrite Nat.sub_0_r. Qed.

(** membership in the enumerations of 0..n-1 *)
Lemma in_pairs_from off n i j : In (i, j) (pairs_from off n) <-> i < n /\ off i <= j < n.
Proof.
  unfold pairs_from. rewrite in_flat_map. split.
  - intros (k & Hk & H). apply in_map_iff in H as (m & E & Hm). injection E as <- <-.
    apply in_seq in Hk, Hm. lia.
  - intros [Hi Hj]. exists i. split; [apply in_seq; lia|]. apply in_map_iff. exists j. split; auto. apply in_seq. lia.
Qed.
Lemma NoDup_app_intro {A} (l l' : list A) : NoDup l -> NoDup l' -> (forall x, In x l -> ~ In x l') -> NoDup (l ++ l').
Proof.
  induction 1 as [|x l Hx Hl IH]; simpl; auto. intros Hl' D. constructor.
  - rewrite in_app_iff. intros [H|H]; [contradiction|]. exact (D x (or_introl eq_refl) H).
  - apply IH; auto.
Qed.
Lemma nodup_pairs_from off n : NoDup (pairs_from off n).
Proof.
  unfold pairs_from. generalize (seq_NoDup n 0). generalize (seq 0 n) as l. intros l Hl.
  induction Hl as [|x l Hx Hl IH]; simpl; [constructor|].
  apply NoDup_app_intro; auto.
  - apply FinFun.Injective_map_NoDup; [|apply seq_NoDup]. intros a b E. congruence.
  - intros [a b] H1 H2. apply in_map_iff in H1 as (j & E & _). injection E as <- <-.
    apply in_flat_map in H2 as (k & Hk & H2). apply in_map_iff in H2 as (m & E & _). congruence.
Qed.
Lemma nodup_diag n : NoDup (map (fun i => (i, i)) (seq 0 n)).
Proof. apply FinFun.Injective_map_NoDup; [|apply seq_NoDup]. intros a b E. congruence. Qed.

(** ** the methods as (enumeration, condition) *)
Definition method_enum (ex : ex_dict) (rc : option (list string)) (m : string) :
  option (enum * (trace -> trace -> result bool)) :=
  if String.eqb m "betweenStations" then Some (EUpper, cond_between_stations ex rc)
  else if String.eqb m "betweenComponents" then Some (EUpper, cond_between_components ex)
  else if String.eqb m "autoComponents" then Some (EDiag, cond_not_existing ex)
  else if String.eqb m "allSimpleCombinations" then Some (EUpperEq, cond_not_existing ex)
  else if String.eqb m "allCombinations" then Some (ESquare, cond_not_existing ex)
  else None.

Lemma calc_eq st ex m rc :
  calc_cross_combis st ex m rc =
  match method_enum ex rc m with
  | Some (e, f) =>
      do c <- filterM (at_pair (sort_stream st) f) (run_enum e (seq 0 (length (sort_stream st))));
      Ok (sort_stream st, c)
  | None => Raise ValueError
  end.
Proof.
  unfold calc_cross_combis, method_enum.
  destruct (String.eqb m "betweenStations"); [now rewrite pairs_from_S|].
  destruct (String.eqb m "betweenComponents"); [now rewrite pairs_from_S|].
  destruct (String.eqb m "autoComponents"); [reflexivity|].
  destruct (String.eqb m "allSimpleCombinations"); [now rewrite pairs_from_id|].
  destruct (String.eqb m "allCombinations"); [now rewrite pairs_from_0|reflexivity].
Qed.

(** ** sort order of the stream *)
Lemma key_le_total a b : key_le a b = true \/ key_le b a = true.
Proof.
  unfold key_le. rewrite (compare_antisym (t_net b)), (compare_antisym (t_sta b)).
  destruct (String.compare (t_net a) (t_net b)); simpl; auto.
  destruct (String.compare (t_sta a) (t_sta b)); simpl; auto. apply str_le_total.
Qed.
Lemma key_le_trans a b c : key_le a b = true -> key_le b c = true -> key_le a c = true.
Proof.
  unfold key_le.
  destruct (String.compare (t_net a) (t_net b)) eqn:E1; try discriminate;
  destruct (String.compare (t_net b) (t_net c)) eqn:E2; try discriminate.
  - apply compare_eq in E1, E2. rewrite E1, E2, compare_refl.
    destruct (String.compare (t_sta a) (t_sta b)) eqn:E3; try discriminate;
    destruct (String.compare (t_sta b) (t_sta c)) eqn:E4; try discriminate.
    + apply compare_eq in E3, E4. rewrite E3, E4, compare_refl. apply str_le_trans.
    + apply compare_eq in E3. now rewrite E3, E4.
    + apply compare_eq in E4. now rewrite <- E4, E3.
    + now rewrite (compare_lt_trans _ _ _ E3 E4).
  - apply compare_eq in E1. now rewrite E1, E2.
  - apply compare_eq in E2. now rewrite <- E2, E1.
  - now rewrite (compare_lt_trans _ _ _ E1 E2).
Qed.

Lemma sort_stream_sorted st : StronglySorted (le_rel key_le) (sort_stream st).
Proof. apply sort_sorted; [apply key_le_total|apply key_le_trans]. Qed.
Lemma sort_stream_id st : StronglySorted (le_rel key_le) st -> sort_stream st = st.
Proof. apply sort_id. Qed.

(** ** C06 *)
Lemma nth_error_lt {A} (l : list A) i a : nth_error l i = Some a -> i < length l.
Proof. intros H. apply nth_error_Some. congruence. Qed.

Lemma at_pair_true st f i j : at_pair st f (i, j) = Ok true <->
  exists a b, nth_error st i = Some a /\ nth_error st j = Some b /\ f a b = Ok true.
Proof.
  unfold at_pair; simpl. destruct (nth_error st i) as [a|], (nth_error st j) as [b|]; split;
    try discriminate; intros H; try (destruct H as (? & ? & E1 & E2 & ?); congruence); eauto.
Qed.

Lemma str_neq_true a b : str_neq a b = true <-> a <> b.
Proof. unfold str_neq. rewrite negb_true_iff, String.eqb_neq. tauto. Qed.

Lemma cond_bs_true ex rc a b : cond_between_stations ex rc a b = Ok true <->
  ~ same_station a b /\ compare_existing_data ex a b = false /\
  (forall l, rc = Some l -> is_in_xcombis a b l = true).
Proof.
  unfold cond_between_stations, same_station.
  destruct (str_neq (t_net a) (t_net b) || str_neq (t_sta a) (t_sta b)) eqn:E.
  - assert (N : ~ (t_net a = t_net b /\ t_sta a = t_sta b)).
    { apply orb_true_iff in E. rewrite !str_neq_true in E. tauto. }
    destruct (compare_existing_data ex a b); [intuition congruence|].
    destruct rc as [l|]; split; intros H; repeat split; auto; try discriminate.
    + intros l' [= <-]. congruence.
    + destruct H as (_ & _ & H). now rewrite (H l eq_refl).
  - apply orb_false_iff in E as [E1 E2]. unfold str_neq in *. apply negb_false_iff in E1, E2.
    apply String.eqb_eq in E1, E2. split; [discriminate|tauto].
Qed.

Lemma cond_bc_true ex a b : cond_between_components ex a b = Ok true <->
  same_station a b /\ component a <> component b /\ component a <> None /\ component b <> None /\
  compare_existing_data ex a b = false.
Proof.
  unfold cond_between_components, same_station, component.
  destruct (String.eqb_spec (t_net a) (t_net b)), (String.eqb_spec (t_sta a) (t_sta b)); simpl;
    try (split; [discriminate|tauto]).
  destruct (last_char (t_cha a)) as [x|], (last_char (t_cha b)) as [y|]; try (split; [discriminate|intuition congruence]).
  destruct (Ascii.eqb_spec x y), (compare_existing_data ex a b); simpl; intuition congruence.
Qed.

Lemma cond_ne_true ex a b : cond_not_existing ex a b = Ok true <-> compare_existing_data ex a b = false.
Proof. unfold cond_not_existing. destruct (compare_existing_data ex a b); simpl; intuition congruence. Qed.

Lemma in_run_enum e n i j : In (i, j) (run_enum e (seq 0 n)) <->
  i < n /\ j < n /\ match e with EUpper => i < j | EUpperEq => i <= j | EDiag => i = j | ESquare => True end.
Proof.
  destruct e; simpl run_enum.
  - rewrite <- pairs_from_S, in_pairs_from. lia.
  - rewrite <- pairs_from_id, in_pairs_from. lia.
  - unfold diag. rewrite in_map_iff. split.
    + intros (k & E & Hk). injection E as <- <-. apply in_seq in Hk. lia.
    + intros (H1 & _ & <-). exists i. split; auto. apply in_seq. lia.
  - rewrite <- pairs_from_0, in_pairs_from. lia.
Qed.
Lemma nodup_run_enum e n : NoDup (run_enum e (seq 0 n)).
Proof.
  destruct e; simpl run_enum.
  - rewrite <- pairs_from_S. apply nodup_pairs_from.
  - rewrite <- pairs_from_id. apply nodup_pairs_from.
  - apply nodup_diag.
  - rewrite <- pairs_from_0. apply nodup_pairs_from.
Qed.

Ltac meth_cases m :=
  unfold method_enum;
  destruct (String.eqb_spec m "betweenStations") as [->|?];
  [|destruct (String.eqb_spec m "betweenComponents") as [->|?];
  [|destruct (String.eqb_spec m "autoComponents") as [->|?];
  [|destruct (String.eqb_spec m "allSimpleCombinations") as [->|?];
  [|destruct (String.eqb_spec m "allCombinations") as [->|?]]]]].

Lemma calc_exact st ex m rc st' c :
  calc_cross_combis st ex m rc = Ok (st', c) ->
  Permutation st' st /\ StronglySorted (le_rel key_le) st' /\ NoDup c /\
  (forall i j, In (i, j) c <->
     exists a b, nth_error st' i = Some a /\ nth_error st' j = Some b /\
       documented m i j a b /\ compare_existing_data ex a b = false /\ allowed m rc a b).
Proof.
  rewrite calc_eq. destruct (method_enum ex rc m) as [[e f]|] eqn:EM; [|discriminate].
  set (s := sort_stream st). destruct (filterM _ _) as [r|] eqn:EF; [|discriminate]. simpl. intros [= <- <-].
  repeat split.
  - apply sort_perm.
  - apply sort_stream_sorted.
  - eapply filterM_nodup; [exact EF|apply nodup_run_enum].
  - intros H. apply (filterM_in _ _ _ _ EF) in H as [H1 H2].
    apply at_pair_true in H2 as (a & b & Ha & Hb & Hf). exists a, b. split; [auto|]. split; [auto|].
    apply in_run_enum in H1 as (_ & _ & H1). revert EM. meth_cases m; intros [= <- <-]; unfold documented, allowed.
    + apply cond_bs_true in Hf. intuition (auto; congruence).
    + apply cond_bc_true in Hf. intuition (auto; congruence).
    + apply cond_ne_true in Hf. intuition (auto; congruence).
    + apply cond_ne_true in Hf. intuition (auto; congruence).
    + apply cond_ne_true in Hf. intuition (auto; congruence).
  - intros (a & b & Ha & Hb & D & Hx & Al). apply (filterM_in _ _ _ _ EF).
    pose proof (nth_error_lt _ _ _ Ha). pose proof (nth_error_lt _ _ _ Hb).
    assert (G : In (i, j) (run_enum e (seq 0 (length s))) /\ (forall b0, f a b = Ok b0 -> b0 = true)).
    { rewrite in_run_enum. revert EM. unfold documented, allowed in *.
      meth_cases m; intros [= <- <-]; (split; [|intros b0 E0]);
        repeat match goal with H : _ \/ _ |- _ => destruct H end; try (destruct H1; congruence); try discriminate; intuition try congruence.
      - destruct (cond_bs_true ex rc a b) as [_ G]. rewrite G in E0; [congruence|]. intuition.
      - unfold cond_between_components, same_station, component in *. assert (E1 : t_net a = t_net b) by tauto. assert (E2 : t_sta a = t_sta b) by tauto.
        rewrite E1, E2, !String.eqb_refl in E0. simpl in E0.
        destruct (last_char (t_cha a)) as [x|], (last_char (t_cha b)) as [y|]; try discriminate.
        injection E0 as <-. rewrite Hx. destruct (Ascii.eqb_spec x y); [congruence|reflexivity].
      - unfold cond_not_existing in E0. rewrite Hx in E0. simpl in E0. congruence.
      - unfold cond_not_existing in E0. rewrite Hx in E0. simpl in E0. congruence.
      - unfold cond_not_existing in E0. rewrite Hx in E0. simpl in E0. congruence. }
    destruct G as [G1 G2]. split; auto. apply at_pair_true.
    destruct (filterM_all_ok _ _ _ _ EF G1) as [b0 E0]. exists a, b. split; auto. split; auto.
    unfold at_pair in E0. simpl in E0. rewrite Ha, Hb in E0. rewrite E0. f_equal. now apply G2.
Qed.

Lemma calc_unknown st ex m rc : ~ known_method m -> calc_cross_combis st ex m rc = Raise ValueError.
Proof.
  intros H. rewrite calc_eq. assert (E : method_enum ex rc m = None).
  { unfold known_method in H. simpl in H. meth_cases m; auto; exfalso; apply H; auto 10. }
  now rewrite E.
Qed.

Lemma calc_total st ex m rc : known_method m -> (forall tr, In tr st -> t_cha tr <> ""%string) ->
  exists c, calc_cross_combis st ex m rc = Ok (sort_stream st, c).
Proof.
  intros Hm Hc. rewrite calc_eq.
  assert (Hn : forall i, i < length (sort_stream st) -> exists a, nth_error (sort_stream st) i = Some a /\ t_cha a <> ""%string).
  { intros i Hi. destruct (nth_error (sort_stream st) i) as [a|] eqn:E; [|apply nth_error_None in E; lia].
    exists a. split; auto. apply Hc. apply (sort_in key_le). eapply nth_error_In; exact E. }
  destruct (method_enum ex rc m) as [[e f]|] eqn:EM.
  - destruct (filterM_total (at_pair (sort_stream st) f) (run_enum e (seq 0 (length (sort_stream st))))) as [r ->].
    2:{ simpl. eauto. }
    intros [i j] H. apply in_run_enum in H as (Hi & Hj & _). destruct (Hn i Hi) as (a & Ea & Ca), (Hn j Hj) as (b & Eb & Cb).
    unfold at_pair; simpl. rewrite Ea, Eb. revert EM. meth_cases m; intros [= <- <-].
    + unfold cond_between_stations. destruct (str_neq _ _ || str_neq _ _); [|eauto].
      destruct (compare_existing_data ex a b); [eauto|]. destruct rc; eauto.
    + unfold cond_between_components. destruct (String.eqb _ _ && String.eqb _ _); [|eauto].
      destruct (last_char (t_cha a)) eqn:L1; [|apply last_char_none in L1; contradiction].
      destruct (last_char (t_cha b)) eqn:L2; [|apply last_char_none in L2; contradiction]. eauto.
    + unfold cond_not_existing; eauto.
    + unfold cond_not_existing; eauto.
    + unfold cond_not_existing; eauto.
  - exfalso. unfold known_method in Hm. simpl in Hm. revert EM. meth_cases m; try discriminate. intuition congruence.
Qed.

(** ** C08: pruning *)
Lemma enumerate_map {A} (l : list A) d : enumerate l = map (fun i => (i, nth i l d)) (seq 0 (length l)).
Proof.
  unfold enumerate. assert (G : forall k, combine (seq k (length l)) l = map (fun i => (i, nth (i - k) l d)) (seq k (length l))).
  { induction l as [|x l IH]; intros k; simpl; auto. rewrite Nat.sub_diag. f_equal. rewrite IH.
    apply map_ext_in. intros i Hi. apply in_seq in Hi. f_equal. replace (i - k) with (S (i - S k)) by lia. reflexivity. }
  rewrite G. apply map_ext. intros i. now rewrite Nat.sub_0_r.
Qed.

Lemma nth_error_map_nth {A} (l : list A) d K i : (forall k, In k K -> k < length l) ->
  nth_error (map (fun k => nth k l d) K) i = match nth_error K i with Some k => nth_error l k | None => None end.
Proof.
  intros H. rewrite nth_error_map. destruct (nth_error K i) as [k|] eqn:E; simpl; auto.
  assert (k < length l) by (apply H; eapply nth_error_In; eauto).
  symmetry. now apply nth_error_nth'.
Qed.

Lemma map_nth_seq {A} (K : list A) d : map (fun i => nth i K d) (seq 0 (length K)) = K.
Proof.
  apply nth_ext with (d := d) (d' := d); [now rewrite map_length, seq_length|].
  intros n Hn. rewrite map_length, seq_length in Hn.
  rewrite (nth_indep _ d (nth 0 K d)) by now rewrite map_length, seq_length.
  rewrite (map_nth (fun i => nth i K d)), seq_nth; auto.
Qed.

Lemma filter_map_comm {A B} (f : A -> B) (p : B -> bool) l : filter p (map f l) = map f (filter (fun x => p (f x)) l).
Proof. induction l as [|x l IH]; simpl; auto. destruct (p (f x)); simpl; now rewrite IH. Qed.

Lemma filter_and {A} (p q : A -> bool) l : filter p (filter q l) = filter (fun x => q x && p x) l.
Proof. induction l as [|x l IH]; simpl; auto. destruct (q x); simpl; [destruct (p x)|]; now rewrite IH. Qed.

Definition sel (st : list trace) (f : trace -> trace -> result bool) (c : nat * nat) : bool :=
  match at_pair st f c with Ok true => true | _ => false end.

Lemma nth_K_seq (K : list nat) i : i < length K -> nth_error K i = Some (nth i K 0).
Proof. intros. now apply nth_error_nth'. Qed.

Lemma prune_core st f e (u : nat -> bool) d :
  let n := length st in
  let K := filter u (seq 0 n) in
  let st' := map (fun k => nth k st d) K in
  (forall c, In c (run_enum e (seq 0 n)) -> sel st f c = true -> both_in u c = true) ->
  map (both (fun i => nth i K 0)) (filter (sel st' f) (run_enum e (seq 0 (length st')))) =
  filter (sel st f) (run_enum e (seq 0 n)).
Proof.
  intros n K st' HU.
  assert (HK : forall k, In k K -> k < length st) by (intros k Hk; apply filter_In in Hk as [Hk _]; apply in_seq in Hk; unfold n in *; lia).
  assert (HL : length st' = length K) by apply map_length.
  transitivity (filter (sel st f) (map (both (fun i => nth i K 0)) (run_enum e (seq 0 (length K))))).
  - rewrite filter_map_comm. f_equal. rewrite HL. apply filter_ext_in. intros [i j] Hij.
    apply in_run_enum in Hij as (Hi & Hj & _). unfold sel, at_pair, both; simpl.
    unfold st'. rewrite !nth_error_map_nth by auto. rewrite !nth_K_seq by auto. reflexivity.
  - rewrite <- enum_map, map_nth_seq. unfold K. rewrite enum_filter, filter_and.
    apply filter_ext_in. intros c Hc. destruct (sel st f c) eqn:E; [|apply andb_false_r].
    now rewrite (HU c Hc E).
Qed.

Lemma del_unused_eq combis win d :
  del_unused combis win = map (fun k => nth k win d) (filter (used combis) (seq 0 (length win))).
Proof.
  unfold del_unused. rewrite (enumerate_map win d), filter_map_comm, map_map. reflexivity.
Qed.

Lemma StronglySorted_map_nth (st : list trace) d (u : nat -> bool) :
  StronglySorted (le_rel key_le) st ->
  StronglySorted (le_rel key_le) (map (fun k => nth k st d) (filter u (seq 0 (length st)))).
Proof.
  intros H. revert u. induction H as [|x l Hs IH HF]; intros u; [constructor|].
  cbn [length seq]. rewrite <- seq_shift. cbn [filter].
  assert (E : map (fun k => nth k (x :: l) d) (filter u (map S (seq 0 (length l)))) =
              map (fun k => nth k l d) (filter (fun k => u (S k)) (seq 0 (length l)))).
  { rewrite filter_map_comm, map_map. reflexivity. }
  assert (G : StronglySorted (le_rel key_le) (map (fun k => nth k (x :: l) d) (filter u (map S (seq 0 (length l)))))).
  { rewrite E. apply IH. }
  destruct (u 0); auto. cbn [map]. constructor; auto. rewrite E. cbn [nth].
  apply Forall_map, Forall_forall. intros k Hk. apply filter_In in Hk as [Hk _]. apply in_seq in Hk.
  rewrite Forall_forall in HF. apply HF. apply nth_In. lia.
Qed.

Lemma used_both combis c : In c combis -> both_in (used combis) c = true.
Proof.
  intros H. unfold both_in, used. apply andb_true_iff. split; apply existsb_exists; exists c; split; auto;
    rewrite Nat.eqb_refl; auto using orb_true_r.
Qed.

Lemma pair_traces_map (st : list trace) K d (l : list (nat * nat)) :
  (forall k, In k K -> k < length st) ->
  (forall c, In c l -> fst c < length K /\ snd c < length K) ->
  pair_traces (map (fun k => nth k st d) K) l = pair_traces st (map (both (fun i => nth i K 0)) l).
Proof.
  intros HK Hl. unfold pair_traces. rewrite map_map. apply map_ext_in. intros [i j] H.
  destruct (Hl _ H) as [Hi Hj]; simpl in *. rewrite !nth_error_map_nth by auto.
  rewrite !nth_K_seq by auto. reflexivity.
Qed.

Lemma prune_same_pairs win ex m rc win1 c1 win2 c2 :
  calc_cross_combis win ex m rc = Ok (win1, c1) ->
  select_pairs win ex m rc = Ok (win2, c2) ->
  pair_traces win2 c2 = pair_traces win1 c1.
Proof.
  intros H1 H2. unfold select_pairs in H2. rewrite H1 in H2. cbn [bind] in H2.
  destruct c1 as [|c0 c1']; [congruence|]. set (c1 := c0 :: c1') in *.
  destruct (length (del_unused c1 win1) =? length win1) eqn:EL; [congruence|].
  rewrite calc_eq in H1, H2. destruct (method_enum ex rc m) as [[e f]|]; [|discriminate].
  destruct (filterM (at_pair (sort_stream win) f) _) as [r1|] eqn:F1; [|discriminate]. cbn [bind] in H1.
  injection H1 as E1 E2. 
  assert (HS : StronglySorted (le_rel key_le) win1) by (rewrite <- E1; apply sort_stream_sorted).
  destruct win1 as [|d w1] eqn:EW.
  { (* no traces: no combination *) rewrite E1 in F1. simpl in F1.
    assert (run_enum e (@nil nat) = []) by (destruct e; reflexivity). rewrite H in F1. simpl in F1.
    injection F1 as F1. rewrite <- F1 in E2. discriminate. }
  rewrite <- EW in *. clear EW w1.
  rewrite (del_unused_eq c1 win1 d) in H2.
  set (K := filter (used c1) (seq 0 (length win1))) in *.
  set (st' := map (fun k => nth k win1 d) K) in *.
  assert (Es : sort_stream st' = st') by (apply sort_stream_id; apply StronglySorted_map_nth; auto).
  rewrite Es in H2.
  destruct (filterM (at_pair st' f) _) as [r2|] eqn:F2; [|discriminate]. cbn [bind] in H2. injection H2 as <- <-.
  rewrite E1 in F1. subst r1.
  apply filterM_ok in F1, F2. fold (sel win1 f) in F1. fold (sel st' f) in F2.
  assert (HU : forall c, In c (run_enum e (seq 0 (length win1))) -> sel win1 f c = true -> both_in (used c1) c = true).
  { intros c Hc Hs. apply used_both. rewrite F1. apply filter_In. auto. }
  pose proof (prune_core win1 f e (used c1) d HU) as PC. cbv zeta in PC. fold K in PC. fold st' in PC.
  change (fun x : nat * nat => match at_pair win1 f x with Ok true => true | _ => false end) with (sel win1 f) in F1.
  change (fun x : nat * nat => match at_pair st' f x with Ok true => true | _ => false end) with (sel st' f) in F2.
  rewrite <- F1, <- F2 in PC.
  rewrite <- PC. apply pair_traces_map.
  - intros k Hk. apply filter_In in Hk as [Hk _]. apply in_seq in Hk. lia.
  - intros [i j] Hc. rewrite F2 in Hc. apply filter_In in Hc as [Hc _]. apply in_run_enum in Hc as (Hi & Hj & _).
    unfold st' in Hi, Hj. rewrite map_length in Hi, Hj. simpl. auto.
Qed.

Lemma select_pairs_total win ex m rc : known_method m -> (forall tr, In tr win -> t_cha tr <> ""%string) ->
  exists w c, select_pairs win ex m rc = Ok (w, c).
Proof.
  intros Hm Hc. destruct (calc_total win ex m rc Hm Hc) as [c E]. unfold select_pairs. rewrite E. cbn [bind].
  destruct c as [|c0 c']; [eauto|]. destruct (_ =? _); [eauto|].
  destruct (calc_total (del_unused (c0 :: c') (sort_stream win)) ex m rc Hm) as [c2 E2]; [|eauto].
  intros tr Htr. apply Hc. apply (sort_in key_le).
  unfold del_unused in Htr. apply in_map_iff in Htr as ([i t] & <- & H). apply filter_In in H as [H _].
  unfold enumerate in H. now apply in_combine_r in H.
Qed.
