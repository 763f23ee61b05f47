(** Several reference traces. *)
From Coq Require Import Reals QArith Lra Lia Permutation.
From Verif Require Import Lib.Base Lib.Time Model.LagMatrix Model.Spectral Model.TimeDomain Model.Reference Model.MultiTrace Spec.MultiTraceSpec.
From Verif Require Import Proofs.SpectralFacts.
Local Open Scope Z_scope.

(** ** first and last *)
Lemma fold_min_spec r : forall x, let m := fold_left Z.min r x in (m = x \/ In m r) /\ m <= x /\ forall y, In y r -> m <= y.
Proof.
  induction r as [|y r IH]; intros x; cbn; [split; [auto|split; [lia|intros y []]]|].
  destruct (IH (Z.min x y)) as (A & B & C). split; [|split; [lia|]].
  - destruct A as [->|A]; [|auto]. destruct (Z.min_spec x y) as [[_ ->]|[_ ->]]; auto.
  - intros z [<-|I]; [lia|]. specialize (C z I). lia.
Qed.
Lemma fold_max_spec r : forall x, let m := fold_left Z.max r x in (m = x \/ In m r) /\ x <= m /\ forall y, In y r -> y <= m.
Proof.
  induction r as [|y r IH]; intros x; cbn; [split; [auto|split; [lia|intros y []]]|].
  destruct (IH (Z.max x y)) as (A & B & C). split; [|split; [lia|]].
  - destruct A as [->|A]; [|auto]. destruct (Z.max_spec x y) as [[_ ->]|[_ ->]]; auto.
  - intros z [<-|I]; [lia|]. specialize (C z I). lia.
Qed.
Lemma earliest_first h s : first_start h s -> earliest (h_start h) = Ok s.
Proof.
  intros [I L]. unfold earliest. destruct (h_start h) as [|x r]; [destruct I|]. f_equal.
  destruct (fold_min_spec r x) as (A & B & C). set (m := fold_left Z.min r x) in *.
  assert (s <= m) by (apply L; destruct A as [->|A]; [now left|now right]).
  assert (m <= s) by (destruct I as [<-|I]; [exact B|now apply C]). lia.
Qed.
Lemma latest_last h e : last_end h e -> latest (h_end h) = Ok e.
Proof.
  intros [I L]. unfold latest. destruct (h_end h) as [|x r]; [destruct I|]. f_equal.
  destruct (fold_max_spec r x) as (A & B & C). set (m := fold_left Z.max r x) in *.
  assert (m <= e) by (apply L; destruct A as [->|A]; [now left|now right]).
  assert (e <= m) by (destruct I as [<-|I]; [exact B|now apply C]). lia.
Qed.

(** ** the rows of a window *)
Fixpoint chosen (k : nat) (p : Z * Z -> bool) (d : list (Z * Z)) : list nat :=
  match d with [] => [] | x :: r => if p x then k :: chosen (S k) p r else chosen (S k) p r end.

Lemma chosen_in p d : forall k i, In i (chosen k p d) <-> (k <= i)%nat /\ exists x, nth_error d (i - k) = Some x /\ p x = true.
Proof.
  induction d as [|x d IH]; intros k i; cbn [chosen].
  - split; [intros []|]. intros (_ & y & E & _). destruct (i - k)%nat; discriminate.
  - assert (STEP : In i (chosen (S k) p d) <-> (k < i)%nat /\ exists y, nth_error (x :: d) (i - k) = Some y /\ p y = true).
    { rewrite IH. split; intros (L & y & E & P); (split; [lia|]); exists y; (split; [|exact P]).
      - replace (i - k)%nat with (S (i - S k)) by lia. exact E.
      - replace (i - k)%nat with (S (i - S k)) in E by lia. exact E. }
    destruct (p x) eqn:PX; cbn [In]; rewrite STEP; split.
    + intros [->|(L & H)]; [|split; [lia|exact H]]. split; [lia|]. exists x. now rewrite Nat.sub_diag.
    + intros (L & H). destruct (Nat.eq_dec k i) as [->|N]; [now left|]. right. split; [lia|exact H].
    + intros (L & H). split; [lia|exact H].
    + intros (L & y & E & P). destruct (Nat.eq_dec k i) as [->|N]; [|split; [lia|eauto]].
      rewrite Nat.sub_diag in E. cbn in E. congruence.
Qed.
Lemma chosen_sorted p d : forall k i j x y, nth_error (chosen k p d) i = Some x -> nth_error (chosen k p d) j = Some y -> (i < j)%nat -> (x < y)%nat.
Proof.
  induction d as [|z d IH]; intros k i j x y; cbn [chosen]; [destruct i; discriminate|].
  destruct (p z); [|apply IH]. destruct i as [|i], j as [|j]; cbn; intros A B L; try lia; [|apply (IH (S k) i j); auto; lia].
  injection A as <-. apply nth_error_In, chosen_in in B. lia.
Qed.
Lemma chosen_rows {A} p : forall (d : list (Z * Z)) (pre data : list A), length d = length data ->
  map (fun i => nth_error (pre ++ data) i) (chosen (length pre) p d) = map Some (map snd (filter (fun q => p (fst q)) (combine d data))).
Proof.
  induction d as [|x d IH]; intros pre [|y data] L; try discriminate; [reflexivity|].
  cbn [chosen combine filter fst]. assert (E : pre ++ y :: data = (pre ++ [y]) ++ data) by (now rewrite <- app_assoc).
  assert (X : map (fun i => nth_error (pre ++ y :: data) i) (chosen (S (length pre)) p d) = map Some (map snd (filter (fun q => p (fst q)) (combine d data)))).
  { rewrite E. rewrite <- (IH (pre ++ [y]) data) by (now injection L). rewrite app_length. cbn. now rewrite Nat.add_1_r. }
  destruct (p x); [|exact X]. cbn [map snd]. rewrite X. f_equal. rewrite nth_error_app2 by lia. now rewrite Nat.sub_diag.
Qed.

Lemma nth_combine {A B} (l : list A) (m : list B) i a b : nth_error l i = Some a -> nth_error m i = Some b -> nth_error (combine l m) i = Some (a, b).
Proof. revert l m. induction i as [|i IH]; intros [|x l] [|y m]; cbn; try discriminate; [congruence|]. apply IH. Qed.
Lemma nth_combine_inv {A B} (l : list A) (m : list B) i p : nth_error (combine l m) i = Some p -> nth_error l i = Some (fst p) /\ nth_error m i = Some (snd p).
Proof. revert l m. induction i as [|i IH]; intros [|x l] [|y m]; cbn; try discriminate; [intros [= <-]; auto|]. apply IH. Qed.

Theorem rows_exact data h s e : dated data h -> s < e -> exists rows, rows_within data h s e = Ok rows /\ selection data h s e rows.
Proof.
  intros (LS & LE & _) SE. unfold rows_within. destruct (Z.leb_spec e s); [lia|]. eexists. split; [reflexivity|].
  set (p := fun q : Z * Z => (s <=? snd q) && (fst q <=? e)).
  exists (chosen 0 p (combine (h_start h) (h_end h))). split; [|split].
  - intros i. rewrite chosen_in, Nat.sub_0_r. unfold touches, p. split.
    + intros (_ & x & E & P). apply nth_combine_inv in E as [E1 E2]. apply andb_prop in P as [P1 P2]. apply Z.leb_le in P1, P2.
      split; [exists (fst x), (snd x); auto|]. rewrite <- LS. apply nth_error_Some. congruence.
    + intros ((a & b & A & B & P1 & P2) & _). split; [lia|]. exists (a, b). split; [now apply nth_combine|]. cbn.
      apply andb_true_intro. split; apply Z.leb_le; assumption.
  - intros i j x y. apply chosen_sorted.
  - pose proof (chosen_rows p (combine (h_start h) (h_end h)) [] data) as X. cbn [app length] in X. apply X.
    rewrite combine_length. lia.
Qed.

(** all rows *)
Lemma filter_all {A} (f : A -> bool) l : (forall x, In x l -> f x = true) -> filter f l = l.
Proof. induction l as [|x l IH]; intros H; [reflexivity|]. cbn. rewrite (H x) by now left. f_equal. apply IH. intros; apply H; now right. Qed.
Lemma rows_all data h s e : dated data h -> s < e -> (forall i, (i < length data)%nat -> touches h s e i) -> rows_within data h s e = Ok data.
Proof.
  intros (LS & LE & _) SE ALL. unfold rows_within. destruct (Z.leb_spec e s); [lia|]. f_equal.
  assert (F : filter (fun p : Z * Z * list (option R) => (s <=? snd (fst p)) && (fst (fst p) <=? e)) (combine (combine (h_start h) (h_end h)) data) = combine (combine (h_start h) (h_end h)) data).
  { apply filter_all. intros x I. apply In_nth_error in I as (i & E). apply nth_combine_inv in E as [E1 E2].
    apply nth_combine_inv in E1 as [A B]. assert (L : (i < length data)%nat) by (apply nth_error_Some; congruence).
    destruct (ALL i L) as (a & b & A' & B' & P1 & P2). rewrite A in A'. rewrite B in B'. injection A' as <-. injection B' as <-.
    apply andb_true_intro. split; apply Z.leb_le; assumption. }
  rewrite F. clear -LS LE. revert LS LE. generalize (h_start h), (h_end h). induction data as [|r data IH]; intros [|a l] [|b m] LS LE; try discriminate; [reflexivity|].
  cbn. f_equal. cbn in LS, LE. apply IH; lia.
Qed.

(** ** the loops *)
Section Windows.
  Variable data : list (list (option R)).
  Variable h : hdr.
  Variable m : extract_method.

  Lemma begins_cons s inc incs k : begins s (inc :: incs) (S k) = begins (s + inc) incs k.
  Proof. unfold begins. cbn. lia. Qed.

  Lemma listed_windows incs : forall s ts, listed_traces data h m s incs = Ok ts ->
    length ts = length incs /\ forall k inc, nth_error incs k = Some inc -> exists t, nth_error ts k = Some t /\ window_trace data h m (begins s incs k) inc = Ok t.
  Proof.
    induction incs as [|inc incs IH]; intros s ts E; cbn in E.
    - injection E as <-. split; [reflexivity|]. intros [|k] inc H; discriminate.
    - destruct (window_trace data h m s inc) as [t|x] eqn:W; [|discriminate]. cbn in E.
      destruct (listed_traces data h m (s + inc) incs) as [ts'|x] eqn:R; [|discriminate]. injection E as <-.
      destruct (IH _ _ R) as [L H]. split; [cbn; now rewrite L|]. intros [|k] inc' N; cbn in N.
      + injection N as <-. exists t. split; [reflexivity|]. unfold begins. cbn. now rewrite Z.add_0_r.
      + destruct (H k inc' N) as (t' & T & W'). exists t'. split; [exact T|]. now rewrite begins_cons.
  Qed.

  Lemma listed_ok incs : (forall s inc, In inc incs -> exists t, window_trace data h m s inc = Ok t) -> forall s, exists ts, listed_traces data h m s incs = Ok ts.
  Proof.
    induction incs as [|inc incs IH]; intros H s; cbn; [eauto|]. destruct (H s inc (or_introl eq_refl)) as (t & ->). cbn.
    destruct (IH (fun s i I => H s i (or_intror I)) (s + inc)) as (ts & ->). cbn. eauto.
  Qed.
  Lemma listed_fails incs : (exists inc, In inc incs /\ inc <= 0) -> forall s, exists x, listed_traces data h m s incs = Raise x.
  Proof.
    induction incs as [|i incs IH]; intros (inc & I & N) s; [destruct I|]. cbn. destruct (window_trace data h m s i) as [t|x] eqn:W; [|cbn; eauto].
    destruct I as [->|I].
    - exfalso. unfold window_trace, rows_within in W. destruct (Z.leb_spec (s + inc + inc / 2) (s - inc / 2)) as [_|X]; [discriminate|].
      assert (inc / 2 <= 0) by (pose proof (Z.mul_div_le inc 2 ltac:(lia)); lia). lia.
    - cbn. destruct (IH (ex_intro _ inc (conj I N)) (s + i)) as (x & ->). cbn. eauto.
  Qed.

  Lemma constant_listed n : forall fuel s e inc, last_end h e -> 0 < inc -> (n < fuel)%nat ->
    (forall k, Z.of_nat k < Z.of_nat n <-> s + Z.of_nat k * inc < e) ->
    constant_traces fuel data h m s inc = listed_traces data h m s (repeat inc n).
  Proof.
    induction n as [|n IH]; intros [|fuel] s e inc LE P F K; try lia; cbn [constant_traces repeat listed_traces]; rewrite (latest_last h e LE); cbn [bind].
    - destruct (Z.ltb_spec s e) as [X|_]; [|reflexivity]. exfalso. pose proof (proj2 (K 0%nat)) as Y. lia.
    - destruct (Z.ltb_spec s e) as [_|X].
      + rewrite (IH fuel (s + inc) e inc LE P ltac:(lia)); [reflexivity|]. intros k. specialize (K (S k)). rewrite !Nat2Z.inj_succ in K.
        replace (s + inc + Z.of_nat k * inc) with (s + Z.succ (Z.of_nat k) * inc) by ring. lia.
      + exfalso. pose proof (proj1 (K 0%nat)) as Y. lia.
  Qed.
End Windows.

(** number of windows *)
Definition windows (s e inc : Z) : nat := Z.to_nat (- ((s - e) / inc)).
Lemma windows_spec s e inc : 0 < inc -> s < e -> forall k, Z.of_nat k < Z.of_nat (windows s e inc) <-> s + Z.of_nat k * inc < e.
Proof.
  intros P L k. unfold windows. pose proof (Z.mul_div_le (s - e) inc P) as A. pose proof (Z.mul_succ_div_gt (s - e) inc P) as B.
  set (q := (s - e) / inc) in *. assert (q < 0) by nia. rewrite Z2Nat.id by lia. split; intros H0; nia.
Qed.

(** ** traces that are there *)
Lemma mean_total rows h : exists t, extract_rows rows h Mean = Ok t.
Proof. destruct rows; cbn; eauto. Qed.
Lemma window_mean data h s inc : 0 < inc -> exists t, window_trace data h Mean s inc = Ok t.
Proof.
  intros P. unfold window_trace, rows_within. pose proof (Z.div_pos inc 2 ltac:(lia) ltac:(lia)).
  destruct (Z.leb_spec (s + inc + inc / 2) (s - inc / 2)); [lia|]. cbn [bind]. apply mean_total.
Qed.

(** ** the order of the rows *)
Lemma rsum_list x : rsum (length x) (fun j => nth j x 0%R) = fold_right Rplus 0%R x.
Proof.
  induction x as [|a x IH] using rev_ind; [reflexivity|]. rewrite app_length. cbn [length]. rewrite Nat.add_1_r. cbn [rsum].
  rewrite app_nth2 by lia. rewrite Nat.sub_diag. cbn [nth].
  rewrite (rsum_ext (length x) _ (fun j => nth j x 0%R)) by (intros k K; now rewrite app_nth1). rewrite IH.
  clear IH. induction x as [|b x IH]; cbn; [lra|]. rewrite <- IH. lra.
Qed.
Lemma mean_perm x y : Permutation x y -> mean x = mean y.
Proof.
  intros P. unfold mean. rewrite !rsum_list, (Permutation_length P). f_equal. induction P; cbn; try lra.
Qed.
Lemma existing_perm x y : Permutation x y -> Permutation (existing x) (existing y).
Proof. intros P. unfold existing. now apply Permutation_flat_map. Qed.
Lemma masked_mean_perm x y : Permutation x y -> masked_mean x = masked_mean y.
Proof.
  intros P. apply existing_perm in P. unfold masked_mean. destruct (existing x) as [|a l] eqn:X.
  - apply Permutation_nil in P. now rewrite P.
  - destruct (existing y) as [|b k] eqn:Y; [apply Permutation_sym, Permutation_nil in P; discriminate|]. f_equal. now apply mean_perm.
Qed.
Lemma width_perm w x y : Permutation x y -> (forall row, In row x -> length row = w) -> width x = width y.
Proof.
  intros P H. destruct x as [|a x].
  - apply Permutation_nil in P. now subst.
  - destruct y as [|b y]; [apply Permutation_sym, Permutation_nil in P; discriminate|]. cbn.
    rewrite (H a), (H b); [reflexivity| |now left]. eapply Permutation_in; [apply Permutation_sym, P|now left].
Qed.
Lemma mean_trace_perm w x y : Permutation x y -> (forall row, In row x -> length row = w) -> mean_trace x = mean_trace y.
Proof.
  intros P H. unfold mean_trace. rewrite (width_perm w x y P H). apply map_ext. intros c. apply masked_mean_perm. unfold column. now apply Permutation_map.
Qed.
Lemma filter_perm {A} (f : A -> bool) x y : Permutation x y -> Permutation (filter f x) (filter f y).
Proof.
  induction 1 as [|a x y P IH|a b x|x y z P1 IH1 P2 IH2]; cbn; [constructor| | |etransitivity; eassumption].
  - destruct (f a); [now constructor|exact IH].
  - destruct (f a), (f b); try reflexivity. constructor.
Qed.

Definition table (data : list (list (option R))) (h : hdr) : list (Z * Z * list (option R)) := combine (combine (h_start h) (h_end h)) data.

Lemma table_starts data h : dated data h -> map (fun p => fst (fst p)) (table data h) = h_start h /\ map (fun p => snd (fst p)) (table data h) = h_end h /\ map snd (table data h) = data.
Proof.
  intros (LS & LE & _). unfold table. revert LS LE. generalize (h_start h), (h_end h). induction data as [|r d IH]; intros [|a l] [|b m] LS LE; try discriminate; [auto|].
  cbn. cbn in LS, LE. destruct (IH l m) as (A & B & C); try lia. now rewrite A, B, C.
Qed.

Lemma window_perm data h data' h' w s inc : dated data h -> dated data' h' -> h_npts h = h_npts h' -> Permutation (table data h) (table data' h') ->
  (forall row, In row data -> length row = w) -> window_trace data h Mean s inc = window_trace data' h' Mean s inc.
Proof.
  intros D D' N P W. unfold window_trace, rows_within. destruct (_ <=? _); [reflexivity|]. cbn [bind].
  fold (table data h) (table data' h'). set (f := fun p : Z * Z * list (option R) => _ && _).
  assert (Q : Permutation (map snd (filter f (table data h))) (map snd (filter f (table data' h')))) by (apply Permutation_map, filter_perm, P).
  assert (H : forall row, In row (map snd (filter f (table data h))) -> length row = w).
  { intros row I. apply W. rewrite <- (proj2 (proj2 (table_starts data h D))). apply in_map_iff in I as (p & <- & I). apply filter_In in I as [I _]. now apply in_map. }
  destruct (map snd (filter f (table data h))) as [|a x] eqn:X.
  - apply Permutation_nil in Q. rewrite Q. cbn. now rewrite N.
  - destruct (map snd (filter f (table data' h'))) as [|b y] eqn:Y; [apply Permutation_sym, Permutation_nil in Q; discriminate|].
    cbn. f_equal. exact (mean_trace_perm w _ _ Q H).
Qed.

Lemma listed_perm data h data' h' w : dated data h -> dated data' h' -> h_npts h = h_npts h' -> Permutation (table data h) (table data' h') ->
  (forall row, In row data -> length row = w) -> forall incs s, listed_traces data h Mean s incs = listed_traces data' h' Mean s incs.
Proof.
  intros D D' N P W incs. induction incs as [|inc incs IH]; intros s; [reflexivity|]. cbn. rewrite (window_perm data h data' h' w s inc) by assumption. now rewrite IH.
Qed.
Lemma earliest_perm x y : Permutation x y -> earliest x = earliest y.
Proof.
  intros P. unfold earliest. destruct x as [|a x]; [apply Permutation_nil in P; now subst|].
  destruct y as [|b y]; [apply Permutation_sym, Permutation_nil in P; discriminate|]. f_equal.
  destruct (fold_min_spec x a) as (A & B & C). destruct (fold_min_spec y b) as (A' & B' & C').
  set (p := fold_left Z.min x a) in *. set (q := fold_left Z.min y b) in *.
  assert (I : In p (b :: y)) by (eapply Permutation_in; [exact P|]; destruct A as [->|A]; [now left|now right]).
  assert (J : In q (a :: x)) by (eapply Permutation_in; [apply Permutation_sym, P|]; destruct A' as [->|A']; [now left|now right]).
  assert (q <= p) by (destruct I as [<-|I]; [exact B'|now apply C']).
  assert (p <= q) by (destruct J as [<-|J]; [exact B|now apply C]). lia.
Qed.
Lemma latest_perm x y : Permutation x y -> latest x = latest y.
Proof.
  intros P. unfold latest. destruct x as [|a x]; [apply Permutation_nil in P; now subst|].
  destruct y as [|b y]; [apply Permutation_sym, Permutation_nil in P; discriminate|]. f_equal.
  destruct (fold_max_spec x a) as (A & B & C). destruct (fold_max_spec y b) as (A' & B' & C').
  set (p := fold_left Z.max x a) in *. set (q := fold_left Z.max y b) in *.
  assert (I : In p (b :: y)) by (eapply Permutation_in; [exact P|]; destruct A as [->|A]; [now left|now right]).
  assert (J : In q (a :: x)) by (eapply Permutation_in; [apply Permutation_sym, P|]; destruct A' as [->|A']; [now left|now right]).
  assert (p <= q) by (destruct I as [<-|I]; [exact B'|now apply C']).
  assert (q <= p) by (destruct J as [<-|J]; [exact B|now apply C]). lia.
Qed.

Theorem order_irrelevant data h data' h' w fuel inc : dated data h -> dated data' h' -> h_npts h = h_npts h' -> Permutation (table data h) (table data' h') ->
  (forall row, In row data -> length row = w) -> extract_multi_trace fuel data h inc Mean = extract_multi_trace fuel data' h' inc Mean.
Proof.
  intros D D' N P W. destruct (table_starts data h D) as (TS & TE & TD). destruct (table_starts data' h' D') as (TS' & TE' & TD').
  assert (PS : Permutation (h_start h) (h_start h')) by (rewrite <- TS, <- TS'; now apply Permutation_map).
  assert (PE : Permutation (h_end h) (h_end h')) by (rewrite <- TE, <- TE'; now apply Permutation_map).
  assert (PD : Permutation data data') by (rewrite <- TD, <- TD'; now apply Permutation_map).
  assert (XR : extract_rows data h Mean = extract_rows data' h' Mean).
  { destruct data as [|a x]; [apply Permutation_nil in PD; subst; cbn; now rewrite N|].
    destruct data' as [|b y]; [apply Permutation_sym, Permutation_nil in PD; discriminate|]. cbn. f_equal. exact (mean_trace_perm w _ _ PD W). }
  assert (XL : forall incs s, listed_traces data h Mean s incs = listed_traces data' h' Mean s incs) by now apply listed_perm with w.
  assert (XC : forall s i, constant_traces fuel data h Mean s i = constant_traces fuel data' h' Mean s i).
  { induction fuel as [|f IH]; intros s i; [reflexivity|]. cbn [constant_traces]. rewrite (latest_perm _ _ PE).
    rewrite (window_perm data h data' h' w s i) by assumption. destruct (latest (h_end h')); [cbn|reflexivity]. now rewrite IH. }
  unfold extract_multi_trace. rewrite (earliest_perm _ _ PS), XR.
  destruct inc as [d|l|[|d [|d2 l]]]; try reflexivity.
  - destruct (d =? 0); [reflexivity|]. destruct (earliest (h_start h')); [cbn|reflexivity]. now rewrite XC.
  - destruct (earliest (h_start h')); [cbn|reflexivity]. now rewrite XL.
  - destruct (d =? 0); [reflexivity|]. destruct (earliest (h_start h')); [cbn [bind]|reflexivity]. now rewrite XL.
Qed.
