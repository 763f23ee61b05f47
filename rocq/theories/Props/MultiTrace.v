(** C106: several references.  C107: increments given as an array. *)
From Coq Require Import Reals QArith Lra Lia Permutation.
From Verif Require Import Lib.Base Lib.Time Model.LagMatrix Model.TimeDomain Model.Reference Model.MultiTrace Spec.MultiTraceSpec Proofs.MultiTraceFacts.
Local Open Scope Z_scope.

(** ** C106 *)
(** One reference for every increment: the windows follow each other from the first correlation on; each is extended by half an
    increment on both sides, and the reference is extracted from exactly the correlations that touch it. *)
Theorem C106_windows : forall fuel data h l m s out, dated data h -> first_start h s -> (forall d, In d l -> 0 < d) ->
  extract_multi_trace fuel data h (Listed l) m = Ok out ->
  exists ts, out = Several ts /\ length ts = length l /\
    forall k d, nth_error l k = Some d ->
      let b := begins s (map (fun d => d * day) l) k in
      exists t rows, nth_error ts k = Some t /\ selection data h (b - d * day / 2) (b + d * day + d * day / 2) rows /\ extract_rows rows h m = Ok t.
Proof.
  intros fuel data h l m s out D F P E. unfold extract_multi_trace in E. rewrite (earliest_first h s F) in E. cbn [bind] in E.
  destruct (listed_traces data h m s (map (fun d => d * day) l)) as [ts|x] eqn:L; cbn [bind] in E; [|discriminate]. injection E as <-.
  destruct (listed_windows data h m _ _ _ L) as [LN W]. rewrite map_length in LN. exists ts. split; [reflexivity|]. split; [exact LN|].
  intros k d K b. assert (DP : 0 < d) by (apply P; eapply nth_error_In; eauto).
  destruct (W k (d * day)) as (t & T & WT); [rewrite nth_error_map, K; reflexivity|]. fold b in WT.
  assert (Q : 0 < d * day) by (unfold day, sec; lia). assert (0 <= d * day / 2) by (apply Z.div_pos; lia).
  unfold window_trace in WT.
  destruct (rows_exact data h (b - d * day / 2) (b + d * day + d * day / 2) D ltac:(lia)) as (rows & R & S).
  rewrite R in WT. cbn [bind] in WT. exists t, rows. auto.
Qed.
Print Assumptions C106_windows.

(** A constant increment: as many windows as it takes to reach the end of the last correlation ... *)
Theorem C106_constant : forall fuel data h d m s e, first_start h s -> last_end h e -> s < e -> 0 < d ->
  exists n, (forall k, (k < n)%nat <-> s + Z.of_nat k * (d * day) < e) /\
    ((n < fuel)%nat -> extract_multi_trace fuel data h (Every d) m = extract_multi_trace fuel data h (Listed (repeat d n)) m).
Proof.
  intros fuel data h d m s e F L SE P. assert (Q : 0 < d * day) by (unfold day, sec; lia). exists (windows s e (d * day)). split.
  - intros k. rewrite <- (windows_spec s e (d * day) Q SE k). lia.
  - intros FU. unfold extract_multi_trace. destruct (Z.eqb_spec d 0); [lia|]. rewrite (earliest_first h s F). cbn [bind].
    rewrite (constant_listed data h m (windows s e (d * day)) fuel s e (d * day) L Q FU (windows_spec s e (d * day) Q SE)).
    replace (map (fun d0 => d0 * day) (repeat d (windows s e (d * day)))) with (repeat (d * day) (windows s e (d * day))); [reflexivity|].
    clear FU. induction (windows s e (d * day)) as [|w IH]; [reflexivity|]. cbn [repeat map]. now rewrite <- IH.
Qed.
Print Assumptions C106_constant.
(** ... so that every correlation touches a window. *)
Theorem C106_covered : forall data h d s e n i, dated data h -> first_start h s -> last_end h e -> s < e -> 0 < d ->
  (forall k, (k < n)%nat <-> s + Z.of_nat k * (d * day) < e) -> (i < length data)%nat ->
  exists k, (k < n)%nat /\ let b := begins s (map (fun d => d * day) (repeat d n)) k in touches h (b - d * day / 2) (b + d * day + d * day / 2) i.
Proof.
  intros data h d s e n i (LS & LE & O) F L SE P N I. assert (Q : 0 < d * day) by (unfold day, sec; lia).
  assert (H2 : 0 <= d * day / 2) by (apply Z.div_pos; lia).
  destruct (nth_error (h_start h) i) as [a|] eqn:A; [|apply nth_error_None in A; lia].
  destruct (nth_error (h_end h) i) as [z|] eqn:Z0; [|apply nth_error_None in Z0; lia].
  pose proof (O i a z A Z0) as AZ. assert (SA : s <= a) by (apply F; eapply nth_error_In; eauto). assert (ZE : z <= e) by (apply L; eapply nth_error_In; eauto).
  (* the window that holds the start, or the last one *)
  set (inc := d * day) in *.
  assert (B : forall k, (k <= n)%nat -> begins s (map (fun d => d * day) (repeat d n)) k = s + Z.of_nat k * inc).
  { intros k K. unfold begins. replace (map (fun d0 => d0 * day) (repeat d n)) with (repeat inc n) by (clear; induction n as [|n IH]; [reflexivity|cbn; now rewrite IH]).
    replace (firstn k (repeat inc n)) with (repeat inc k) by (clear -K; revert n K; induction k as [|k IH]; intros [|n] K; try reflexivity; [lia|]; cbn; f_equal; apply IH; lia).
    f_equal. clear. induction k as [|k IH]; [reflexivity|]. cbn [repeat fold_right]. rewrite IH. lia. }
  assert (N0 : (0 < n)%nat) by (apply N; lia).
  pose proof (Z.div_mod (a - s) inc ltac:(lia)) as DM. pose proof (Z.mod_pos_bound (a - s) inc Q) as MB. assert (0 <= (a - s) / inc) by (apply Z.div_pos; lia).
  destruct (Nat.lt_ge_cases (Z.to_nat ((a - s) / inc)) n) as [K|K].
  - exists (Z.to_nat ((a - s) / inc)). split; [exact K|]. cbv zeta. rewrite B by lia. rewrite Z2Nat.id by lia. exists a, z.
    split; [exact A|]. split; [exact Z0|]. split; nia.
  - exists (n - 1)%nat. split; [lia|]. cbv zeta. rewrite B by lia. exists a, z. split; [exact A|]. split; [exact Z0|].
    assert (X : e <= s + Z.of_nat n * inc) by (destruct (Z.le_gt_cases e (s + Z.of_nat n * inc)) as [X|X]; [exact X|]; assert (s + Z.of_nat n * inc < e) as Y by lia; apply N in Y; lia).
    assert (Z.of_nat n <= (a - s) / inc) by lia.
    replace (Z.of_nat (n - 1)) with (Z.of_nat n - 1) by lia. split; nia.
Qed.
Print Assumptions C106_covered.

(** An increment that spans all correlations gives the reference of the whole matrix, as the increment 0 does. *)
Theorem C106_whole : forall fuel data h d m s e, dated data h -> first_start h s -> last_end h e -> s < e -> 0 < d -> e - s <= d * day -> (1 < fuel)%nat ->
  extract_multi_trace fuel data h (Every 0) m = (do t <- extract_rows data h m; Ok (One t)) /\
  extract_multi_trace fuel data h (Every d) m = (do t <- extract_rows data h m; Ok (Several [t])).
Proof.
  intros fuel data h d m s e D F L SE P W FU. split; [reflexivity|].
  assert (Q : 0 < d * day) by (unfold day, sec; lia). assert (H2 : 0 <= d * day / 2) by (apply Z.div_pos; lia).
  cbn [extract_multi_trace]. destruct (Z.eqb_spec d 0); [lia|]. rewrite (earliest_first h s F). cbn [bind].
  rewrite (constant_listed data h m 1 fuel s e (d * day) L Q FU) by (intros k; split; nia).
  cbn [repeat listed_traces]. unfold window_trace.
  rewrite (rows_all data h) ; [|exact D|lia|].
  - cbn [bind]. destruct (extract_rows data h m); reflexivity.
  - intros i I. destruct D as (LS & LE & O).
    destruct (nth_error (h_start h) i) as [a|] eqn:A; [|apply nth_error_None in A; lia].
    destruct (nth_error (h_end h) i) as [z|] eqn:Z0; [|apply nth_error_None in Z0; lia].
    pose proof (O i a z A Z0) as AZ. assert (SA : s <= a) by (apply F; eapply nth_error_In; eauto). assert (ZE : z <= e) by (apply L; eapply nth_error_In; eauto).
    exists a, z. repeat split; try assumption; lia.
Qed.
Print Assumptions C106_whole.

(** The mean exists for all windows; where there is no correlation it has no samples. *)
Theorem C106_mean : forall fuel data h l s, first_start h s -> (forall d, In d l -> 0 < d) ->
  exists ts, extract_multi_trace fuel data h (Listed l) Mean = Ok (Several ts).
Proof.
  intros fuel data h l s F P. unfold extract_multi_trace. rewrite (earliest_first h s F). cbn [bind].
  destruct (listed_ok data h Mean (map (fun d => d * day) l)) with (s := s) as (ts & ->).
  - intros s' inc I. apply in_map_iff in I as (d & <- & I). apply window_mean. specialize (P d I). unfold day, sec. lia.
  - cbn. eauto.
Qed.
Print Assumptions C106_mean.
Theorem C106_gap : forall h m, m <> OtherMethod -> extract_rows [] h m = Ok (repeat None (h_npts h)).
Proof. intros h m N. destruct m; try reflexivity. congruence. Qed.
Print Assumptions C106_gap.
(** Increments that are not positive are refused. *)
Theorem C106_refused : forall fuel data h m s l d, first_start h s ->
  (In d l -> d <= 0 -> exists x, extract_multi_trace fuel data h (Listed l) m = Raise x) /\
  (forall e, last_end h e -> s < e -> d < 0 -> (0 < fuel)%nat -> extract_multi_trace fuel data h (Every d) m = Raise ValueError).
Proof.
  intros fuel data h m s l d F. split.
  - intros I N. unfold extract_multi_trace. rewrite (earliest_first h s F). cbn [bind].
    destruct (listed_fails data h m (map (fun d => d * day) l)) with (s := s) as (x & ->); [|cbn; eauto].
    exists (d * day). split; [now apply (in_map (fun d => d * day))|]. unfold day, sec. lia.
  - intros e L SE N FU. destruct fuel as [|f]; [lia|]. cbn [extract_multi_trace]. destruct (Z.eqb_spec d 0); [lia|]. rewrite (earliest_first h s F). cbn [bind constant_traces].
    rewrite (latest_last h e L). cbn [bind]. destruct (Z.ltb_spec s e); [|lia]. unfold window_trace, rows_within.
    assert (d * day < 0) by (unfold day, sec; lia). assert (d * day / 2 <= 0) by (pose proof (Z.mul_div_le (d * day) 2 ltac:(lia)); lia).
    destruct (Z.leb_spec (s + d * day + d * day / 2) (s - d * day / 2)); [reflexivity|lia].
Qed.
Print Assumptions C106_refused.

(** The order in which the correlations are stored does not matter. *)
Theorem C106_order : forall data h data' h' w fuel inc, dated data h -> dated data' h' -> h_npts h = h_npts h' ->
  Permutation (combine (combine (h_start h) (h_end h)) data) (combine (combine (h_start h') (h_end h')) data') ->
  (forall row, In row data -> length row = w) -> extract_multi_trace fuel data h inc Mean = extract_multi_trace fuel data' h' inc Mean.
Proof. exact order_irrelevant. Qed.
Print Assumptions C106_order.

(** ** examples *)
Definition ex_h : hdr := mkH 0 1 1 [0; 1 * day; 4 * day] [1 * day; 2 * day; 5 * day].
Definition ex_data : list (list (option R)) := [[Some 1]; [Some 3]; [Some 7]]%R.
Lemma ex_dated : dated ex_data ex_h.
Proof. split; [reflexivity|]. split; [reflexivity|]. intros [|[|[|i]]] s e; cbn; try (intros [= <-] [= <-]; unfold day, sec; lia). destruct i; discriminate. Qed.
Lemma ex_first : first_start ex_h 0.
Proof. split; [now left|]. intros x [<-|[<-|[<-|[]]]]; unfold day, sec; lia. Qed.
Lemma ex_last : last_end ex_h (5 * day).
Proof. split; [cbn; tauto|]. intros x [<-|[<-|[<-|[]]]]; unfold day, sec; lia. Qed.
Lemma mean1 a : masked_mean [Some a] = Some a.
Proof. unfold masked_mean, mean. cbn. f_equal. field. Qed.
Lemma mean2 a b : masked_mean [Some a; Some b] = Some ((a + b) / 2)%R.
Proof. unfold masked_mean, mean. cbn. f_equal. field. Qed.
Lemma mean3 a b c : masked_mean [Some a; Some b; Some c] = Some ((a + b + c) / 3)%R.
Proof. unfold masked_mean, mean. cbn. f_equal. field. Qed.
Example C106_example : extract_multi_trace 4 ex_data ex_h (Every 2) Mean = Ok (Several [[Some 2]; [Some (11 / 3)]; [Some 7]]%R).
Proof.
  change (Ok (Several [[masked_mean [Some 1; Some 3]]; [masked_mean [Some 1; Some 3; Some 7]]; [masked_mean [Some 7]]]%R) = Ok (Several [[Some 2]; [Some (11 / 3)]; [Some 7]]%R)).
  rewrite mean1, mean2, mean3. repeat f_equal; lra.
Qed.
Example C106_example_constant : extract_multi_trace 4 ex_data ex_h (Every 2) Mean = extract_multi_trace 4 ex_data ex_h (Listed [2; 2; 2]) Mean.
Proof. reflexivity. Qed.

(** ** C107 *)
(** The documentation allows arrays of increments.  Only those with at most one entry are accepted. *)
Theorem C107_array_refuted : forall fuel data h m a b l, extract_multi_trace fuel data h (Array (a :: b :: l)) m = Raise ValueError.
Proof. reflexivity. Qed.
Print Assumptions C107_array_refuted.
Theorem C107_array_partial : forall fuel data h m d, d <> 0 -> extract_multi_trace fuel data h (Array [d]) m = extract_multi_trace fuel data h (Listed [d]) m.
Proof. intros fuel data h m d N. cbn [extract_multi_trace]. destruct (Z.eqb_spec d 0); [contradiction|reflexivity]. Qed.
Print Assumptions C107_array_partial.
(** A zero in a list does not mean the whole time, as the number zero does. *)
Theorem C107_zero_refuted : forall fuel data h m s, first_start h s -> extract_multi_trace fuel data h (Listed [0]) m = Raise ValueError.
Proof. intros fuel data h m s F. unfold extract_multi_trace. rewrite (earliest_first h s F). cbn [bind map listed_traces]. rewrite Z.mul_0_l. unfold window_trace, rows_within. destruct (Z.leb_spec (s + 0 + 0 / 2) (s - 0 / 2)); [reflexivity|]. cbn in *. lia. Qed.
Print Assumptions C107_zero_refuted.
Example C107_example : extract_multi_trace 4 ex_data ex_h (Array [2; 3]) Mean = Raise ValueError /\ exists out, extract_multi_trace 4 ex_data ex_h (Listed [2; 3]) Mean = Ok out.
Proof. split; [reflexivity|]. destruct (C106_mean 4 ex_data ex_h [2; 3] 0 ex_first) as (ts & E); [|eauto]. intros d [<-|[<-|[]]]; lia. Qed.
