From Coq Require Import Sorted.
From Verif Require Import Lib.Base Lib.Time Lib.TimeFacts Model.Archive Model.StoreClient Spec.ArchiveSpec Spec.StoreSpec Proofs.ArchiveFacts Proofs.StoreFacts.
Local Open Scope Z_scope.
#[local] Ltac Zify.zify_post_hook ::= Z.div_mod_to_equations.

(** ** runs *)
Lemma runs_concat p : concat (runs p) = p.
Proof.
  induction p as [|x p IH]; [reflexivity|]. cbn [runs]. destruct (runs p) as [|[|y q] l]; cbn in *.
  - now rewrite <- IH.
  - now rewrite IH.
  - destruct (fst y =? fst x + 1); cbn; now rewrite IH.
Qed.
Lemma runs_nonempty p q : In q (runs p) -> q <> [].
Proof.
  revert q. induction p as [|x p IH]; intros q I; [destruct I|]. cbn [runs] in I. destruct (runs p) as [|[|y r] l] eqn:E.
  - destruct I as [<-|[]]. discriminate.
  - exfalso. apply (IH []); [now left|reflexivity].
  - destruct (fst y =? fst x + 1); destruct I as [<-|I]; try discriminate; apply IH; [now right|exact I].
Qed.
Lemma runs_ends p : p <> [] -> exists f l, hd_error (runs p) = Some f /\ hd_error (rev (runs p)) = Some l /\ first_no f = first_no p /\ last_no l = last_no p.
Proof.
  intros N. pose proof (runs_concat p) as C. pose proof (runs_nonempty p) as R. destruct (runs p) as [|f r] eqn:E; [cbn in C; congruence|].
  exists f. destruct (exists_last (l := f :: r)) as (r' & l & Q); [discriminate|]. exists l. split; [reflexivity|].
  rewrite Q, rev_app_distr. split; [reflexivity|]. split.
  - pose proof (R f (or_introl eq_refl)) as F. destruct f as [|x f]; [contradiction|]. rewrite <- C. reflexivity.
  - assert (L : l <> []) by (apply R; rewrite Q; apply in_or_app; right; now left). rewrite <- C, Q, concat_app. cbn. rewrite app_nil_r.
    destruct l as [|x l] using rev_ind; [contradiction|]. unfold last_no. rewrite app_assoc, !rev_app_distr. reflexivity.
Qed.

(** ** days and files *)
Lemma file_of_inj a b : - epoch_day * day <= a -> - epoch_day * day <= b -> file_of a = file_of b -> a / day = b / day.
Proof.
  intros A B E. unfold file_of, year_of, doy_of in E. unfold daynum in E.
  assert (A' : 0 <= a / day + epoch_day) by (unfold epoch_day in *; rewrite day_val in *; lia).
  assert (B' : 0 <= b / day + epoch_day) by (unfold epoch_day in *; rewrite day_val in *; lia).
  pose proof (year_doy_correct _ A') as Ya. pose proof (year_doy_correct _ B') as Yb.
  destruct (year_doy (a / day + epoch_day)) as [y d], (year_doy (b / day + epoch_day)) as [y' d']. cbn in E. injection E as <- <-. lia.
Qed.

Lemma first_value_some n ps v : first_value n ps = Some v -> exists p, In (Some p) ps /\ lookup n p = Some v.
Proof.
  induction ps as [|[p|] ps IH]; cbn; [discriminate| |].
  - destruct (lookup n p) eqn:E; [intros [= <-]; exists p; auto|]. intros H. destruct (IH H) as (q & I & L). exists q. auto.
  - intros H. destruct (IH H) as (q & I & L). exists q. auto.
Qed.
Lemma first_value_found n ps p : In (Some p) ps -> lookup n p <> None -> exists v, first_value n ps = Some v.
Proof.
  induction ps as [|[q|] ps IH]; cbn; [tauto| |].
  - intros [E|I] L; [injection E as ->; destruct (lookup n p); eauto; congruence|destruct (lookup n q); eauto].
  - intros [E|I] L; [discriminate|auto].
Qed.

Section Facts.
  Variables t0 delta buffer : Z.
  Hypothesis HD : 0 < delta <= day.
  Hypothesis HB : 0 < buffer.
  Notation stime := (stime t0 delta).
  Notation in_order := (in_order t0 delta).

  Lemma searched_day s e t : (s - buffer) / day <= t / day <= (e + buffer) / day -> In (file_of t) (searched buffer s e).
  Proof.
    intros D. unfold searched. destruct (Z.eq_dec (t / day) ((e + buffer) / day)) as [E|E].
    - apply in_map_iff. exists (e + buffer). split; [|apply in_or_app; right; now left]. apply same_day_file, same_day_div. now symmetry.
    - set (k := t / day - (s - buffer) / day). set (u := s - buffer + Z.of_nat (Z.to_nat k) * day).
      assert (K : 0 <= k) by (unfold k; lia).
      assert (U : u / day = t / day). { unfold u. rewrite Z2Nat.id by exact K. rewrite Z.div_add by (rewrite day_val; lia). unfold k. lia. }
      apply in_map_iff. exists u. split; [apply same_day_file, same_day_div; exact U|]. apply in_or_app. left. unfold arange. apply in_map_iff.
      exists (Z.to_nat k). split; [reflexivity|]. apply in_seq. unfold arange_len. split; [lia|].
      assert (UL : u < e + buffer). { rewrite day_val in *. lia. }
      assert (UE : u = s - buffer + k * day) by (unfold u; rewrite Z2Nat.id; [reflexivity|exact K]).
      rewrite day_val in *. lia.
  Qed.
  Lemma read_in d s e n v : In (n, v) (read_samples t0 delta buffer d s e) <->
    nearest t0 delta s <= n <= nearest t0 delta e /\ first_value n (map (file d) (searched buffer s e)) = Some v.
  Proof.
    unfold read_samples. rewrite in_flat_map. split.
    - intros (m & M & I). apply in_arange_1 in M. destruct (first_value m _) eqn:E; [|destruct I]. destruct I as [I|[]]. injection I as <- <-. split; [lia|exact E].
    - intros [R E]. exists n. split; [apply in_arange_1; lia|]. rewrite E. now left.
  Qed.
  Lemma read_ascending d s e : ascending (read_samples t0 delta buffer d s e).
  Proof.
    unfold read_samples. generalize (arange_sorted (nearest t0 delta s) (nearest t0 delta e + 1)).
    generalize (arange (nearest t0 delta s) (nearest t0 delta e + 1) 1) as l. intros l S.
    induction S as [|x l S IH F]; [constructor|]. cbn [flat_map]. destruct (first_value x _); [|exact IH]. cbn. constructor; [exact IH|].
    apply Forall_forall. intros [n v] I. apply in_flat_map in I as (m & M & I). rewrite Forall_forall in F. specialize (F m M).
    destruct (first_value m _); [|destruct I]. destruct I as [I|[]]. injection I as <- <-. exact F.
  Qed.
  Lemma read_only_archived d s e n v : in_order d -> In (n, v) (read_samples t0 delta buffer d s e) ->
    archived d n v /\ 2 * s - delta <= 2 * stime n <= 2 * e + delta.
  Proof.
    intros O I. apply read_in in I as [R E]. apply first_value_some in E as (p & I & L). apply in_map_iff in I as (k & F & _). split.
    - exists k, p. split; [exact F|]. apply ascending_lookup; [apply (O k p F)|exact L].
    - unfold nearest, StoreClient.stime in *. assert (0 < 2 * delta) by lia. nia.
  Qed.
  Lemma read_finds d s e n v : in_order d -> archived d n v -> s <= stime n <= e ->
    exists v', In (n, v') (read_samples t0 delta buffer d s e) /\ archived d n v'.
  Proof.
    intros O (k & p & F & I) T. destruct (O k p F) as (_ & A & P). destruct (P n v I) as (t & K & W).
    assert (S : In k (searched buffer s e)).
    { rewrite <- K. apply searched_day. destruct W as [W|W].
      - apply same_day_div in W. rewrite W. rewrite day_val. lia.
      - destruct W as [[q Q] R]. rewrite Q in *. rewrite day_val in *. lia. }
    destruct (first_value_found n (map (file d) (searched buffer s e)) p) as [v' V].
    - apply in_map_iff. exists k. auto.
    - apply (ascending_lookup _ _ _ A) in I. congruence.
    - exists v'. assert (J : In (n, v') (read_samples t0 delta buffer d s e)); [|split; [exact J|now apply (read_only_archived d s e)]].
      apply read_in. split; [|exact V]. unfold nearest, StoreClient.stime in *. nia.
  Qed.

  (** a request whose data cover it is answered from the archive afterwards *)
  Lemma covered_local d s e m M vm vM : in_order d -> archived d m vm -> archived d M vM -> s <= stime m <= e -> s <= stime M <= e ->
    stime m - delta <= s -> e <= stime M + delta ->
    use_local true (map (seg_of t0 delta) (runs (read_samples t0 delta buffer d s e))) s e = true.
  Proof.
    intros O Am AM Tm TM L R. destruct (read_finds d s e m vm O Am Tm) as (v & I & _). destruct (read_finds d s e M vM O AM TM) as (v' & I' & _).
    pose proof (read_ascending d s e) as A. set (p := read_samples t0 delta buffer d s e) in *.
    assert (N : p <> []) by (intros X; rewrite X in I; destruct I). destruct (runs_ends p N) as (f & l & F & G & Ff & Ll).
    apply use_local_iff. exists (seg_of t0 delta f), (seg_of t0 delta l).
    split; [destruct (runs p); [discriminate|injection F as ->; reflexivity]|].
    split. { rewrite <- map_rev. destruct (rev (runs p)); [discriminate|injection G as ->; reflexivity]. }
    unfold seg_of. cbn [s_start s_end s_delta]. rewrite Ff, Ll. pose proof (ascending_first _ _ A I). pose proof (ascending_last _ _ A I').
    cbn [fst] in *. unfold StoreClient.stime in *. nia.
  Qed.
  Lemma in_range tr s e : t_vals tr <> [] -> stime (t_lo tr) - delta <= s -> e <= stime (t_lo tr + Z.of_nat (length (t_vals tr)) - 1) + delta ->
    (exists n v, In (n, v) (all_of tr) /\ s <= stime n <= e) ->
    exists m M vm vM, In (m, vm) (all_of tr) /\ In (M, vM) (all_of tr) /\ s <= stime m <= e /\ s <= stime M <= e /\
      stime m - delta <= s /\ e <= stime M + delta.
  Proof.
    intros N L R (n & v & I & T). apply all_of_in in I as [I1 I2].
    assert (B : (Z.to_nat (n - t_lo tr) < length (t_vals tr))%nat) by (apply nth_error_Some; congruence).
    set (m := Z.max (t_lo tr) (- ((t0 - s) / delta))). set (M := Z.min (t_lo tr + Z.of_nat (length (t_vals tr)) - 1) ((e - t0) / delta)).
    assert (Q1 : s <= stime (- ((t0 - s) / delta)) < s + delta). { unfold StoreClient.stime. nia. }
    assert (Q2 : e - delta < stime ((e - t0) / delta) <= e). { unfold StoreClient.stime. nia. }
    assert (mono : forall a b, a <= b <-> stime a <= stime b) by (intros; unfold StoreClient.stime; nia).
    assert (Hm : t_lo tr <= m <= n). { unfold m. split; [lia|]. apply Z.max_lub; [exact I1|]. apply Z.lt_succ_r. unfold StoreClient.stime in *. nia. }
    assert (HM : n <= M <= t_lo tr + Z.of_nat (length (t_vals tr)) - 1).
    { unfold M. split; [|lia]. apply Z.min_glb; [lia|]. apply Z.lt_succ_r. unfold StoreClient.stime in *. nia. }
    assert (V : forall q, t_lo tr <= q <= t_lo tr + Z.of_nat (length (t_vals tr)) - 1 -> exists u, In (q, u) (all_of tr)).
    { intros q Hq. exists (nth (Z.to_nat (q - t_lo tr)) (t_vals tr) 0). apply all_of_in. split; [lia|]. apply nth_error_nth'. lia. }
    destruct (V m) as [vm Vm]; [clear - Hm HM B; lia|]. destruct (V M) as [vM VM]; [clear - Hm HM B; lia|]. exists m, M, vm, vM. split; [exact Vm|]. split; [exact VM|].
    assert (Sm : stime m <= stime n) by (apply (proj1 (mono m n)); lia). assert (SM : stime n <= stime M) by (apply (proj1 (mono n M)); lia).
    assert (s <= stime m /\ stime m - delta <= s).
    { unfold m. destruct (Z.max_spec (t_lo tr) (- ((t0 - s) / delta))) as [[X Y]|[X Y]]; rewrite Y; [lia|]. apply (proj1 (mono _ _)) in X. lia. }
    assert (stime M <= e /\ e <= stime M + delta).
    { unfold M. destruct (Z.min_spec (t_lo tr + Z.of_nat (length (t_vals tr)) - 1) ((e - t0) / delta)) as [[X Y]|[X Y]]; rewrite Y; [|lia].
      assert (Z0 : t_lo tr + Z.of_nat (length (t_vals tr)) - 1 <= (e - t0) / delta) by lia. apply (proj1 (mono _ _)) in Z0. lia. }
    lia.
  Qed.
  Lemma repeated d tr s e d' r : in_order d -> (2 <= length (t_vals tr))%nat ->
    stime (t_lo tr) - delta <= s -> e <= stime (t_lo tr + Z.of_nat (length (t_vals tr)) - 1) + delta ->
    (exists n v, In (n, v) (all_of tr) /\ s <= stime n <= e) ->
    get_waveforms t0 delta buffer false s e (Some [tr]) d = (d', Ok r) ->
    forall ro answer, get_waveforms t0 delta buffer ro s e answer d' = (d', Ok (runs (read_samples t0 delta buffer d' s e))).
  Proof.
    intros O L C1 C2 W E ro answer.
    assert (U : use_local true (map (seg_of t0 delta) (runs (read_samples t0 delta buffer d' s e))) s e = true);
      [|unfold get_waveforms; cbv zeta; now rewrite U].
    unfold get_waveforms in E. cbv zeta in E. destruct (use_local _ _ _ _) eqn:U; [now injection E as <- _|].
    cbn [length Nat.eqb negb andb] in E.
    assert (N : t_vals tr <> []) by (intros X; rewrite X in L; cbn in L; lia).
    destruct (write_local_grows t0 delta HD [tr]) with (d := d) as [G K]; [intros x [<-|[]]; exact N|exact O|].
    destruct (write_local t0 delta d [tr]) as [d1 [x|]]; [discriminate|]. injection E as <- _. cbn [fst snd] in *.
    destruct (in_range tr s e N C1 C2 W) as (m & M & vm & vM & Im & IM & H).
    apply (covered_local d1 s e m M vm vM); try tauto; [apply G| |]; apply (K eq_refl tr); auto; now left.
  Qed.
End Facts.
