From Coq Require Import QArith Qround Qreals Reals Lra Lia.
From Verif Require Import Lib.Base Model.Masking Model.Gaps Spec.GapsSpec Model.MpiMatrix Model.Spectral Spec.SpectralSpec Proofs.SpectralFacts Props.Correlation
  Model.DataLoop Spec.DataLoopSpec Proofs.DataLoopFacts Model.WindowCorrelation Spec.WindowCorrelationSpec.
Local Open Scope R_scope.

Lemma mask_cells_below m l : length m = length l -> map below (mask_cells m l) = map below l.
Proof. unfold mask_cells. revert l. induction m as [|b m IH]; intros [|c l] L; try discriminate; [reflexivity|]. cbn. f_equal. apply IH. now injection L. Qed.
Lemma mask_cells_length m l : length m = length l -> length (mask_cells m l) = length l.
Proof. intros L. rewrite <- (map_length below), mask_cells_below, map_length by exact L. reflexivity. Qed.
Lemma row_below npts l l' : map below l = map below l' -> matrix_row npts l = matrix_row npts l'.
Proof.
  intros E. unfold matrix_row. assert (L : length l = length l') by now rewrite <- (map_length below l), E, map_length.
  rewrite L. f_equal. rewrite <- (map_map below (fun v => match v with Some v => v | None => 0 end)), E, map_map. reflexivity.
Qed.
Lemma set_true_length lo hi m : length (set_true lo hi m) = length m.
Proof. unfold set_true. rewrite map_length. unfold enumerate. rewrite combine_length, seq_length. lia. Qed.
Lemma fold_length {B} (f : list bool -> B -> list bool) l m : (forall m x, length (f m x) = length m) -> length (fold_left f l m) = length m.
Proof. intros H. revert m. induction l as [|x l IH]; intros m; [reflexivity|]. cbn. now rewrite IH, H. Qed.
Lemma mask_at_length start delta n ints rv : length (mask_at start delta n ints rv) = n.
Proof.
  unfold mask_at. set (m := fold_left _ ints (fold_left _ ints (fold_left _ ints _))). assert (L : length m = n).
  { unfold m. rewrite !fold_length, repeat_length; try reflexivity; intros m0 x; match goal with |- length (if ?b then _ else _) = _ => destruct b end; try reflexivity; apply set_true_length. }
  destruct rv; [now rewrite map_length|exact L].
Qed.

Lemma max_npts_const {B} n (l : list (list B)) : (forall x, In x l -> length x = n) -> l <> [] -> max_npts l = n.
Proof.
  unfold max_npts. induction l as [|x l IH]; intros H N; [congruence|]. cbn. rewrite (H x) by now left. destruct l as [|y l]; [cbn; lia|].
  rewrite IH; [lia| |discriminate]. intros z Z. apply H. now right.
Qed.
Lemma row_full n l : length l = n -> matrix_row n (map cell_of l) = map (fun v => match v with Some v => v | None => 0 end) l.
Proof. intros L. unfold matrix_row. rewrite map_length, L, Nat.sub_diag, app_nil_r, map_map. reflexivity. Qed.

Definition zeroed (w : trace R) : list R := map (fun v => match v with Some v => v | None => 0 end) (t_data w).
Section One.
  Variables (o : times) (t s : Z) (x w : trace R) (W : window_of o t s x w).
  Lemma sample_used j : sample (zeroed w) j = used o t s x (s + j).
  Proof.
    destruct W as (S0 & L & H). unfold sample, used.
    assert (U : (if (0 <=? j)%Z then nth (Z.to_nat j) (zeroed w) 0 else 0) = match at_pos w (s + j) with Some v => v | None => 0 end).
    { unfold zeroed, at_pos. rewrite S0. destruct (Z.leb_spec 0 j); destruct (Z.ltb_spec (s + j) s); try lia; [|reflexivity].
      replace (s + j - s)%Z with j by lia. change 0 with ((fun v : option R => match v with Some v => v | None => 0 end) None) at 2. rewrite map_nth. reflexivity. }
    rewrite U, H. destruct (_ && _)%bool; reflexivity.
  Qed.
End One.

Lemma plain_lagged o t s x y w v lag : window_of o t s x w -> window_of o t s y v -> (0 < corr_len o)%Z ->
  plain (zeroed w) (zeroed v) lag = lagged_sum o t s x y lag.
Proof.
  intros W V C. assert (L : length (zeroed w) = S (Z.to_nat (corr_len o))).
  { unfold zeroed. rewrite map_length. destruct W as (_ & L & _). lia. }
  unfold plain, lagged_sum. rewrite L. cbn [rsum]. rewrite (sample_used _ _ _ _ _ W).
  replace (used o t s x (s + Z.of_nat (Z.to_nat (corr_len o)))) with 0.
  - rewrite Rmult_0_l, Rplus_0_r. apply rsum_ext. intros j J. rewrite (sample_used _ _ _ _ _ W), (sample_used _ _ _ _ _ V), Z.add_assoc. reflexivity.
  - unfold used. replace (s + Z.of_nat (Z.to_nat (corr_len o)) <? s + corr_len o)%Z with false by (symmetry; apply Z.ltb_ge; lia). now rewrite Bool.andb_false_r.
Qed.
Lemma preprocessed_unique {A} (o : times) proc (archive : list (trace A)) c t x y : preprocessed o proc archive c t x -> preprocessed o proc archive c t y -> x = y.
Proof.
  intros (w & (a & A1 & S1 & _) & P1) (v & (b & A2 & S2 & _) & P2). rewrite A1 in A2. injection A2 as <-. rewrite S1 in S2. injection S2 as <-. rewrite P1 in P2. now injection P2.
Qed.

Section Compose.
  Variables (sadd : list cplx -> list cplx -> list cplx) (szero : list cplx) (cadd : result (list R) -> result (list R) -> result (list R)) (czero : result (list R)).
  Hypotheses (S1 : forall x, sadd szero x = x) (S2 : forall x, sadd x szero = x) (C1 : forall x, cadd czero x = x) (C2 : forall x, cadd x czero = x).

  Lemma window_rows (o : times) proc archive t s win center sr len k combis :
    (0 < corr_len o)%Z -> (forall c w, In (c, w) win -> exists x, preprocessed o proc archive c t x /\ window_of o t s x w) ->
    (0 < sr)%Q -> (sr * len == inject_Z k)%Q -> (1 <= k)%Z -> Z.even (padded_len (Z.to_nat (corr_len o + 1)) sr len) = true ->
    Forall (fun c => (fst c < length win)%nat /\ (snd c < length win)%nat) combis ->
    exists rows, (forall p, (0 < p)%nat -> correlate_window sadd szero cadd czero false center sr len p win combis = Ok rows) /\
      Forall2 (fun c r => exists row, r = Ok row /\ length row = (2 * Z.to_nat k + 1)%nat /\
        forall x y, preprocessed o proc archive (nth (fst c) (map fst win) 0%nat) t x -> preprocessed o proc archive (nth (snd c) (map fst win) 0%nat) t y ->
          forall i, (i < 2 * Z.to_nat k + 1)%nat -> nth i row 0 = lagged_sum o t s x y (Z.of_nat i - k)) combis rows.
  Proof.
    intros CL RW SR K K1 EV FC.
    set (n := Z.to_nat (corr_len o + 1)) in *.
    assert (LW : forall c w, In (c, w) win -> length (t_data w) = n /\ t_start w = s).
    { intros c w I. apply RW in I. destruct I as (x & _ & (S0 & L & _)). split; [unfold n; lia|exact S0]. }
    unfold correlate_window. set (data := map (fun w => map cell_of (t_data (snd w))) win).
    assert (LD : length data = length win) by (unfold data; apply map_length).
    destruct combis as [|c0' cs] eqn:EC.
    { eexists. split; [intros p P|constructor]. rewrite (C46_parallel sadd szero cadd czero S1 S2 C1 C2 false center sr len _ p (max_npts data)); [reflexivity|exact P| |constructor].
      apply Forall_forall. intros r I. apply in_map_iff in I. destruct I as (d & <- & I). apply in_map_iff in I. destruct I as ([c w] & <- & I).
      cbn [snd]. rewrite (max_npts_const n).
      - destruct (LW c w I) as [L _]. rewrite row_full by exact L. now rewrite map_length.
      - intros z Z. apply in_map_iff in Z. destruct Z as ([c' w'] & <- & Z). cbn [snd]. rewrite map_length. now apply (LW c' w').
      - intros D. apply (f_equal (@length _)) in D. rewrite LD in D. destruct win; [contradiction|discriminate]. }
    rewrite <- EC in *. assert (NE : win <> []) by (intros ->; rewrite EC in FC; inversion FC as [|? ? F _]; cbn in F; lia).
    assert (MX : max_npts data = n).
    { apply max_npts_const; [|intros D; apply (f_equal (@length _)) in D; rewrite LD in D; destruct win; [congruence|discriminate]].
      intros z Z. apply in_map_iff in Z. destruct Z as ([c' w'] & <- & Z). cbn [snd]. rewrite map_length. now apply (LW c' w'). }
    rewrite MX.
    assert (AE : map (matrix_row n) data = map (fun w => zeroed (snd w)) win).
    { unfold data. rewrite map_map. apply map_ext_in. intros [c w] I. cbn [snd]. apply row_full. now apply (LW c w). }
    rewrite AE. eexists. split. intros p P. rewrite (C46_parallel sadd szero cadd czero S1 S2 C1 C2 false center sr len _ p n); [reflexivity|exact P| |].
    { apply Forall_forall. intros r I. apply in_map_iff in I. destruct I as ([c w] & <- & I). unfold zeroed. rewrite map_length. now apply (LW c w). }
    { rewrite map_length. exact FC. }
    clear EC c0' cs AE. induction combis as [|[a b] combis IH]; [constructor|]. inversion FC as [|? ? [FA FB] FC']; subst. cbn [fst snd] in FA, FB. cbn [map].
    constructor; [|apply IH; exact FC']. clear IH FC FC'. cbn [fst snd].
    destruct (nth_error win a) as [[c1 w1]|] eqn:E1; [|apply nth_error_None in E1; lia]. destruct (nth_error win b) as [[c2 w2]|] eqn:E2; [|apply nth_error_None in E2; lia].
    assert (T1 : nth a (map (fun w => t_start (snd w)) win) 0%Z = s).
    { erewrite nth_error_nth by (apply map_nth_error; exact E1). cbn. eapply LW, nth_error_In; exact E1. }
    assert (T2 : nth b (map (fun w => t_start (snd w)) win) 0%Z = s).
    { erewrite nth_error_nth by (apply map_nth_error; exact E2). cbn. eapply LW, nth_error_In; exact E2. }
    rewrite T1, T2, Z.sub_diag.
    erewrite (nth_error_nth (map (fun w => zeroed (snd w)) win) a) by (apply map_nth_error; exact E1).
    erewrite (nth_error_nth (map (fun w => zeroed (snd w)) win) b) by (apply map_nth_error; exact E2).
    erewrite (nth_error_nth (map fst win) a) by (apply map_nth_error; exact E1).
    erewrite (nth_error_nth (map fst win) b) by (apply map_nth_error; exact E2). cbn [fst snd].
    apply nth_error_In in E1. apply nth_error_In in E2. destruct (LW _ _ E1) as [L1 _]. destruct (LW _ _ E2) as [L2 _].
    assert (Z1 : length (zeroed w1) = n) by (unfold zeroed; now rewrite map_length). assert (Z2 : length (zeroed w2) = n) by (unfold zeroed; now rewrite map_length).
    destruct (padded_enough n sr len k K ltac:(lia)) as [B SK].
    assert (OFF : (inject_Z 0 / sr * sr == inject_Z 0)%Q) by (unfold Qdiv; rewrite Qmult_0_l; reflexivity).
    destruct (correlate_traces_ok false center sr len (inject_Z 0 / sr) 0 (zeroed w1) (zeroed w2)) as (row & E & LR & V).
    - rewrite Z1. unfold n. lia.
    - now rewrite Z1, Z2.
    - rewrite SK. lia.
    - rewrite Z1. exact EV.
    - rewrite Z1. lia.
    - destruct center; [apply remaining_center; exact OFF|apply (remaining_zero sr _ 0 SR OFF)].
    - exists row. split; [exact E|]. rewrite SK in LR, V. split; [exact LR|]. intros x y X Y i I. rewrite V by exact I.
      apply RW in E1. apply RW in E2. destruct E1 as (x' & X' & W1). destruct E2 as (y' & Y' & W2).
      rewrite (preprocessed_unique _ _ _ _ _ _ _ X X') in *. rewrite (preprocessed_unique _ _ _ _ _ _ _ Y Y') in *.
      unfold Rdiv. rewrite Rinv_1, Rmult_1_r. rewrite (plain_lagged o t s x' y' w1 w2) by assumption. f_equal. lia.
  Qed.
  Lemma window_lagged (o : times) proc archive t s win center sr len p k combis :
    (0 < corr_len o)%Z -> right_window o proc archive (t, s) (s, win) -> (0 < p)%nat ->
    (0 < sr)%Q -> (sr * len == inject_Z k)%Q -> (1 <= k)%Z -> Z.even (padded_len (Z.to_nat (corr_len o + 1)) sr len) = true ->
    Forall (fun c => (fst c < length win)%nat /\ (snd c < length win)%nat) combis ->
    exists rows, correlate_window sadd szero cadd czero false center sr len p win combis = Ok rows /\
      Forall2 (fun c r => exists row, r = Ok row /\ length row = (2 * Z.to_nat k + 1)%nat /\
        forall x y, preprocessed o proc archive (nth (fst c) (map fst win) 0%nat) t x -> preprocessed o proc archive (nth (snd c) (map fst win) 0%nat) t y ->
          forall i, (i < 2 * Z.to_nat k + 1)%nat -> nth i row 0 = lagged_sum o t s x y (Z.of_nat i - k)) combis rows.
  Proof.
    intros CL (_ & _ & RW) P SR K K1 EV FC. destruct (window_rows o proc archive t s win center sr len k combis) as (rows & E & F); try assumption.
    - intros c w I. apply RW in I. destruct I as (x & X & W & _). exists x. now split.
    - exists rows. split; [now apply E|exact F].
  Qed.
End Compose.
