From Coq Require Import Permutation Sorted Lia.
From Verif Require Import Lib.Base Lib.Sorting Model.Gaps Model.Spectrogram Spec.SpectrogramSpec Proofs.SpectrogramFacts Spec.DataLoopSpec Model.SpectrogramReads.
Local Open Scope Z_scope.

Lemma lt_sorted_eq l1 l2 : StronglySorted Z.lt l1 -> StronglySorted Z.lt l2 -> Permutation l1 l2 -> l1 = l2.
Proof.
  assert (W : forall l, StronglySorted Z.lt l -> StronglySorted (le_rel Z.leb) l).
  { intros l H. induction H as [|x l H IH F]; constructor; [exact IH|]. eapply Forall_impl; [|exact F]. intros y L. unfold le_rel. apply Z.leb_le. lia. }
  intros H1 H2. apply sorted_unique with (leb := Z.leb); [|now apply W|now apply W]. intros a b A B. apply Z.leb_le in A. apply Z.leb_le in B. lia.
Qed.
Lemma grid_sorted start win n k : 0 < win -> StronglySorted Z.lt (map (fun j => start + Z.of_nat j * win) (seq k n)).
Proof.
  intros W. revert k. induction n as [|n IH]; intros k; cbn; constructor; [apply IH|].
  apply Forall_forall. intros x I. apply in_map_iff in I. destruct I as (j & <- & I). apply in_seq in I. nia.
Qed.
Lemma ceil_unique a b n : 0 < b -> ceil_of a b n -> Z.to_nat (- ((- a) / b)) = n.
Proof.
  intros B [L H]. assert (E : (- a) / b = - Z.of_nat n).
  { symmetry. apply Z.div_unique_pos with (r := - a - b * - Z.of_nat n); nia. }
  rewrite E. lia.
Qed.
Lemma seq_add s z m : map (fun j => (s + j)%nat) (seq z m) = seq (s + z) m.
Proof. revert z. induction m as [|m IH]; intros z; [reflexivity|]. cbn. f_equal. rewrite IH. f_equal. lia. Qed.
Lemma spectra_fst {F P I} (f : F) (spec : I -> Z -> P) (times : I -> list Z) l :
  map fst (spectra (map (fun i => Some (map (fun s => (s, Computed f (spec i s))) (times i))) l)) = flat_map times l.
Proof.
  unfold spectra, all_windows, appended. induction l as [|i l IH]; [reflexivity|]. cbn [map flat_map]. rewrite flat_map_app, map_app, IH. f_equal.
  clear. induction (times i) as [|t ts IH]; [reflexivity|]. cbn. now f_equal.
Qed.
Lemma blocks start win m n k : 
  flat_map (fun i => map (fun j => start + Z.of_nat i * (Z.of_nat m * win) + Z.of_nat j * win) (seq 0 m)) (seq k n) =
  map (fun j => start + Z.of_nat j * win) (seq (k * m) (n * m)).
Proof.
  revert k. induction n as [|n IH]; intros k; [reflexivity|]. cbn [seq flat_map]. rewrite IH.
  replace (S n * m)%nat with (m + n * m)%nat by lia. rewrite seq_app, map_app. f_equal.
  - clear. rewrite <- (Nat.add_0_r (k * m)), <- seq_add, map_map. apply map_ext. intros j. rewrite Nat2Z.inj_add, Nat2Z.inj_mul. ring.
  - f_equal. f_equal. lia.
Qed.

Section F.
  Context {F P : Type} (first last : Z) (axis : F) (spec : Z -> Z -> P).
  Variables (start stop win inc : Z) (m n : nat).
  Hypotheses (W : 0 < win) (M : inc = Z.of_nat m * win) (M1 : (1 <= m)%nat) (C : ceil_of (stop - start) inc n) (N1 : (1 <= n)%nat)
    (F1 : first <= start) (L1 : start + Z.of_nat n * inc <= last).
  Let streams := generate_time_windows first last axis spec start stop inc win.

  Lemma starts_eq : window_starts start stop inc = map (fun i => start + Z.of_nat i * (Z.of_nat m * win)) (seq 0 n).
  Proof. unfold window_starts. rewrite (ceil_unique _ _ n) by (auto; nia). now rewrite M. Qed.
  Lemma read_eq i : (i < n)%nat -> let t := start + Z.of_nat i * (Z.of_nat m * win) in
    read_stream first last axis spec inc win t = Some (map (fun s => (s, Computed axis (spec t s))) (map (fun j => t + Z.of_nat j * win) (seq 0 m))).
  Proof.
    intros I t. unfold read_stream. assert (T : t + inc <= last) by (unfold t; nia). replace (Z.max first t) with t by (unfold t; nia). rewrite Z.min_r by exact T.
    destruct (Z.ltb_spec (t + inc) t); [nia|]. do 2 f_equal. unfold slide_starts. replace (t + inc - t) with (Z.of_nat m * win) by lia. rewrite Z.div_mul by lia. now rewrite Nat2Z.id.
  Qed.
  Lemma streams_eq : streams = map (fun i => let t := start + Z.of_nat i * (Z.of_nat m * win) in Some (map (fun s => (s, Computed axis (spec t s))) (map (fun j => t + Z.of_nat j * win) (seq 0 m)))) (seq 0 n).
  Proof.
    unfold streams, generate_time_windows. rewrite starts_eq, map_map. apply map_ext_in. intros i I. apply in_seq in I. apply read_eq. lia.
  Qed.
  Lemma times_eq : map fst (spectra streams) = map (fun j => start + Z.of_nat j * win) (seq 0 (n * m)).
  Proof.
    rewrite streams_eq, (spectra_fst axis (fun i => spec (start + Z.of_nat i * (Z.of_nat m * win))) (fun i => map (fun j => start + Z.of_nat i * (Z.of_nat m * win) + Z.of_nat j * win) (seq 0 m))). apply blocks.
  Qed.
  Lemma spectra_in s x : In (s, x) (spectra streams) -> exists t, In t (window_starts start stop inc) /\ t <= s <= t + inc /\ x = spec t s.
  Proof.
    rewrite streams_eq, starts_eq. unfold spectra, all_windows, appended. rewrite in_flat_map. intros ([s' w] & I & J). rewrite in_flat_map in I. destruct I as (st & I & K). apply in_map_iff in I. destruct I as (i & <- & I). cbn beta iota zeta in K.
    apply in_map_iff in K. destruct K as (s'' & E & K). injection E as -> <-. cbn [fst snd] in J. destruct J as [J|[]]. injection J as -> <-. apply in_map_iff in K. destruct K as (j & <- & K). apply in_seq in K.
    eexists. split; [apply in_map; exact I|]. split; [nia|reflexivity].
  Qed.
  Lemma all_windows_computed w : In w (all_windows streams) -> exists x, snd w = Computed axis x.
  Proof.
    rewrite streams_eq. unfold all_windows. rewrite in_flat_map. intros (st & I & K). apply in_map_iff in I. destruct I as (i & <- & I). cbn beta iota zeta in K.
    apply in_map_iff in K. destruct K as (s & <- & K). eexists. reflexivity.
  Qed.
  Lemma spectrogram_grid p : (0 < p)%nat -> exists s, compute_spectrogram first last axis spec p start stop win inc = Ok (axis, map (fun j => start + Z.of_nat j * win) (seq 0 (n * m)), s) /\
    Forall2 (fun t x => exists r, In r (window_starts start stop inc) /\ r <= t <= r + inc /\ x = spec r t) (map (fun j => start + Z.of_nat j * win) (seq 0 (n * m))) s.
  Proof.
    intros P0. unfold compute_spectrogram. destruct (Z.ltb_spec inc win); [nia|]. fold streams. pose proof times_eq as T. 
    assert (SS : StronglySorted Z.lt (map fst (spectra streams))) by (rewrite T; now apply grid_sorted).
    destruct (spectrogram_same p streams axis (start, Computed axis (spec start start))) as (t & s & E & (L & S & PM) & _).
    - exact P0.
    - intros w I. destruct (all_windows_computed w I) as (x & ->). reflexivity.
    - rewrite T. apply FinFun.Injective_map_NoDup; [|apply seq_NoDup]. intros i j X. nia.
    - rewrite streams_eq. unfold my_windows. destruct n as [|n']; [lia|]. destruct m as [|m']; [lia|]. cbn [seq map]. unfold enumerate. cbn [length seq combine flat_map]. apply in_or_app. left. cbn [fst snd]. rewrite Nat.mod_0_l by lia. cbn [Nat.eqb].
      rewrite !Z.mul_0_l, !Z.add_0_r. now left.
    - discriminate.
    - rewrite E. assert (TT : t = map (fun j => start + Z.of_nat j * win) (seq 0 (n * m))).
      { rewrite <- T. apply lt_sorted_eq; [exact S|exact SS|]. rewrite <- (Permutation_map fst PM). rewrite map_fst_combine by exact L. reflexivity. }
      exists s. rewrite <- TT. split; [reflexivity|]. assert (Q : forall a x, In (a, x) (combine t s) -> exists r, In r (window_starts start stop inc) /\ r <= a <= r + inc /\ x = spec r a).
      { intros a x I. apply spectra_in. eapply Permutation_in; [exact PM|exact I]. }
      clear -L Q. revert s L Q. induction t as [|a t IH]; intros [|x s] L Q; try discriminate; constructor; [apply Q; now left|]. apply IH; [now injection L|]. intros b y I. apply Q. now right.
  Qed.
End F.
