(** The times of a spectrogram. *)
From Coq Require Import Lia.
From Verif Require Import Lib.Base Model.Gaps Model.Spectrogram Spec.DataLoopSpec Model.SpectrogramReads Proofs.SpectrogramReadsFacts.
Local Open Scope Z_scope.

(** ** C135: spectra of windows of win_len from starttime to endtime, whatever read_increment is *)
(** The data cover all reads, read_increment is a multiple of win_len and the requested time is one of read_increment: one spectrum for each
    window between start and end, in order, for every number of processes. *)
Theorem C135_windows_partial : forall (F P : Type) first last (axis : F) (spec : Z -> Z -> P) start stop win m n p,
  0 < win -> (1 <= m)%nat -> (1 <= n)%nat -> (0 < p)%nat -> stop - start = Z.of_nat n * (Z.of_nat m * win) -> first <= start -> stop <= last ->
  exists s, compute_spectrogram first last axis spec p start stop win (Z.of_nat m * win) = Ok (axis, map (fun j => start + Z.of_nat j * win) (seq 0 (Z.to_nat ((stop - start) / win))), s) /\
    length s = Z.to_nat ((stop - start) / win).
Proof.
  intros F P first last axis spec start stop win m n p W M N P0 E F1 L1.
  destruct (spectrogram_grid first last axis spec start stop win (Z.of_nat m * win) m n) with (p := p) as (s & S & FF); try assumption; try reflexivity.
  - unfold ceil_of. nia.
  - lia.
  - replace (Z.to_nat ((stop - start) / win)) with (n * m)%nat.
    + exists s. split; [exact S|]. assert (L : forall (A B : Type) (R : A -> B -> Prop) l l', Forall2 R l l' -> length l = length l') by (induction 1; cbn; auto). apply L in FF. rewrite <- FF, map_length, seq_length. reflexivity.
    + rewrite E, Z.mul_assoc, Z.div_mul by lia. rewrite <- Nat2Z.inj_mul, Nat2Z.id. reflexivity.
Qed.
Print Assumptions C135_windows_partial.
(** The general case of a multiple of win_len: windows up to the end of the last read, each spectrum from the data of its own time. *)
Theorem C135_last_read_partial : forall (F P : Type) first last (axis : F) (spec : Z -> Z -> P) start stop win inc m n p,
  0 < win -> inc = Z.of_nat m * win -> (1 <= m)%nat -> ceil_of (stop - start) inc n -> (1 <= n)%nat -> first <= start -> start + Z.of_nat n * inc <= last -> (0 < p)%nat ->
  exists s, compute_spectrogram first last axis spec p start stop win inc = Ok (axis, map (fun j => start + Z.of_nat j * win) (seq 0 (n * m)), s) /\
    Forall2 (fun t x => exists r, In r (window_starts start stop inc) /\ r <= t <= r + inc /\ x = spec r t) (map (fun j => start + Z.of_nat j * win) (seq 0 (n * m))) s.
Proof. intros F P first last axis spec start stop win inc m n p H1 H2 H3 H4 H5 H6 H7. now apply spectrogram_grid. Qed.
Print Assumptions C135_last_read_partial.
Definition one_spec (r s : Z) : Z * Z := (r, s).
Example C135_example : compute_spectrogram 0 100 7 one_spec 2 10 50 10 20 = Ok (7, [10; 20; 30; 40], [(10, 10); (10, 20); (30, 30); (30, 40)]) /\
  compute_spectrogram 0 100 7 one_spec 1 10 50 10 10 = Ok (7, [10; 20; 30; 40], [(10, 10); (20, 20); (30, 30); (40, 40)]) /\ 50 - 10 = Z.of_nat 2 * (Z.of_nat 2 * 10).
Proof. repeat split. Qed.
(** The last read goes on after endtime, and so do the spectra. *)
Theorem C135_after_end_refuted : forall (F P : Type) first last (axis : F) (spec : Z -> Z -> P) start stop win inc m n p,
  0 < win -> inc = Z.of_nat m * win -> (1 <= m)%nat -> ceil_of (stop - start) inc n -> (1 <= n)%nat -> first <= start -> start + Z.of_nat n * inc <= last -> (0 < p)%nat ->
  stop <= start + Z.of_nat n * inc - win ->
  exists t s, compute_spectrogram first last axis spec p start stop win inc = Ok (axis, t, s) /\ In (start + Z.of_nat n * inc - win) t.
Proof.
  intros F P first last axis spec start stop win inc m n p H1 H2 H3 H4 H5 H6 H7 H8 H9.
  destruct (spectrogram_grid first last axis spec start stop win inc m n H1 H2 H3 H4 H5 H6 H7 p H8) as (s & S & _). do 2 eexists. split; [exact S|].
  apply in_map_iff. exists (n * m - 1)%nat. split; [|apply in_seq; nia]. rewrite Nat2Z.inj_sub, Nat2Z.inj_mul by nia. rewrite H2. change (Z.of_nat 1) with 1. ring.
Qed.
Print Assumptions C135_after_end_refuted.
(** ten samples are requested; the windows of all fifty of the read are returned *)
Example C135_after_end_example : exists s, compute_spectrogram 0 1000 7 one_spec 1 0 10 10 50 = Ok (7, [0; 10; 20; 30; 40], s).
Proof. eexists. reflexivity. Qed.
(** read_increment that is not a multiple of win_len, as allowed: other windows, and data that are never used. *)
Theorem C135_multiple_refuted : exists start stop win inc inc', win <= inc /\ win <= inc' /\ stop - start = 2 * inc' /\
  exists t t' s s', compute_spectrogram 0 1000 7 one_spec 1 start stop win inc = Ok (7, t, s) /\ compute_spectrogram 0 1000 7 one_spec 1 start stop win inc' = Ok (7, t', s') /\ t <> t' /\ (length t < length t')%nat.
Proof.
  exists 0, 60, 10, 15, 30. split; [lia|]. split; [lia|]. split; [reflexivity|].
  exists [0; 15; 30; 45], [0; 10; 20; 30; 40; 50], [(0, 0); (15, 15); (30, 30); (45, 45)], [(0, 0); (0, 10); (0, 20); (30, 30); (30, 40); (30, 50)].
  split; [reflexivity|]. split; [reflexivity|]. split; [discriminate|cbn; lia].
Qed.
Print Assumptions C135_multiple_refuted.
(** Data that start late: the windows start with the data and depend on read_increment. *)
Theorem C135_late_data_refuted : exists first start stop win inc inc', first < stop /\ inc = 2 * win /\ inc' = 4 * win /\ stop - start = inc' /\
  exists t t' s s', compute_spectrogram first 1000 7 one_spec 1 start stop win inc = Ok (7, t, s) /\ compute_spectrogram first 1000 7 one_spec 1 start stop win inc' = Ok (7, t', s') /\ t <> t'.
Proof.
  exists 5, 0, 40, 10, 20, 40. split; [lia|]. split; [reflexivity|]. split; [reflexivity|]. split; [reflexivity|].
  exists [5; 20; 30], [5; 15; 25], [(0, 5); (20, 20); (20, 30)], [(0, 5); (0, 15); (0, 25)]. split; [reflexivity|]. split; [reflexivity|discriminate].
Qed.
Print Assumptions C135_late_data_refuted.
Theorem C135_increment : forall (F P : Type) first last (axis : F) (spec : Z -> Z -> P) p start stop win inc, inc < win -> compute_spectrogram first last axis spec p start stop win inc = Raise ValueError.
Proof. intros. unfold compute_spectrogram. destruct (Z.ltb_spec inc win); [reflexivity|lia]. Qed.
Print Assumptions C135_increment.
