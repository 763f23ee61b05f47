From Coq Require Import Reals QArith Qround Qreals Lra Lia.
From Verif Require Import Lib.Base Model.LagMatrix Model.Spectral Model.TimeDomain Model.Similarity Model.DVs Model.Shift Spec.ShiftSpec.
From Verif Require Import Proofs.SpectralFacts Proofs.AmplitudeFacts Proofs.SimilarityFacts Proofs.ReferenceFacts.
Local Open Scope R_scope.

(** ** rows one after the other *)
Lemma for_rows_ok {A S} (f : A -> S -> A) get rows : forall i,
  (forall k, (k < length rows)%nat -> get (i + k)%nat <> None) ->
  exists out, for_rows f get i rows = (None, out) /\ length out = length rows /\
    forall k r s, nth_error rows k = Some r -> get (i + k)%nat = Some s -> nth_error out k = Some (f r s).
Proof.
  induction rows as [|r rows IH]; intros i G; cbn [for_rows].
  - exists []. repeat split. intros [|k] ? ? E; discriminate.
  - destruct (get i) as [s|] eqn:E.
    2:{ exfalso. apply (G 0%nat); [cbn; lia|]. now rewrite Nat.add_0_r. }
    destruct (IH (Datatypes.S i)) as (out & -> & L & H).
    { intros k K. specialize (G (Datatypes.S k)). rewrite Nat.add_succ_r in G. apply G. cbn. lia. }
    exists (f r s :: out). split; [reflexivity|]. split; [cbn; lia|].
    intros [|k] r' s' R S'; cbn in *.
    + rewrite Nat.add_0_r in S'. congruence.
    + apply H; [exact R|]. now rewrite Nat.add_succ_r in S'.
Qed.
Lemma for_rows_fail {A S} (f : A -> S -> A) get rows : forall i k, (k < length rows)%nat -> get (i + k)%nat = None -> fst (for_rows f get i rows) = Some IndexError.
Proof.
  induction rows as [|r rows IH]; intros i k K G; cbn in *; [lia|].
  destruct (get i) as [s|] eqn:E; [|reflexivity].
  destruct k as [|k]; [rewrite Nat.add_0_r in G; congruence|].
  specialize (IH (Datatypes.S i) k). destruct (for_rows f get (Datatypes.S i) rows). apply IH; [lia|].
  now rewrite Nat.add_succ_r in G.
Qed.
Lemma for_rows_length {A S} (f : A -> S -> A) get rows : forall i, length (snd (for_rows f get i rows)) = length rows.
Proof.
  induction rows as [|r rows IH]; intros i; cbn; [reflexivity|]. destruct (get i); [|reflexivity].
  specialize (IH (Datatypes.S i)). destruct (for_rows f get (Datatypes.S i) rows). cbn in *. lia.
Qed.

(** ** positions *)
Lemma up_IZR z : up (IZR z) = (z + 1)%Z.
Proof. symmetry. apply tech_up; rewrite plus_IZR; lra. Qed.
Lemma ceilz_bounds u : u <= IZR (ceilz u) < u + 1.
Proof. unfold ceilz. destruct (archimed (- u)) as [A B]. rewrite minus_IZR. lra. Qed.
Lemma ceilz_IZR z : ceilz (IZR z) = z.
Proof. unfold ceilz. rewrite <- opp_IZR, up_IZR. lia. Qed.

(** inside the axis: the position lies in its cell *)
Lemma cell_inside n u : (2 <= n)%nat -> 0 <= u <= INR (n - 1) ->
  (S (cell n u) < n)%nat /\ INR (cell n u) <= u <= INR (cell n u) + 1.
Proof.
  intros N [U0 U1]. destruct (ceilz_bounds u) as [C0 C1].
  assert (Z0 : (0 <= ceilz u)%Z) by (apply le_IZR; lra).
  assert (Z1 : (ceilz u < Z.of_nat n)%Z).
  { apply lt_IZR. rewrite <- INR_IZR_INZ. rewrite minus_INR in U1 by lia. cbn in U1. lra. }
  unfold cell. destruct (Z.eq_dec (ceilz u) 0) as [E|E].
  - rewrite E. replace (Z.to_nat (Z.min (Z.max 0 1) (Z.of_nat n - 1) - 1)) with 0%nat by lia.
    rewrite E in C0. cbn in *. split; [lia|lra].
  - replace (Z.min (Z.max (ceilz u) 1) (Z.of_nat n - 1) - 1)%Z with (ceilz u - 1)%Z by lia.
    split; [lia|]. rewrite INR_IZR_INZ, Z2Nat.id by lia. rewrite minus_IZR. lra.
Qed.
Lemma cell_whole n j : (2 <= n)%nat -> (j < n)%nat -> cell n (INR j) = (if j =? 0 then 0 else j - 1)%nat.
Proof.
  intros N J. unfold cell. rewrite INR_IZR_INZ, ceilz_IZR. destruct (Nat.eqb_spec j 0); lia.
Qed.

(** *** whole numbers of samples *)
Definition all_there (row : list (option R)) : Prop := forall k, (k < length row)%nat -> nth k row None <> None.
Lemma all_there_map l : all_there (map Some l).
Proof.
  intros k K. rewrite map_length in K. rewrite (nth_indep _ None (Some 0)) by (now rewrite map_length).
  rewrite (map_nth (@Some R)). discriminate.
Qed.
Lemma interp_whole row j : (2 <= length row)%nat -> (j < length row)%nat ->
  nth j row None <> None -> nth (if j =? 0 then 1 else j - 1)%nat row None <> None ->
  interp row (INR j) = nth j row None.
Proof.
  intros N J A B. unfold interp. rewrite cell_whole by assumption.
  destruct (Nat.eqb_spec j 0) as [->|NJ].
  - destruct (nth 0 row None) as [x|]; [|congruence]. destruct (nth 1 row None) as [y|]; [|congruence]. cbn. f_equal. lra.
  - replace (S (j - 1)) with j by lia.
    destruct (nth j row None) as [x|]; [|congruence]. destruct (nth (j - 1) row None) as [y|]; [|congruence]. cbn.
    f_equal. rewrite minus_INR by lia. cbn. lra.
Qed.
Lemma shift_row_length row s : length (shift_row row s) = length row.
Proof. destruct s; cbn; [now rewrite map_length, seq_length|now rewrite repeat_length]. Qed.
Lemma shift_row_nth row v k : (k < length row)%nat -> nth k (shift_row row (Some v)) None = interp row (INR k + v).
Proof. intros K. cbn. now rewrite (nth_map_seq _ _ _ _ K). Qed.
Lemma shift_whole row m k j : (2 <= length row)%nat -> (k < length row)%nat -> (Z.of_nat j = Z.of_nat k + m)%Z -> (j < length row)%nat ->
  nth j row None <> None -> nth (if j =? 0 then 1 else j - 1)%nat row None <> None ->
  nth k (shift_row row (Some (IZR m))) None = nth j row None.
Proof.
  intros N K E J A B. rewrite shift_row_nth by assumption.
  replace (INR k + IZR m) with (INR j); [now apply interp_whole|].
  rewrite !INR_IZR_INZ, E, plus_IZR. reflexivity.
Qed.
(** *** between samples *)
Lemma interp_between row u x y : (2 <= length row)%nat -> 0 <= u <= INR (length row - 1) ->
  nth (cell (length row) u) row None = Some x -> nth (S (cell (length row) u)) row None = Some y ->
  exists v, interp row u = Some v /\ Rmin x y <= v <= Rmax x y.
Proof.
  intros N U X Y. unfold interp. rewrite X, Y. cbn [between].
  destruct (cell_inside _ _ N U) as [_ C]. set (f := u - INR (cell (length row) u)) in *.
  assert (F : 0 <= f <= 1) by (unfold f; lra).
  eexists. split; [reflexivity|]. unfold Rmin, Rmax. destruct (Rle_dec x y); split; nra.
Qed.
