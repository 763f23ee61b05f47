From Coq Require Import Reals QArith Qround Qreals Lra Lia.
From Verif Require Import Lib.Base Model.LagMatrix Model.Spectral Model.TimeDomain Model.Similarity Model.DVs Model.Shift Spec.ShiftSpec.
From Verif Require Import Proofs.SpectralFacts Proofs.LagFacts Proofs.AmplitudeFacts Proofs.DVFacts Proofs.SimilarityFacts Proofs.ShiftFacts Proofs.ShiftWindow Proofs.MeasureFacts Proofs.DisplacedFacts.
Local Open Scope R_scope.

Lemma corrected_row r m ref row : displaced 0 m ref row -> all_there row -> (2 <= length row)%nat -> (- Z.of_nat r <= m <= Z.of_nat r)%Z ->
  displaced r 0 ref (shift_row row (Some (IZR (- m)))).
Proof.
  intros [L D] A N M. split; [now rewrite shift_row_length|]. intros k j K1 K2 E J.
  rewrite (shift_whole row (- m) k (Z.to_nat (Z.of_nat k - m))) by (try (apply A; destruct (Nat.eqb_spec (Z.to_nat (Z.of_nat k - m)) 0); lia); lia).
  rewrite (D _ k) by lia. do 2 f_equal. lia.
Qed.
Lemma reported_squeeze_opp l i v : (2 <= length l)%nat -> nth_error l i = Some v -> entry (opposite (squeeze l)) i = Some (option_map Ropp v).
Proof. intros L E. destruct l as [|a [|b l]]; cbn in L; [lia..|]. change (squeeze (a :: b :: l)) with (Values (a :: b :: l)). cbn [opposite entry]. now apply map_nth_error. Qed.

(** correcting the measured shifts and measuring again *)
Section Again.
  Variables (sp : list R -> R -> R) (h : hdr) (data : list (list (option R))) (ref : list R) (tw : option (list (Q * Q))) (range : Q) (steps : nat) (sd : shift_sides).
  Hypothesis Hsr : (0 < h_sr h)%Q.
  Hypothesis Hn : length ref = h_npts h.
  Hypothesis Hpos : (2 <= h_npts h)%nat.
  Hypothesis Hrange : (0 <= range)%Q.
  Hypothesis Hodd : Nat.even steps = false.
  Hypothesis Hsteps : (3 <= steps)%nat.
  Hypothesis Hsd : sd <> OtherSides.
  Hypothesis Hfit : fits h sd range tw.
  Hypothesis Hsp : through_samples sp.
  Let reach := Z.to_nat (Qfloor (range * h_sr h)).

  Lemma corrected_rows dt : (2 <= length data)%nat ->
    (forall i row, nth_error data i = Some row -> exists m v, displaced 0 m ref row /\ all_there row /\ (- Z.of_nat reach <= m <= Z.of_nat reach)%Z /\
      reported (m_value dt) i = Some (Some v) /\ v * Q2R (h_sr h) = IZR m) ->
    exists data', correct_shift h data dt = (None, data') /\ length data' = length data /\
      forall i row', nth_error data' i = Some row' -> displaced reach 0 ref row'.
  Proof.
    intros LD H. destruct (m_value dt) as [v0|l] eqn:MV.
    - exfalso. destruct (nth_error data 1) as [row|] eqn:E; [|apply nth_error_None in E; lia].
      destruct (H 1%nat row E) as (m & v & _ & _ & _ & R & _). discriminate.
    - assert (G : forall i row, nth_error data i = Some row -> exists m v, displaced 0 m ref row /\ all_there row /\ (- Z.of_nat reach <= m <= Z.of_nat reach)%Z /\
                 entry (opposite (Values l)) i = Some (Some (- v)) /\ v * Q2R (h_sr h) = IZR m).
      { intros i row E. destruct (H i row E) as (m & v & D & A & B & R & V). exists m, v. repeat split; try assumption; try apply B; try apply D.
        cbn in R. cbn [opposite entry]. now rewrite (map_nth_error _ _ _ R). }
      unfold correct_shift, apply_shift. rewrite MV.
      destruct (for_rows_ok (fun row s => shift_row row (in_samples h s)) (entry (opposite (Values l))) data 0) as (out & E & L & R).
      { intros k K. apply nth_error_Some in K. destruct (nth_error data k) as [row|] eqn:Ek; [|congruence].
        destruct (G k row Ek) as (m & v & _ & _ & _ & X & _). rewrite Nat.add_0_l, X. discriminate. }
      exists out. split; [exact E|]. split; [exact L|]. intros i row' Hi.
      assert (I : (i < length data)%nat) by (rewrite <- L; apply nth_error_Some; congruence).
      apply nth_error_Some in I. destruct (nth_error data i) as [row|] eqn:Ei; [|congruence].
      destruct (G i row Ei) as (m & v & D & A & B & X & V). specialize (R i row _ Ei X). rewrite Hi in R. injection R as ->.
      cbn [in_samples option_map]. replace (- v * Q2R (h_sr h)) with (IZR (- m)) by (rewrite opp_IZR, <- V; ring).
      apply corrected_row; try assumption. rewrite (proj1 D). lia.
  Qed.
  Lemma measured_again : (forall i row, nth_error data i = Some row -> displaced reach 0 ref row) ->
    exists dt, measure_shift sp h data ref tw range steps sd = Ok dt /\
      forall i, (i < length data)%nat -> (reported (m_corr dt) i = Some None /\ reported (m_value dt) i = Some None) \/ reported (m_corr dt) i = Some (Some 1).
  Proof.
    intros H. destruct (measure_displaced_full sp h data ref tw range steps sd) as (dt & E & G); try assumption; [lia|].
    exists dt. split; [exact E|]. intros i I. apply nth_error_Some in I. destruct (nth_error data i) as [row|] eqn:Ei; [|congruence].
    destruct (linspace_zero range steps Hodd Hsteps) as (s & Is & Es).
    destruct (G i row 0%Z s Ei (H i row Ei) Is) as [X|[X _]]; [|now left|now right].
    rewrite Es. reflexivity.
  Qed.
End Again.

(** a single trace *)
Lemma measure_shape sp h data ref tw range steps sd dt : measure_shift sp h data ref tw range steps sd = Ok dt ->
  exists res, dt = shift_measurement res /\ length res = length data.
Proof.
  assert (W : forall l, measure_windows sp h data ref l range steps sd = Ok dt -> exists res, dt = shift_measurement res /\ length res = length data).
  { intros l. unfold measure_windows. destruct (latest l); [|discriminate]. destruct (earliest l); [|discriminate]. cbv zeta.
    destruct (negb _); [discriminate|]. destruct (negb _); [discriminate|]. destruct (forallb _ _); [|discriminate].
    destruct (mapM _ _) as [res|] eqn:E; [|discriminate]. intros [= <-]. exists res. split; [reflexivity|].
    apply mapM_nth in E as [L _]. now rewrite map_length in L. }
  unfold measure_shift. destruct (Nat.even steps); [discriminate|]. destruct sd; [| |discriminate]; destruct tw as [l|];
    repeat match goal with |- (if ?b then _ else _) = _ -> _ => destruct b; [discriminate|] end; apply W.
Qed.
Lemma correct_single sp h row ref tw range steps sd dt : measure_shift sp h [row] ref tw range steps sd = Ok dt ->
  correct_shift h [row] dt = (Some IndexError, [row]).
Proof.
  intros E. apply measure_shape in E as (res & -> & L). destruct res as [|cv [|]]; try discriminate. reflexivity.
Qed.

(** ** the other pair of functions *)
Lemma displaced_ref_whole sp ref m k j : through_samples sp -> (k < length ref)%nat -> (Z.of_nat j = Z.of_nat k - m)%Z -> (j < length ref)%nat ->
  nth k (displaced_ref sp ref (IZR m)) 0 = nth j ref 0.
Proof.
  intros Hsp K E J. unfold displaced_ref. rewrite (nth_map_seq _ _ _ _ K).
  replace (INR k - IZR m) with (INR j) by (rewrite !INR_IZR_INZ, E, minus_IZR; reflexivity).
  unfold clipped. rewrite Rmin_left by (apply le_INR; lia). rewrite Rmax_right by apply pos_INR. now apply Hsp.
Qed.
Lemma inside_INR n j : (j < n)%nat -> inside n (INR j) = true.
Proof.
  intros J. unfold inside. destruct (Rle_dec 0 (INR j)) as [|N]; [|exfalso; apply N, pos_INR].
  destruct (Rle_dec (INR j) (INR (n - 1))) as [|N]; [reflexivity|]. exfalso. apply N, le_INR. lia.
Qed.
Lemma time_shift_apply_whole row m k j : (2 <= length row)%nat -> (k < length row)%nat -> (Z.of_nat j = Z.of_nat k - m)%Z -> (j < length row)%nat ->
  nth k (time_shift_apply_row row (IZR m)) 0 = nth j row 0.
Proof.
  intros N K E J. unfold time_shift_apply_row. rewrite (nth_map_seq _ _ _ _ K). cbv zeta.
  replace (INR k - IZR m) with (INR j) by (rewrite !INR_IZR_INZ, E, minus_IZR; reflexivity).
  rewrite (inside_INR _ _ J). rewrite (interp_whole (map Some row) j).
  - rewrite (nth_indep _ None (Some 0)) by (now rewrite map_length). now rewrite (map_nth (@Some R)).
  - now rewrite map_length.
  - now rewrite map_length.
  - apply all_there_map. now rewrite map_length.
  - apply all_there_map. rewrite map_length. destruct (Nat.eqb_spec j 0); lia.
Qed.

(** ** stretching *)
Section Stretch.
  Variable sp : list R -> R -> R.
  Lemma sampled_length n f : length (sampled n f) = n.
  Proof. unfold sampled. now rewrite map_length, seq_length. Qed.
  Lemma inside_spec n u : inside n u = true <-> 0 <= u <= INR (n - 1).
  Proof. unfold inside. destruct (Rle_dec 0 u), (Rle_dec u (INR (n - 1))); intuition (try discriminate; lra). Qed.
  Lemma stretch_row_at c n f v k : (k < n)%nat -> reproduced sp n f ->
    nth k (stretch_row sp c (sampled n f) v) 0 = if inside n (c + (INR k - c) * exp (- v)) then stretched c v f (INR k) else 0.
  Proof.
    intros K R. unfold stretch_row. rewrite sampled_length, (nth_map_seq _ _ _ _ K).
    destruct (inside n _) eqn:I; [|reflexivity]. apply inside_spec in I. unfold stretch_at. now apply R.
  Qed.
  Lemma stretch_row_length c row v : length (stretch_row sp c row v) = length row.
  Proof. unfold stretch_row. now rewrite map_length, seq_length. Qed.
  (** stretching by [v] and then by [w] *)
  Lemma stretched_twice c v w f u : stretched c w (stretched c v f) u = stretched c (v + w) f u.
  Proof. unfold stretched. f_equal. replace (- (v + w)) with (- v + - w) by ring. rewrite exp_plus. ring. Qed.
  Lemma stretched_zero c f u : stretched c 0 f u = f u.
  Proof. unfold stretched. rewrite Ropp_0, exp_0. f_equal. ring. Qed.
  Lemma stretch_corrects c n f v k : (k < n)%nat -> reproduced sp n (stretched c v f) -> 0 <= c + (INR k - c) * exp v <= INR (n - 1) ->
    nth k (stretch_row sp c (sampled n (stretched c v f)) (- v)) 0 = f (INR k).
  Proof.
    intros K R I. rewrite (stretch_row_at _ _ _ _ _ K R). rewrite Ropp_involutive. rewrite (proj2 (inside_spec _ _) I).
    rewrite stretched_twice. replace (v + - v) with 0 by ring. apply stretched_zero.
  Qed.
  Lemma stretch_zero_row c row : through_samples sp -> stretch_row sp c row 0 = row.
  Proof.
    intros H. apply list_eq_nth with (d := 0); [apply stretch_row_length|]. rewrite stretch_row_length. intros k K.
    unfold stretch_row. rewrite (nth_map_seq _ _ _ _ K). unfold stretch_at. rewrite Ropp_0, exp_0.
    replace (c + (INR k - c) * 1) with (INR k) by ring. rewrite (inside_INR _ _ K). now apply H.
  Qed.
End Stretch.
