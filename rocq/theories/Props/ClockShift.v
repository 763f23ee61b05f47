(** Measuring clock shifts. *)
From Coq Require Import QArith Qround Lia.
From Verif Require Import Lib.Base Model.CorrStream Model.LagMatrix Spec.LagSpec Proofs.LagFacts Model.ClockShift Proofs.ClockShiftFacts.
Local Open Scope nat_scope.

(** ** C136: find_clock_shift leaves the correlations as they are *)
(** With a symmetric lag axis and both sides, all data and the references are compared, and the header keeps its values, also its list of start times. *)
Theorem C136_symmetric_partial : forall data h refs, (0 < h_sr h)%Q -> 0 < h_npts h -> (h_lag h + end_lag h == 0)%Q ->
  (forall row, In row data \/ (exists r, refs = Some r /\ In row r) -> length row = h_npts h) ->
  exists h', corr_mat_shift Both data h refs = (Ok (data, refs, h'), h') /\
    h_npts h' = h_npts h /\ (h_lag h' == h_lag h)%Q /\ h_sr h' = h_sr h /\ h_start h' = h_start h /\ h_end h' = h_end h.
Proof.
  intros data h refs S N E L. pose proof (shift_closed Both data h refs) as C. cbn [bounds] in C. cbn zeta in C.
  pose proof (stretch_symmetric data h S (fun row I => L row (or_introl I)) N E) as (D & _ & HN & HL). unfold stretch_trim in D, HN, HL.
  set (dt := qmin (- h_lag h) (end_lag h)) in *. destruct (trim data h (- dt) dt) as [d h'] eqn:T. cbn [fst snd] in D, HN, HL, C. subst d. exists h'. rewrite C.
  assert (R : option_map (fun r => fst (trim r h (- dt) dt)) refs = refs).
  { destruct refs as [r|]; [|reflexivity]. cbn [option_map]. f_equal. pose proof (stretch_symmetric r h S (fun row I => L row (or_intror (ex_intro _ r (conj eq_refl I)))) N E) as (D & _).
    unfold stretch_trim in D. fold dt in D. destruct (trim r h (- dt) dt). exact D. }
  rewrite R. split; [reflexivity|]. split; [exact HN|]. split; [exact HL|].
  unfold trim in T. destruct (_ <? 0)%Z; [injection T as <-; now repeat split|]. destruct (_ <=? _)%Z; injection T; intros; subst h'; now repeat split.
Qed.
Print Assumptions C136_symmetric_partial.
Definition s (z : Z) : sample := Some (inject_Z z).
Example C136_symmetric_example : corr_mat_shift Both [[s 1; s 2; s 3]] (mkH (-1) 1 3 [100%Z] [200%Z]) (Some [[s 4; s 5; s 6]]) =
  (Ok ([[s 1; s 2; s 3]], Some [[s 4; s 5; s 6]], mkH (-1) 1 3 [100%Z] [200%Z]), mkH (-1) 1 3 [100%Z] [200%Z]).
Proof. reflexivity. Qed.
(** In all cases: the references are cut like the data, and change neither what is compared nor the header. *)
Theorem C136_references : forall sd data h refs, exists st et,
  let h' := snd (trim data h st et) in
  corr_mat_shift sd data h (Some refs) = (match sd with OtherSide => Raise ValueError | _ => Ok (fst (trim data h st et), Some (fst (trim refs h st et)), h') end, h') /\
  corr_mat_shift sd data h None = (match sd with OtherSide => Raise ValueError | _ => Ok (fst (trim data h st et), None, h') end, h').
Proof.
  intros sd data h refs. exists (fst (bounds sd h)), (snd (bounds sd h)).
  pose proof (shift_closed sd data h (Some refs)) as C1. pose proof (shift_closed sd data h None) as C2. destruct (bounds sd h) as [st et]. now split.
Qed.
Print Assumptions C136_references.
(** One side: afterwards the header of the object says that its data, which are unchanged, start at lag zero and have fewer samples; the
    next measurement compares the samples from the first lag on, not those with positive lags. *)
Theorem C136_right_refuted : forall data h k refs, (0 < h_sr h)%Q -> (forall row, In row data -> describes h row) -> 0 < k < h_npts h -> (h_lag h * h_sr h == inject_Z (- Z.of_nat k))%Q ->
  exists r1 h1, corr_mat_shift Right data h refs = (Ok (map (skipn k) data, r1, h1), h1) /\
    h_lag h1 = 0%Q /\ h_npts h1 = h_npts h - k /\ (forall row, In row data -> ~ describes h1 row) /\ (forall i, ~ (lag_at h1 i == lag_at h i)%Q) /\
    exists r2 h2, corr_mat_shift Right data h1 refs = (Ok (map (firstn (h_npts h - k)) data, r2, h2), h2).
Proof.
  intros data h k refs S D K E. assert (L : forall row, In row data -> length row = h_npts h) by (intros row I; now apply D).
  pose proof (shift_closed Right data h refs) as C. cbn [bounds] in C. rewrite (right_trim data h k S L K E) in C. cbn [fst snd] in C. cbn zeta in C.
  set (h1 := mkH 0 (h_sr h) (h_npts h - k) (h_start h) (h_end h)) in *. eexists _, h1. split; [exact C|]. split; [reflexivity|]. split; [reflexivity|]. split; [|split].
  - intros row I [_ L1]. cbn in L1. rewrite (L row I) in L1. lia.
  - intros i. unfold lag_at. cbn [h_lag h_sr h1]. intros X.
    assert (Z0 : (h_lag h == 0)%Q). { setoid_replace (h_lag h) with ((h_lag h + inject_Z (Z.of_nat i) / h_sr h) - inject_Z (Z.of_nat i) / h_sr h)%Q by ring. rewrite <- X. ring. }
    rewrite Z0, Qmult_0_l in E. unfold Qeq in E. cbn in E. lia.
  - pose proof (shift_closed Right data h1 refs) as C2. cbn [bounds] in C2. cbn zeta in C2. do 2 eexists. rewrite C2.
    rewrite (right_again data h1 (h_npts h - k)); [reflexivity|exact S| |lia|reflexivity|reflexivity]. intros row I. rewrite (L row I). lia.
Qed.
Print Assumptions C136_right_refuted.
Example C136_right_example : let h := mkH (-2) 1 5 [100%Z] [200%Z] in
  corr_mat_shift Right [[s 1; s 2; s 3; s 4; s 5]] h None = (Ok ([[s 3; s 4; s 5]], None, mkH 0 1 3 [100%Z] [200%Z]), mkH 0 1 3 [100%Z] [200%Z]) /\
  fst (corr_mat_shift Right [[s 1; s 2; s 3; s 4; s 5]] (mkH 0 1 3 [100%Z] [200%Z]) None) = Ok ([[s 1; s 2; s 3]], None, mkH 0 1 3 [100%Z] [200%Z]).
Proof. split; reflexivity. Qed.
(** An unknown side is refused, but the header has been changed already. *)
Theorem C136_refused_refuted : exists row h, describes h row /\ fst (corr_mat_shift OtherSide [row] h None) = Raise ValueError /\ ~ describes (snd (corr_mat_shift OtherSide [row] h None)) row.
Proof. exists [s 1; s 2; s 3; s 4], (mkH (-1) 1 4 [100%Z] [200%Z]). split; [now split|]. split; [reflexivity|]. intros [_ L]. discriminate. Qed.
Print Assumptions C136_refused_refuted.
