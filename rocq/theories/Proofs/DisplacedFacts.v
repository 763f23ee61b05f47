From Coq Require Import Reals QArith Qround Qreals Lra Lia.
From Verif Require Import Lib.Base Model.LagMatrix Model.Spectral Model.TimeDomain Model.Similarity Model.DVs Model.Shift Spec.ShiftSpec.
From Verif Require Import Proofs.SpectralFacts Proofs.LagFacts Proofs.AmplitudeFacts Proofs.ReferenceFacts Proofs.ExtractFacts Proofs.DVFacts Proofs.SimilarityFacts Proofs.ShiftFacts Proofs.ShiftWindow Proofs.MeasureFacts.
Local Open Scope R_scope.

Lemma shifted_ref_length sp ref s : length (shifted_ref sp ref s) = length ref.
Proof. unfold shifted_ref. now rewrite map_length, seq_length. Qed.
Lemma shifted_ref_whole sp ref m i : through_samples sp -> (0 <= i)%Z -> (i < Z.of_nat (length ref))%Z -> (0 <= i + m < Z.of_nat (length ref))%Z ->
  nth (Z.to_nat i) (shifted_ref sp ref (IZR m)) 0 = nth (Z.to_nat (i + m)) ref 0.
Proof.
  intros Hsp I0 I1 IM. unfold shifted_ref. rewrite (nth_map_seq _ _ _ _ (ltac:(lia) : (Z.to_nat i < length ref)%nat)).
  replace (INR (Z.to_nat i) + IZR m) with (INR (Z.to_nat (i + m))).
  - apply Hsp. lia.
  - rewrite !INR_IZR_INZ, !Z2Nat.id by lia. now rewrite plus_IZR.
Qed.
Lemma pick_ext {A B} (f : A -> B) d d' ix row row' : length row = length row' ->
  (forall i, In i ix -> (0 <= i)%Z /\ nth (Z.to_nat i) row' d' = f (nth (Z.to_nat i) row d)) -> pick d' ix row' = map f (pick d ix row).
Proof.
  intros L H. unfold pick. rewrite map_map. apply map_ext_in. intros i I. destruct (H i I) as [P E].
  unfold wrap. destruct (Z.ltb_spec i 0); [lia|exact E].
Qed.
Lemma pick_nth ix row k i : nth_error ix k = Some i -> (0 <= i)%Z -> nth k (pick 0 ix row) 0 = nth (Z.to_nat i) row 0.
Proof.
  intros E P. unfold pick. rewrite (nth_error_nth' _ k 0 _ (map_nth_error _ _ _ E)). unfold wrap. destruct (Z.ltb_spec i 0); [lia|reflexivity].
Qed.

Section Displaced.
  Variables (sp : list R -> R -> R) (h : hdr) (data : list (list (option R))) (ref : list R) (tw : option (list (Q * Q))) (range : Q) (steps : nat) (sd : shift_sides).
  Hypothesis Hsr : (0 < h_sr h)%Q.
  Hypothesis Hn : length ref = h_npts h.
  Hypothesis Hpos : (0 < h_npts h)%nat.
  Hypothesis Hrange : (0 <= range)%Q.
  Hypothesis Hodd : Nat.even steps = false.
  Hypothesis Hsd : sd <> OtherSides.
  Hypothesis Hfit : fits h sd range tw.
  Hypothesis Hsp : through_samples sp.
  Let reach := Z.to_nat (Qfloor (range * h_sr h)).

  Lemma measure_displaced_full : exists dt, measure_shift sp h data ref tw range steps sd = Ok dt /\
    forall i row m s, nth_error data i = Some row -> displaced reach m ref row ->
      In s (linspace (- range) range steps) -> (s * h_sr h == inject_Z m)%Q ->
      (reported (m_corr dt) i = Some None /\ reported (m_value dt) i = Some None) \/
      (reported (m_corr dt) i = Some (Some 1) /\ exists s', In s' (linspace (- range) range steps) /\ reported (m_value dt) i = Some (Some (Q2R s')) /\
        forall m', (s' * h_sr h == inject_Z m')%Q -> on_samples h range (windows_of h range tw) ->
          (forall w, In w (windows_of h range tw) ->
            (forall p j, compared h sd w p -> (Z.of_nat j = Z.of_nat p + m)%Z -> nth j ref 0 = 0) \/
            exists a, 0 <= a /\ forall p j j', compared h sd w p -> (Z.of_nat j = Z.of_nat p + m)%Z -> (Z.of_nat j' = Z.of_nat p + m')%Z -> nth j' ref 0 = a * nth j ref 0) /\
          exists w a, In w (windows_of h range tw) /\ 0 < a /\
            (forall p j j', compared h sd w p -> (Z.of_nat j = Z.of_nat p + m)%Z -> (Z.of_nat j' = Z.of_nat p + m')%Z -> nth j' ref 0 = a * nth j ref 0) /\
            exists p j, compared h sd w p /\ (Z.of_nat j = Z.of_nat p + m)%Z /\ nth j ref 0 <> 0).
  Proof.
    destruct (measure_run sp h data ref tw range steps sd Hsr Hn Hpos Hrange Hodd Hsd Hfit)
      as (hi & twmin & S0 & SS & S1 & (lo & HI & LO & ET) & W & res & MS & LR & RR). cbv zeta in *.
    set (start := Qfloor ((twmin - h_lag h) * h_sr h)) in *. set (stop := Qfloor ((hi + range - h_lag h) * h_sr h)) in *.
    set (r := pyslice ref start (stop + 1)) in *. set (shifts := linspace (- range) range steps) in *.
    set (refs := map (fun s => shifted_ref sp r (Q2R (s * h_sr h))) shifts) in *.
    set (windows := map (window_indices sd (h_sr h) twmin) (windows_of h range tw)) in *.
    assert (Lr : Z.of_nat (length r) = (stop + 1 - start)%Z) by (apply pyslice_len'; [exact S0|lia]).
    assert (RAt : forall k, (0 <= k <= stop - start)%Z -> nth (Z.to_nat k) r 0 = nth (Z.to_nat (start + k)) ref 0).
    { intros k K. unfold r. rewrite pyslice_at by lia. f_equal. lia. }
    destruct (floor_range range (h_sr h) Hsr Hrange) as (FR0 & FR1 & FR2 & FR3 & FR4).
    exists (shift_measurement res). split; [exact MS|]. intros i row m s Hi [DL DD] Is Es.
    pose proof (tested_range _ _ _ _ _ Hsr Hrange Is Es) as Mm.
    destruct (RR i row Hi) as (cv & Hcv & B). set (row' := pyslice row start (stop + 1)) in *.
    assert (LL : length row' = length r) by (unfold row', r; now apply pyslice_length).
    (* the samples of the trace in the windows *)
    assert (RowAt : forall w k, In w (windows_of h range tw) -> In k (window_indices sd (h_sr h) twmin w) ->
              (0 <= k <= stop - start)%Z /\ (0 <= k + m <= stop - start)%Z /\ nth (Z.to_nat k) row' None = Some (nth (Z.to_nat (start + k + m)) ref 0)).
    { intros w k Iw Ik. pose proof (W w k m Iw Ik Mm) as B1. pose proof (W w k _ Iw Ik (conj FR1 FR4)) as B2. pose proof (W w k _ Iw Ik (conj FR3 FR2)) as B3.
      assert (K : (0 <= k <= stop - start)%Z) by lia. split; [exact K|]. split; [exact B1|].
      unfold row'. rewrite pyslice_at by lia. apply (DD _ (Z.to_nat (start + k + m))); unfold reach; lia. }
    assert (Qm : Q2R (s * h_sr h) = IZR m) by now apply Q2R_whole.
    destruct (best_displaced windows refs (map Q2R shifts) row' (shifted_ref sp r (IZR m))) as [E|(q & v & E & Nv & Nq)].
    - unfold refs. now rewrite !map_length.
    - unfold refs. rewrite <- Qm. apply (in_map (fun s => shifted_ref sp r (Q2R (s * h_sr h)))). exact Is.
    - intros ix Iix. apply in_map_iff in Iix as (w & <- & Iw). apply pick_ext; [rewrite shifted_ref_length; congruence|].
      intros k Ik. destruct (RowAt w k Iw Ik) as (K0 & K1 & K2). split; [lia|]. rewrite K2. f_equal.
      rewrite shifted_ref_whole by (try exact Hsp; lia). rewrite RAt by lia. f_equal. lia.
    - left. rewrite E in B. injection B as <-. unfold shift_measurement. cbn. rewrite !squeeze_reported.
      split; erewrite map_nth_error by exact Hcv; reflexivity.
    - right. rewrite E in B. injection B as <-. unfold shift_measurement. cbn [m_corr m_value]. rewrite !squeeze_reported.
      split; [erewrite map_nth_error by exact Hcv; reflexivity|].
      assert (Ns : exists s', nth_error shifts q = Some s' /\ v = Q2R s').
      { rewrite nth_error_map in Nv. destruct (nth_error shifts q); [|discriminate]. injection Nv as <-. eauto. }
      destruct Ns as (s' & Ns & ->). exists s'. split; [now apply nth_error_In in Ns|].
      split; [erewrite map_nth_error by exact Hcv; reflexivity|].
      intros m' Em' OS. destruct OS as (WL & WR & WW).
      pose proof (on_samples_start h range tw hi lo sd twmin Hsr (conj WL (conj WR WW)) HI LO ET) as WT.
      pose proof (tested_range _ _ _ _ _ Hsr Hrange (nth_error_In _ _ Ns) Em') as Mm'.
      assert (Qm' : Q2R (s' * h_sr h) = IZR m') by now apply Q2R_whole.
      assert (NM : nan_mean (map (fun ix => compare_rows ix row' (shifted_ref sp r (IZR m'))) windows) = Some 1).
      { unfold shift_sims, refs in Nq. rewrite map_map, nth_error_map, Ns in Nq. cbn in Nq. rewrite Qm' in Nq. now injection Nq. }
      (* what one window says *)
      assert (Win : forall w x, In w (windows_of h range tw) -> compare_rows (window_indices sd (h_sr h) twmin w) row' (shifted_ref sp r (IZR m')) = x ->
                match x with
                | Some _ => exists a, 0 < a /\ (forall p j j', compared h sd w p -> (Z.of_nat j = Z.of_nat p + m)%Z -> (Z.of_nat j' = Z.of_nat p + m')%Z -> nth j' ref 0 = a * nth j ref 0) /\
                              exists p j, compared h sd w p /\ (Z.of_nat j = Z.of_nat p + m)%Z /\ nth j ref 0 <> 0
                | None => (forall p j, compared h sd w p -> (Z.of_nat j = Z.of_nat p + m)%Z -> nth j ref 0 = 0) \/
                          (forall p j', compared h sd w p -> (Z.of_nat j' = Z.of_nat p + m')%Z -> nth j' ref 0 = 0)
                end).
      { intros w x Iw Ex. set (ix := window_indices sd (h_sr h) twmin w) in *.
        assert (PX : pick None ix row' = map Some (pick 0 ix (shifted_ref sp r (IZR m)))).
        { apply pick_ext; [rewrite shifted_ref_length; congruence|].
          intros k Ik. destruct (RowAt w k Iw Ik) as (K0 & K1 & K2). split; [lia|]. rewrite K2. f_equal.
          rewrite shifted_ref_whole by (try exact Hsp; lia). rewrite RAt by lia. f_equal. lia. }
        unfold compare_rows in Ex. rewrite PX, all_samples_some in Ex.
        set (X := pick 0 ix (shifted_ref sp r (IZR m))) in *. set (Y := pick 0 ix (shifted_ref sp r (IZR m'))) in *.
        assert (At : forall p, compared h sd w p -> exists k, nth_error ix k = Some (Z.of_nat p - start)%Z /\ (k < length X)%nat /\
                   (forall j, (Z.of_nat j = Z.of_nat p + m)%Z -> nth k X 0 = nth j ref 0) /\ (forall j', (Z.of_nat j' = Z.of_nat p + m')%Z -> nth k Y 0 = nth j' ref 0)).
        { intros p Cp. pose proof (compared_index h sd w twmin p Hsr WL WT Cp) as Ip. fold start ix in Ip.
          apply In_nth_error in Ip as [k Nk]. exists k. split; [exact Nk|].
          assert (Kl : (k < length X)%nat) by (unfold X; rewrite pick_length; apply nth_error_Some; congruence). split; [exact Kl|].
          pose proof (RowAt w _ Iw (nth_error_In _ _ Nk)) as (K0 & K1 & _). pose proof (W w _ m' Iw (nth_error_In _ _ Nk) Mm') as K3.
          split.
          - intros j Ej. unfold X. rewrite (pick_nth _ _ _ _ Nk) by lia. rewrite shifted_ref_whole by (try exact Hsp; lia). rewrite RAt by lia. f_equal. lia.
          - intros j Ej. unfold Y. rewrite (pick_nth _ _ _ _ Nk) by lia. rewrite shifted_ref_whole by (try exact Hsp; lia). rewrite RAt by lia. f_equal. lia. }
        assert (LXY : length X = length Y) by (unfold X, Y; now rewrite !pick_length).
        destruct x as [x|].
        - assert (x = 1) as ->.
          { assert (Le : forall y, In (Some y) (map (fun ix => compare_rows ix row' (shifted_ref sp r (IZR m'))) windows) -> y <= 1).
            { intros y Hy. apply in_map_iff in Hy as (? & Cy & _). now apply compare_le in Cy. }
            apply (nan_mean_eq _ _ Le NM). apply in_map_iff. exists ix. split.
            - unfold compare_rows. rewrite PX, all_samples_some. exact Ex.
            - apply in_map_iff. exists w. now split. }
          destruct (similarity_one _ _ LXY Ex) as (a & Pa & Ha). exists a. split; [exact Pa|]. split.
          + intros p j j' Cp Ej Ej'. destruct (At p Cp) as (k & Nk & Kl & Kx & Ky). rewrite <- (Kx j Ej), <- (Ky j' Ej'). now apply Ha.
          + (* not silent *)
            destruct (Req_dec (dot X X) 0) as [Z|NZ]; [rewrite similarity_silent in Ex by (now left); discriminate|].
            destruct (existsb (fun v => if Req_EM_T v 0 then false else true) X) eqn:EX.
            * apply existsb_exists in EX as (v & Iv & Ev). destruct (Req_EM_T v 0) as [|NV]; [discriminate|].
              apply In_nth_error in Iv as [k Nk]. assert (Kl : (k < length ix)%nat). { unfold X in Nk. rewrite <- (pick_length 0 ix (shifted_ref sp r (IZR m))). apply nth_error_Some. congruence. }
              destruct (nth_error ix k) as [z|] eqn:Nz; [|apply nth_error_None in Nz; lia].
              pose proof (RowAt w z Iw (nth_error_In _ _ Nz)) as (K0 & K1 & _).
              exists (Z.to_nat (z + start)), (Z.to_nat (start + z + m)). split; [|split].
              -- apply index_compared; [assumption..|fold start; lia|now apply nth_error_In in Nz].
              -- lia.
              -- intros Zr. apply NV. rewrite <- (nth_error_nth' X k 0 v Nk). unfold X. rewrite (pick_nth _ _ _ _ Nz) by lia.
                 rewrite shifted_ref_whole by (try exact Hsp; lia). rewrite RAt by lia. rewrite Z.add_assoc. exact Zr.
            * exfalso. apply NZ. apply dot_all_zero. intros v Iv. destruct (Req_EM_T v 0) as [E0|NE]; [exact E0|].
              enough (existsb (fun v => if Req_EM_T v 0 then false else true) X = true) by congruence. apply existsb_exists. exists v. split; [exact Iv|]. now destruct (Req_EM_T v 0).
        - destruct (Req_dec (dot X X) 0) as [Z|NZ].
          + left. intros p j Cp Ej. destruct (At p Cp) as (k & Nk & Kl & Kx & _). rewrite <- (Kx j Ej). apply (dot_zero _ Z). now apply nth_In.
          + right. destruct (Req_dec (dot Y Y) 0) as [Z|NZ2].
            * intros p j Cp Ej. destruct (At p Cp) as (k & Nk & Kl & _ & Ky). rewrite <- (Ky j Ej). apply (dot_zero _ Z). apply nth_In. lia.
            * destruct (similarity_defined X Y NZ NZ2) as [z Ez]. congruence. }
      split.
      + intros w Iw. specialize (Win w _ Iw eq_refl).
        destruct (compare_rows (window_indices sd (h_sr h) twmin w) row' (shifted_ref sp r (IZR m'))).
        * right. destruct Win as (a & Pa & Ha & _). exists a. split; [lra|exact Ha].
        * destruct Win as [Win|Win]; [now left|]. right. exists 0. split; [lra|]. intros p j j' Cp Ej Ej'. rewrite (Win p j' Cp Ej'). lra.
      + assert (NE : exists w x, In w (windows_of h range tw) /\ compare_rows (window_indices sd (h_sr h) twmin w) row' (shifted_ref sp r (IZR m')) = Some x).
        { unfold nan_mean in NM. destruct (existing _) as [|x l] eqn:EX; [discriminate|].
          assert (Ix : In x (x :: l)) by now left. rewrite <- EX in Ix. apply existing_in in Ix.
          apply in_map_iff in Ix as (ix & Cx & Iix). apply in_map_iff in Iix as (w & <- & Iw). eauto. }
        destruct NE as (w & x & Iw & Cx). specialize (Win w _ Iw Cx). cbn in Win. destruct Win as (a & Pa & Ha & NZ). exists w, a. auto.
  Qed.
End Displaced.
