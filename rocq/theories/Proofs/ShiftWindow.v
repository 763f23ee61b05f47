From Coq Require Import QArith Qround Lqa Lia.
From Verif Require Import Lib.Base Model.LagMatrix Model.DVs Model.Shift Spec.ShiftSpec.
From Verif Require Import Proofs.DVFacts Proofs.ArchiveFacts.
Local Open Scope Q_scope.

Lemma qmax_ge a b : a <= qmax a b /\ b <= qmax a b.
Proof. unfold qmax. destruct (Qle_bool a b) eqn:E; [apply Qle_bool_iff in E; lra|]. split; [lra|]. apply Qnot_lt_le. intros L. assert (a <= b) by lra. apply Qle_bool_iff in H. congruence. Qed.
Lemma qmin_le a b : qmin a b <= a /\ qmin a b <= b.
Proof. unfold qmin. destruct (Qle_bool a b) eqn:E; [apply Qle_bool_iff in E; lra|]. split; [|lra]. apply Qnot_lt_le. intros L. assert (a <= b) by lra. apply Qle_bool_iff in H. congruence. Qed.

Lemma fold_max_ge l : forall m, m <= fold_left (fun m w => qmax m (qmax (fst w) (snd w))) l m /\
  forall w, In w l -> fst w <= fold_left (fun m w => qmax m (qmax (fst w) (snd w))) l m /\ snd w <= fold_left (fun m w => qmax m (qmax (fst w) (snd w))) l m.
Proof.
  induction l as [|w l IH]; intros m; cbn [fold_left]; [split; [lra|intros ? []]|].
  destruct (IH (qmax m (qmax (fst w) (snd w)))) as [A B].
  pose proof (qmax_ge m (qmax (fst w) (snd w))) as [C D]. pose proof (qmax_ge (fst w) (snd w)) as [E F].
  split; [lra|]. intros w' [<-|I]; [lra|now apply B].
Qed.
Lemma latest_ge tw hi w : latest tw = Some hi -> In w tw -> fst w <= hi /\ snd w <= hi.
Proof.
  destruct tw as [|w0 l]; [discriminate|]. intros [= <-] I.
  destruct (fold_max_ge l (qmax (fst w0) (snd w0))) as [A B]. pose proof (qmax_ge (fst w0) (snd w0)) as [E F].
  destruct I as [<-|I]; [lra|now apply B].
Qed.
Lemma fold_min_le l : forall m, fold_left (fun m w => qmin m (qmin (fst w) (snd w))) l m <= m /\
  forall w, In w l -> fold_left (fun m w => qmin m (qmin (fst w) (snd w))) l m <= fst w /\ fold_left (fun m w => qmin m (qmin (fst w) (snd w))) l m <= snd w.
Proof.
  induction l as [|w l IH]; intros m; cbn [fold_left]; [split; [lra|intros ? []]|].
  destruct (IH (qmin m (qmin (fst w) (snd w)))) as [A B].
  pose proof (qmin_le m (qmin (fst w) (snd w))) as [C D]. pose proof (qmin_le (fst w) (snd w)) as [E F].
  split; [lra|]. intros w' [<-|I]; [lra|now apply B].
Qed.
Lemma earliest_le tw lo w : earliest tw = Some lo -> In w tw -> lo <= fst w /\ lo <= snd w.
Proof.
  destruct tw as [|w0 l]; [discriminate|]. intros [= <-] I.
  destruct (fold_min_le l (qmin (fst w0) (snd w0))) as [A B]. pose proof (qmin_le (fst w0) (snd w0)) as [E F].
  destruct I as [<-|I]; [lra|now apply B].
Qed.


Lemma in_window sd sr lag w i : In i (window_indices sd sr lag w) ->
  exists j, (Qceiling (fst w * sr) <= j < Qfloor (snd w * sr))%Z /\
    ((i = j - round_half_even (lag * sr))%Z \/ (sd = BothSides /\ i = (- j - round_half_even (lag * sr))%Z)).
Proof.
  unfold window_indices. intros I. apply in_map_iff in I as (k & <- & I).
  destruct sd; cbn in I.
  - apply in_app_iff in I as [I|I].
    + apply in_map_iff in I as (j & <- & I). apply in_rev, in_arange_1 in I. exists j. split; [exact I|now right].
    + apply in_arange_1 in I. exists k. split; [exact I|now left].
  - apply in_arange_1 in I. exists k. split; [exact I|now left].
  - apply in_arange_1 in I. exists k. split; [exact I|now left].
Qed.
Lemma window_has sd sr lag w j : (Qceiling (fst w * sr) <= j < Qfloor (snd w * sr))%Z ->
  In (j - round_half_even (lag * sr))%Z (window_indices sd sr lag w) /\
  (sd = BothSides -> In (- j - round_half_even (lag * sr))%Z (window_indices sd sr lag w)).
Proof.
  intros J. apply in_arange_1 in J. unfold window_indices. split.
  - apply in_map_iff. exists j. split; [reflexivity|]. destruct sd; [apply in_app_iff; now right|exact J..].
  - intros ->. apply in_map_iff. exists (- j)%Z. split; [reflexivity|]. apply in_app_iff. left. apply in_map, in_rev. now rewrite rev_involutive.
Qed.

(** the samples of the windows and those displaced by up to the range remain on the trimmed axis *)
Section Bounds.
  Variables (sr lag twmin twmax range : Q) (w : Q * Q) (m : Z).
  Hypothesis Hm : inject_Z m <= range * sr /\ - (range * sr) <= inject_Z m.
  Let start := Qfloor ((twmin - lag) * sr).
  Let stop := Qfloor ((twmax - lag) * sr).

  Lemma window_single i j : twmin * sr <= fst w * sr - range * sr -> snd w * sr + range * sr <= twmax * sr ->
    (Qceiling (fst w * sr) <= j < Qfloor (snd w * sr))%Z -> i = (j - round_half_even (twmin * sr))%Z ->
    (0 <= i + m <= stop - start)%Z.
  Proof.
    intros A B J ->. subst start stop. destruct Hm as [M1 M2].
    pose proof (round_half_even_near (twmin * sr)) as R. set (r := round_half_even (twmin * sr)) in *.
    pose proof (Qfloor_le ((twmin - lag) * sr)) as F1. pose proof (Qlt_floor ((twmax - lag) * sr)) as F2.
    set (s0 := Qfloor ((twmin - lag) * sr)) in *. set (s1 := Qfloor ((twmax - lag) * sr)) in *.
    pose proof (Qle_ceiling (fst w * sr)) as C. pose proof (Qfloor_le (snd w * sr)) as D.
    set (c := Qceiling (fst w * sr)) in *. set (d := Qfloor (snd w * sr)) in *.
    assert (J1 : inject_Z c <= inject_Z j) by (rewrite <- Zle_Qle; lia).
    assert (J2 : inject_Z j + 1 <= inject_Z d). { change 1 with (inject_Z 1). rewrite <- inject_Z_plus, <- Zle_Qle. lia. }
    rewrite inject_Z_plus in F2. change (inject_Z 1) with 1 in F2.
    assert (E1 : (twmin - lag) * sr == twmin * sr - lag * sr) by ring. assert (E2 : (twmax - lag) * sr == twmax * sr - lag * sr) by ring.
    rewrite E1 in F1. rewrite E2 in F2.
    split.
    - assert (-1 < j - r + m)%Z; [|lia]. rewrite Zlt_Qlt. unfold Z.sub. rewrite !inject_Z_plus, inject_Z_opp. change (inject_Z (-1)) with (-1). lra.
    - assert (j - r + m < s1 - s0 + 1)%Z; [|lia]. rewrite Zlt_Qlt. unfold Z.sub. rewrite !inject_Z_plus, !inject_Z_opp. change (inject_Z 1) with 1. lra.
  Qed.
  Lemma window_both i j : 0 <= fst w * sr -> twmin == - twmax -> snd w * sr + range * sr <= twmax * sr ->
    (Qceiling (fst w * sr) <= j < Qfloor (snd w * sr))%Z ->
    i = (j - round_half_even (twmin * sr))%Z \/ i = (- j - round_half_even (twmin * sr))%Z ->
    (0 <= i + m <= stop - start)%Z.
  Proof.
    intros P A B J I. subst start stop. destruct Hm as [M1 M2].
    pose proof (round_half_even_near (twmin * sr)) as R. set (r := round_half_even (twmin * sr)) in *.
    pose proof (Qfloor_le ((twmin - lag) * sr)) as F1. pose proof (Qlt_floor ((twmax - lag) * sr)) as F2.
    set (s0 := Qfloor ((twmin - lag) * sr)) in *. set (s1 := Qfloor ((twmax - lag) * sr)) in *.
    pose proof (Qle_ceiling (fst w * sr)) as C. pose proof (Qfloor_le (snd w * sr)) as D.
    set (c := Qceiling (fst w * sr)) in *. set (d := Qfloor (snd w * sr)) in *.
    assert (J1 : inject_Z c <= inject_Z j) by (rewrite <- Zle_Qle; lia).
    assert (J2 : inject_Z j + 1 <= inject_Z d). { change 1 with (inject_Z 1). rewrite <- inject_Z_plus, <- Zle_Qle. lia. }
    rewrite inject_Z_plus in F2. change (inject_Z 1) with 1 in F2.
    assert (E1 : (twmin - lag) * sr == twmin * sr - lag * sr) by ring. assert (E2 : (twmax - lag) * sr == twmax * sr - lag * sr) by ring.
    rewrite E1 in F1. rewrite E2 in F2.
    assert (E3 : twmin * sr == - (twmax * sr)) by (rewrite A; ring).
    assert (-1 < i + m < s1 - s0 + 1)%Z; [|lia].
    destruct I as [-> | ->]; split; rewrite Zlt_Qlt; unfold Z.sub; rewrite !inject_Z_plus, !inject_Z_opp;
      change (inject_Z 1) with 1; change (inject_Z (-1)) with (-1); lra.
  Qed.
  (** the default window of a trace that is symmetric about lag zero *)
  Lemma window_default i j : fst w == lag + range -> snd w == - lag - range -> twmax == - lag -> twmin == lag ->
    (Qceiling (fst w * sr) <= j < Qfloor (snd w * sr))%Z -> whole (2 * lag * sr) ->
    i = (j - round_half_even (twmin * sr))%Z \/ i = (- j - round_half_even (twmin * sr))%Z ->
    (0 <= i + m <= stop - start)%Z.
  Proof.
    intros W1 W2 T1 T2 J [k K] I. subst start stop. destruct Hm as [M1 M2].
    pose proof (round_half_even_near (twmin * sr)) as R. set (r := round_half_even (twmin * sr)) in *.
    assert (S0 : Qfloor ((twmin - lag) * sr) = 0%Z). { rewrite (Qfloor_comp _ 0); [reflexivity|]. rewrite T2. ring. }
    assert (S1 : Qfloor ((twmax - lag) * sr) = (- k)%Z).
    { rewrite (Qfloor_comp _ (inject_Z (- k))); [apply Qfloor_Z|]. rewrite T1, inject_Z_opp, <- K. ring. }
    rewrite S0, S1.
    pose proof (Qle_ceiling (fst w * sr)) as C. pose proof (Qfloor_le (snd w * sr)) as D.
    set (c := Qceiling (fst w * sr)) in *. set (d := Qfloor (snd w * sr)) in *.
    assert (J1 : inject_Z c <= inject_Z j) by (rewrite <- Zle_Qle; lia).
    assert (J2 : inject_Z j + 1 <= inject_Z d). { change 1 with (inject_Z 1). rewrite <- inject_Z_plus, <- Zle_Qle. lia. }
    assert (E1 : fst w * sr == lag * sr + range * sr) by (rewrite W1; ring).
    assert (E2 : snd w * sr == - (lag * sr) - range * sr) by (rewrite W2; ring).
    assert (E3 : twmin * sr == lag * sr) by (rewrite T2; ring).
    assert (E4 : inject_Z k == 2 * (lag * sr)) by (rewrite <- K; ring).
    assert (-1 < i + m < - k + 1)%Z; [|lia].
    destruct I as [-> | ->]; split; rewrite Zlt_Qlt; unfold Z.sub; rewrite !inject_Z_plus, !inject_Z_opp;
      change (inject_Z 1) with 1; change (inject_Z (-1)) with (-1); lra.
  Qed.
End Bounds.

(** the tested shifts *)
Lemma linspace_length a b n : length (linspace a b n) = n.
Proof. unfold linspace. destruct n as [|[|n]]; [reflexivity..|]. now rewrite map_length, seq_length. Qed.
Lemma linspace_zero r n : Nat.even n = false -> (3 <= n)%nat -> exists s, In s (linspace (- r) r n) /\ s == 0.
Proof.
  intros E N. destruct (Nat.Even_or_Odd n) as [H|[k H]]; [apply Nat.even_spec in H; congruence|].
  unfold linspace. destruct n as [|[|n']]; [lia..|]. set (n := S (S n')) in *.
  eexists. split. { apply in_map_iff. exists k. split; [reflexivity|]. apply in_seq. lia. }
  replace (Z.of_nat n - 1)%Z with (2 * Z.of_nat k)%Z by lia. rewrite inject_Z_mult. change (inject_Z 2) with 2.
  assert (P : 0 < inject_Z (Z.of_nat k)) by (change 0 with (inject_Z 0); rewrite <- Zlt_Qlt; lia). field. lra.
Qed.
Lemma linspace_bounds r n s : 0 <= r -> In s (linspace (- r) r n) -> - r <= s <= r.
Proof.
  intros R I. unfold linspace in I. destruct n as [|[|n']]; [destruct I|destruct I as [<-|[]]; lra|].
  set (n := S (S n')) in *. apply in_map_iff in I as (i & <- & I). apply in_seq in I.
  assert (P : 0 < inject_Z (Z.of_nat n - 1)) by (change 0 with (inject_Z 0); rewrite <- Zlt_Qlt; lia).
  assert (I1 : inject_Z (Z.of_nat i) <= inject_Z (Z.of_nat n - 1)) by (rewrite <- Zle_Qle; lia).
  assert (I0 : 0 <= inject_Z (Z.of_nat i)) by (change 0 with (inject_Z 0); rewrite <- Zle_Qle; lia).
  set (N := inject_Z (Z.of_nat n - 1)) in *. set (x := inject_Z (Z.of_nat i)) in *.
  assert (F : 0 <= x / N <= 1). { split; [apply Qle_shift_div_l; lra|apply Qle_shift_div_r; lra]. }
  assert (E : x * ((r - - r) / N) == 2 * r * (x / N)) by (field; lra). rewrite E. nra.
Qed.

(** ** the windows that fit *)
Lemma qmax_in a b : qmax a b = a \/ qmax a b = b.
Proof. unfold qmax. destruct (Qle_bool a b); auto. Qed.
Lemma qmin_in a b : qmin a b = a \/ qmin a b = b.
Proof. unfold qmin. destruct (Qle_bool a b); auto. Qed.
Lemma fold_max_in l : forall m, fold_left (fun m w => qmax m (qmax (fst w) (snd w))) l m = m \/
  exists w, In w l /\ (fold_left (fun m w => qmax m (qmax (fst w) (snd w))) l m = fst w \/ fold_left (fun m w => qmax m (qmax (fst w) (snd w))) l m = snd w).
Proof.
  induction l as [|w l IH]; intros m; cbn [fold_left]; [now left|].
  destruct (IH (qmax m (qmax (fst w) (snd w)))) as [->|(w' & I & E)].
  - destruct (qmax_in m (qmax (fst w) (snd w))) as [->| ->]; [now left|]. right. exists w. split; [now left|]. apply qmax_in.
  - right. exists w'. split; [now right|exact E].
Qed.
Lemma latest_in tw hi : latest tw = Some hi -> exists w, In w tw /\ (hi = fst w \/ hi = snd w).
Proof.
  destruct tw as [|w0 l]; [discriminate|]. intros [= <-].
  destruct (fold_max_in l (qmax (fst w0) (snd w0))) as [->|(w & I & E)]; [exists w0; split; [now left|apply qmax_in]|exists w; split; [now right|exact E]].
Qed.
Lemma fold_min_in l : forall m, fold_left (fun m w => qmin m (qmin (fst w) (snd w))) l m = m \/
  exists w, In w l /\ (fold_left (fun m w => qmin m (qmin (fst w) (snd w))) l m = fst w \/ fold_left (fun m w => qmin m (qmin (fst w) (snd w))) l m = snd w).
Proof.
  induction l as [|w l IH]; intros m; cbn [fold_left]; [now left|].
  destruct (IH (qmin m (qmin (fst w) (snd w)))) as [->|(w' & I & E)].
  - destruct (qmin_in m (qmin (fst w) (snd w))) as [->| ->]; [now left|]. right. exists w. split; [now left|]. apply qmin_in.
  - right. exists w'. split; [now right|exact E].
Qed.
Lemma earliest_in tw lo : earliest tw = Some lo -> exists w, In w tw /\ (lo = fst w \/ lo = snd w).
Proof.
  destruct tw as [|w0 l]; [discriminate|]. intros [= <-].
  destruct (fold_min_in l (qmin (fst w0) (snd w0))) as [->|(w & I & E)]; [exists w0; split; [now left|apply qmin_in]|exists w; split; [now right|exact E]].
Qed.

Lemma end_lag_grid h : (0 < h_sr h) -> (0 < h_npts h)%nat -> end_lag h * h_sr h == h_lag h * h_sr h + inject_Z (Z.of_nat (h_npts h) - 1).
Proof.
  intros S N. unfold end_lag. destruct (Nat.eqb_spec (h_npts h) 0); [lia|].
  replace (Z.of_nat (h_npts h - 1)) with (Z.of_nat (h_npts h) - 1)%Z by lia. field. lra.
Qed.

(** everything about the windows that the measurement needs *)
Lemma fits_spec h sd range tw : 0 < h_sr h -> (0 < h_npts h)%nat -> 0 <= range -> sd <> OtherSides -> fits h sd range tw ->
  exists hi lo twmin,
    latest (windows_of h range tw) = Some hi /\ earliest (windows_of h range tw) = Some lo /\
    twmin = match sd with BothSides => - (hi + range) | _ => lo - range end /\
    hi + range <= end_lag h /\ h_lag h <= twmin /\
    (0 <= Qfloor ((twmin - h_lag h) * h_sr h))%Z /\
    (Qfloor ((hi + range - h_lag h) * h_sr h) < Z.of_nat (h_npts h))%Z /\
    forall w i m, In w (windows_of h range tw) -> In i (window_indices sd (h_sr h) twmin w) ->
      inject_Z m <= range * h_sr h /\ - (range * h_sr h) <= inject_Z m ->
      (0 <= i + m <= Qfloor ((hi + range - h_lag h) * h_sr h) - Qfloor ((twmin - h_lag h) * h_sr h))%Z.
Proof.
  intros S N R SD F.
  assert (X : exists hi lo, latest (windows_of h range tw) = Some hi /\ earliest (windows_of h range tw) = Some lo).
  { destruct tw as [[|w l]|]; cbn in *; [destruct F; congruence|eauto..]. }
  destruct X as (hi & lo & HI & LO). exists hi, lo. set (twmin := match sd with BothSides => - (hi + range) | _ => lo - range end). exists twmin.
  assert (G : hi + range <= end_lag h /\ h_lag h <= twmin).
  { destruct tw as [l|]; cbn in F.
    - destruct F as [_ F]. apply latest_in in HI as (w1 & I1 & E1). apply earliest_in in LO as (w2 & I2 & E2).
      pose proof (F w1 hi I1 E1) as [A B]. pose proof (F w2 lo I2 E2) as [C D]. split; [exact A|]. unfold twmin. destruct sd; tauto.
    - destruct F as [F1 F2]. cbn in HI, LO. injection HI as <-. injection LO as <-.
      destruct (qmax_in (h_lag h + range) (end_lag h - range)) as [E|E]; destruct (qmin_in (h_lag h + range) (end_lag h - range)) as [E'|E'];
        unfold twmin; rewrite ?E, ?E'; destruct sd; try congruence; try (specialize (F2 eq_refl)); split; lra. }
  destruct G as [G1 G2].
  split; [exact HI|]. split; [exact LO|]. split; [reflexivity|]. split; [exact G1|]. split; [exact G2|].
  split. { rewrite <- (Qfloor_Z 0). apply Qfloor_resp_le. change (inject_Z 0) with 0. apply Qmult_le_0_compat; lra. }
  split.
  { pose proof (end_lag_grid h S N) as E. pose proof (Qfloor_le ((hi + range - h_lag h) * h_sr h)) as Fl.
    assert (M : (hi + range) * h_sr h <= end_lag h * h_sr h) by (apply Qmult_le_compat_r; lra).
    assert (E' : (hi + range - h_lag h) * h_sr h == (hi + range) * h_sr h - h_lag h * h_sr h) by ring. rewrite E' in Fl at 2.
    assert (Qfloor ((hi + range - h_lag h) * h_sr h) <= Z.of_nat (h_npts h) - 1)%Z; [|lia]. rewrite Zle_Qle. lra. }
  intros w i m Iw Ii Hm. apply in_window in Ii as (j & J & Ii).
  assert (mono : forall a b, a <= b -> a * h_sr h <= b * h_sr h) by (intros; apply Qmult_le_compat_r; lra).
  destruct tw as [l|]; cbn in Iw, F.
  - destruct F as [_ F]. pose proof (latest_ge _ _ _ HI Iw) as [L1 L2]. pose proof (earliest_le _ _ _ LO Iw) as [L3 L4].
    destruct sd; [| |congruence].
    + apply (window_both _ _ _ _ _ w m Hm i j).
      * destruct (F w (fst w) Iw (or_introl eq_refl)) as [_ [P _]]. apply Qmult_le_0_compat; lra.
      * unfold twmin. reflexivity.
      * rewrite <- Qmult_plus_distr_l. apply mono. lra.
      * exact J.
      * destruct Ii as [->|[_ ->]]; auto.
    + apply (window_single _ _ _ _ _ w m Hm i j); [| |exact J|destruct Ii as [->|[X _]]; [reflexivity|discriminate]].
      * assert (E : fst w * h_sr h - range * h_sr h == (fst w - range) * h_sr h) by ring. rewrite E. apply mono. unfold twmin. lra.
      * rewrite <- Qmult_plus_distr_l. apply mono. lra.
  - destruct Iw as [<-|[]]. destruct F as [F1 F2]. cbn in HI, LO. injection HI as <-. injection LO as <-.
    assert (Eq1 : qmax (h_lag h + range) (end_lag h - range) == end_lag h - range).
    { pose proof (qmax_ge (h_lag h + range) (end_lag h - range)) as [Q1 Q2]. destruct (qmax_in (h_lag h + range) (end_lag h - range)) as [E|E]; rewrite E in *; lra. }
    assert (Eq2 : qmin (h_lag h + range) (end_lag h - range) == h_lag h + range).
    { pose proof (qmin_le (h_lag h + range) (end_lag h - range)) as [Q1 Q2]. destruct (qmin_in (h_lag h + range) (end_lag h - range)) as [E|E]; rewrite E in *; lra. }
    destruct sd; [| |congruence].
    + specialize (F2 eq_refl). apply (window_default _ _ _ _ _ (h_lag h + range, end_lag h - range) m Hm i j); cbn [fst snd]; try lra.
      * unfold twmin. lra.
      * exact J.
      * exists (1 - Z.of_nat (h_npts h))%Z. pose proof (end_lag_grid h S N) as E.
        replace (1 - Z.of_nat (h_npts h))%Z with (- (Z.of_nat (h_npts h) - 1))%Z by lia. rewrite inject_Z_opp.
        assert (E2 : h_lag h * h_sr h == - (end_lag h * h_sr h)) by (rewrite F2 at 1; ring). lra.
      * destruct Ii as [->|[_ ->]]; auto.
    + apply (window_single _ _ _ _ _ (h_lag h + range, end_lag h - range) m Hm i j); cbn [fst snd] in *; [| |exact J|destruct Ii as [->|[X _]]; [reflexivity|discriminate]].
      * assert (E : (h_lag h + range) * h_sr h - range * h_sr h == h_lag h * h_sr h) by ring. rewrite E. apply mono. unfold twmin. lra.
      * rewrite <- Qmult_plus_distr_l. apply mono. lra.
Qed.
Lemma ShiftQ_single hi lo range x : 0 <= range -> x <= hi -> lo <= x -> lo - range <= hi + range.
Proof. lra. Qed.
Lemma ShiftQ_opp x : 0 <= x -> - x <= 0.
Proof. lra. Qed.
Lemma ShiftQ_both h range tw hi : 0 <= range -> fits h BothSides range tw -> latest (windows_of h range tw) = Some hi -> - (hi + range) <= hi + range.
Proof.
  intros R F HI. destruct tw as [l|]; cbn in *.
  - apply latest_in in HI as (w & I & E). destruct F as [_ F]. destruct (F w hi I E) as [_ [P _]]. lra.
  - destruct F as [F1 F2]. specialize (F2 eq_refl). injection HI as <-.
    pose proof (qmax_ge (h_lag h + range) (end_lag h - range)) as [Q1 Q2]. lra.
Qed.

(** ** windows on the samples *)
Lemma whole_round x : whole x -> inject_Z (round_half_even x) == x.
Proof.
  intros [k K]. pose proof (round_half_even_near x) as R. set (r := round_half_even x) in *.
  assert (-1 < r - k < 1)%Z.
  { split; rewrite Zlt_Qlt; unfold Z.sub; rewrite inject_Z_plus, inject_Z_opp; [change (inject_Z (-1)) with (-1)|change (inject_Z 1) with 1]; lra. }
  replace r with k by lia. now symmetry.
Qed.
Lemma whole_minus x y : whole x -> whole y -> whole (x - y).
Proof. intros [a A] [b B]. exists (a - b)%Z. unfold Z.sub. rewrite A, B, inject_Z_plus, inject_Z_opp. reflexivity. Qed.
Lemma whole_opp_plus x y : whole x -> whole y -> whole (- (x + y)).
Proof. intros [a A] [b B]. exists (- (a + b))%Z. rewrite A, B, inject_Z_opp, inject_Z_plus. reflexivity. Qed.
Lemma whole_floor x : whole x -> inject_Z (Qfloor x) == x.
Proof. intros [k K]. rewrite (Qfloor_comp _ _ K), Qfloor_Z, K. reflexivity. Qed.
Lemma whole_comp x y : x == y -> whole x -> whole y.
Proof. intros E [k K]. exists k. now rewrite <- E. Qed.

Lemma compared_index h sd w twmin p : 0 < h_sr h -> whole (h_lag h * h_sr h) -> whole (twmin * h_sr h) ->
  compared h sd w p -> In (Z.of_nat p - Qfloor ((twmin - h_lag h) * h_sr h))%Z (window_indices sd (h_sr h) twmin w).
Proof.
  intros S WL WT C.
  pose proof (whole_round _ WT) as R.
  assert (WD : whole ((twmin - h_lag h) * h_sr h)). { apply whole_comp with (twmin * h_sr h - h_lag h * h_sr h); [ring|now apply whole_minus]. }
  pose proof (whole_floor _ WD) as F. set (st := Qfloor ((twmin - h_lag h) * h_sr h)) in *. set (r := round_half_even (twmin * h_sr h)) in *.
  assert (EF : (twmin - h_lag h) * h_sr h == twmin * h_sr h - h_lag h * h_sr h) by ring. rewrite EF in F.
  destruct WL as [c K].
  assert (RS : (r - st = c)%Z).
  { assert (inject_Z (r - st) == inject_Z c) by (unfold Z.sub; rewrite inject_Z_plus, inject_Z_opp; lra). now apply -> inject_Z_injective in H. }
  assert (L : lag_of (h_lag h) (h_sr h) p * h_sr h == inject_Z (c + Z.of_nat p)).
  { unfold lag_of. rewrite inject_Z_plus, <- K. field. lra. }
  destruct C as [[C1 C2]|[-> [C1 C2]]].
  - set (t := lag_of (h_lag h) (h_sr h) p) in *.
    assert (A : fst w * h_sr h <= inject_Z (c + Z.of_nat p)) by (rewrite <- L; apply Qmult_le_compat_r; lra).
    assert (B : inject_Z (c + Z.of_nat p) + 1 <= snd w * h_sr h).
    { rewrite <- L. assert (E : t * h_sr h + 1 == (t + 1 / h_sr h) * h_sr h) by (field; lra). rewrite E. apply Qmult_le_compat_r; lra. }
    replace (Z.of_nat p - st)%Z with ((c + Z.of_nat p) - r)%Z by lia. apply window_has. split.
    + rewrite <- (Qceiling_Z (c + Z.of_nat p)). now apply Qceiling_resp_le.
    + assert (Qfloor (inject_Z (c + Z.of_nat p) + 1) <= Qfloor (snd w * h_sr h))%Z by now apply Qfloor_resp_le.
      change 1 with (inject_Z 1) in H. rewrite <- inject_Z_plus, Qfloor_Z in H. lia.
  - set (t := lag_of (h_lag h) (h_sr h) p) in *.
    assert (L' : - t * h_sr h == inject_Z (- (c + Z.of_nat p))) by (rewrite inject_Z_opp, <- L; ring).
    assert (A : fst w * h_sr h <= inject_Z (- (c + Z.of_nat p))) by (rewrite <- L'; apply Qmult_le_compat_r; lra).
    assert (B : inject_Z (- (c + Z.of_nat p)) + 1 <= snd w * h_sr h).
    { rewrite <- L'. assert (E : - t * h_sr h + 1 == (- t + 1 / h_sr h) * h_sr h) by (field; lra). rewrite E. apply Qmult_le_compat_r; lra. }
    replace (Z.of_nat p - st)%Z with (- (- (c + Z.of_nat p)) - r)%Z by lia. apply window_has; [|reflexivity]. split.
    + rewrite <- (Qceiling_Z (- (c + Z.of_nat p))). now apply Qceiling_resp_le.
    + assert (Qfloor (inject_Z (- (c + Z.of_nat p)) + 1) <= Qfloor (snd w * h_sr h))%Z by now apply Qfloor_resp_le.
      change 1 with (inject_Z 1) in H. rewrite <- inject_Z_plus, Qfloor_Z in H. lia.
Qed.
Lemma index_compared h sd w twmin i : 0 < h_sr h -> whole (h_lag h * h_sr h) -> whole (twmin * h_sr h) ->
  (0 <= i + Qfloor ((twmin - h_lag h) * h_sr h))%Z ->
  In i (window_indices sd (h_sr h) twmin w) -> compared h sd w (Z.to_nat (i + Qfloor ((twmin - h_lag h) * h_sr h))).
Proof.
  intros S WL WT NN I. apply in_window in I as (j & J & I).
  pose proof (whole_round _ WT) as R.
  assert (WD : whole ((twmin - h_lag h) * h_sr h)). { apply whole_comp with (twmin * h_sr h - h_lag h * h_sr h); [ring|now apply whole_minus]. }
  pose proof (whole_floor _ WD) as F. set (st := Qfloor ((twmin - h_lag h) * h_sr h)) in *. set (r := round_half_even (twmin * h_sr h)) in *.
  assert (EF : (twmin - h_lag h) * h_sr h == twmin * h_sr h - h_lag h * h_sr h) by ring. rewrite EF in F.
  destruct WL as [c K].
  assert (RS : (r - st = c)%Z).
  { assert (inject_Z (r - st) == inject_Z c) by (unfold Z.sub; rewrite inject_Z_plus, inject_Z_opp; lra). now apply -> inject_Z_injective in H. }
  set (p := Z.to_nat (i + st)).
  assert (L : lag_of (h_lag h) (h_sr h) p * h_sr h == inject_Z (c + (i + st))).
  { unfold lag_of, p. rewrite Z2Nat.id by lia. rewrite (inject_Z_plus c), <- K. field. lra. }
  assert (J1 : fst w * h_sr h <= inject_Z j). { apply Qle_trans with (inject_Z (Qceiling (fst w * h_sr h))); [apply Qle_ceiling|]. rewrite <- Zle_Qle. lia. }
  assert (J2 : inject_Z j + 1 <= snd w * h_sr h).
  { apply Qle_trans with (inject_Z (Qfloor (snd w * h_sr h))); [|apply Qfloor_le]. change 1 with (inject_Z 1). rewrite <- inject_Z_plus, <- Zle_Qle. lia. }
  assert (G : forall t, t * h_sr h == inject_Z j -> within w (h_sr h) t).
  { intros t E. split; apply (Qmult_le_r _ _ (h_sr h) S); [lra|]. assert (E' : (t + 1 / h_sr h) * h_sr h == t * h_sr h + 1) by (field; lra). lra. }
  destruct I as [-> | [-> ->]]; [left|right; split; [reflexivity|]]; apply G.
  - rewrite L. replace (c + (j - r + st))%Z with j by lia. reflexivity.
  - assert (E : - lag_of (h_lag h) (h_sr h) p * h_sr h == - (lag_of (h_lag h) (h_sr h) p * h_sr h)) by ring. rewrite E, L.
    replace (c + (- j - r + st))%Z with (- j)%Z by lia. rewrite inject_Z_opp. ring.
Qed.
Lemma on_samples_start h range tw hi lo (sd : shift_sides) twmin : 0 < h_sr h -> on_samples h range (windows_of h range tw) ->
  latest (windows_of h range tw) = Some hi -> earliest (windows_of h range tw) = Some lo ->
  twmin = match sd with BothSides => - (hi + range) | _ => lo - range end -> whole (twmin * h_sr h).
Proof.
  intros S (WL & WR & WW) HI LO E.
  assert (A : whole (hi * h_sr h)). { apply latest_in in HI as (w & I & [-> | ->]); apply (WW w I). }
  assert (B : whole (lo * h_sr h)). { apply earliest_in in LO as (w & I & [-> | ->]); apply (WW w I). }
  rewrite E. destruct sd.
  - apply whole_comp with (- (hi * h_sr h + range * h_sr h)); [ring|now apply whole_opp_plus].
  - apply whole_comp with (lo * h_sr h - range * h_sr h); [ring|now apply whole_minus].
  - apply whole_comp with (lo * h_sr h - range * h_sr h); [ring|now apply whole_minus].
Qed.
Lemma tested_range r n s sr m : 0 < sr -> 0 <= r -> In s (linspace (- r) r n) -> s * sr == inject_Z m ->
  inject_Z m <= r * sr /\ - (r * sr) <= inject_Z m.
Proof.
  intros S R I E. apply linspace_bounds in I; [|exact R]. rewrite <- E. split.
  - apply Qmult_le_compat_r; lra.
  - assert (E' : - (r * sr) == - r * sr) by ring. rewrite E'. apply Qmult_le_compat_r; lra.
Qed.
Lemma floor_range r sr : 0 < sr -> 0 <= r -> (0 <= Qfloor (r * sr))%Z /\ inject_Z (Qfloor (r * sr)) <= r * sr /\ - (r * sr) <= inject_Z (- Qfloor (r * sr)) /\
  inject_Z (- Qfloor (r * sr)) <= r * sr /\ - (r * sr) <= inject_Z (Qfloor (r * sr)).
Proof.
  intros S R. assert (P : 0 <= r * sr) by (apply Qmult_le_0_compat; lra). pose proof (Qfloor_le (r * sr)) as F.
  assert (N : (0 <= Qfloor (r * sr))%Z) by (rewrite <- (Qfloor_Z 0); now apply Qfloor_resp_le).
  assert (N' : 0 <= inject_Z (Qfloor (r * sr))) by (change 0 with (inject_Z 0); now rewrite <- Zle_Qle).
  rewrite inject_Z_opp. repeat split; try assumption; lra.
Qed.
