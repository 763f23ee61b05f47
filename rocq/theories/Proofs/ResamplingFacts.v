(** Facts about decimation, resampling and tapering the centre of the lag axis. *)
From Coq Require Import QArith Qround Qabs Lqa.
From Verif Require Import Lib.Base Model.CorrStream Model.LagMatrix Model.Resampling Spec.LagSpec Spec.ResamplingSpec.
Local Open Scope nat_scope.
#[local] Ltac Zify.zify_post_hook ::= Z.div_mod_to_equations.

(** ** decimation *)
Lemma nth_error_rev {A} (l : list A) k : k < length l -> nth_error (rev l) k = nth_error l (length l - 1 - k).
Proof.
  intros H. destruct l as [|a l]; [simpl in H; lia|].
  rewrite (nth_error_nth' _ a) by now rewrite rev_length. rewrite (nth_error_nth' _ a) by lia. f_equal.
  rewrite rev_nth by auto. f_equal. lia.
Qed.
Lemma kf_lt n f k : 0 < f -> k < (n + f - 1) / f -> k * f < n.
Proof. intros Hf Hk. nia. Qed.
Lemma kf_ge n f k : 0 < f -> (n + f - 1) / f <= k -> n <= k * f.
Proof. intros Hf Hk. nia. Qed.
Lemma backwards_map {A} f (l : list A) d : 0 < f ->
  backwards f l = map (fun k => nth (k * f) (rev l) d) (seq 0 ((length l + f - 1) / f)).
Proof.
  intros Hf. unfold backwards. assert (H : forall k, In k (seq 0 ((length l + f - 1) / f)) -> k * f < length l).
  { intros k Hk. apply in_seq in Hk. apply kf_lt; auto. lia. }
  revert H. generalize (seq 0 ((length l + f - 1) / f)) as K. induction K as [|k K IH]; intros H; simpl; auto.
  rewrite IH by (intros; apply H; now right). assert (Hk : k * f < length l) by (apply H; now left).
  rewrite <- nth_error_rev by auto. rewrite (nth_error_nth' _ d) by now rewrite rev_length. reflexivity.
Qed.
Lemma removelast_map_seq {A} (g : nat -> A) n : removelast (map g (seq 0 n)) = map g (seq 0 (n - 1)).
Proof.
  destruct n as [|n]; auto. rewrite seq_S, map_app. simpl. rewrite removelast_last. now replace (n - 0) with n by lia.
Qed.
Lemma decimate_row_eq lf f row : 0 < f -> keeps_length lf ->
  decimate_row lf f row = map (fun k => nth (k * f) (filtered lf row) None) (seq 0 ((length row + f - 1) / f - 1)).
Proof.
  intros Hf HL. unfold decimate_row. rewrite (backwards_map f _ None Hf), removelast_map_seq.
  rewrite HL, rev_length, HL. reflexivity.
Qed.
Lemma decimate_width f n : 0 < f -> length (removelast (backwards f (repeat tt n))) = (n + f - 1) / f - 1.
Proof. intros Hf. rewrite (backwards_map f _ tt Hf), removelast_map_seq, map_length, seq_length, repeat_length. reflexivity. Qed.

Lemma lag_decimated h h' f k : (0 < h_sr h)%Q -> (0 < f)%Z -> h_lag h' = h_lag h -> h_sr h' = (h_sr h / inject_Z f)%Q ->
  (lag_at h' k == lag_at h (k * Z.to_nat f))%Q.
Proof.
  intros Hs Hf El Er. unfold lag_at. rewrite El, Er. replace (Z.of_nat (k * Z.to_nat f)) with (Z.of_nat k * f)%Z by lia.
  rewrite inject_Z_mult. assert (0 < inject_Z f)%Q by (change 0%Q with (inject_Z 0); now rewrite <- Zlt_Qlt). field. split; lra.
Qed.

Lemma decimate_ok lf data h factor data' h' : keeps_length lf -> (0 < h_sr h)%Q -> (1 < factor)%Z ->
  decimate lf data h factor = Ok (data', h') ->
  length data' = length data /\ h_npts h' = (h_npts h + Z.to_nat factor - 1) / Z.to_nat factor - 1 /\
  (h_sr h' == h_sr h / inject_Z factor)%Q /\ h_lag h' = h_lag h /\
  (forall k, lag_at h' k == lag_at h (k * Z.to_nat factor))%Q /\
  (forall i row, nth_error data i = Some row -> length row = h_npts h -> exists row', nth_error data' i = Some row' /\ length row' = h_npts h' /\
     forall k, k < h_npts h' -> nth_error row' k = nth_error (filtered lf row) (k * Z.to_nat factor)).
Proof.
  intros HL Hs Hf. unfold decimate. destruct (Z.ltb_spec factor 1); [lia|]. destruct (Z.eqb_spec factor 1); [lia|].
  intros H1. inversion H1; subst data' h'. clear H1. cbn [h_npts h_sr h_lag]. rewrite map_length, decimate_width by lia.
  split; auto. split; auto. split; [reflexivity|]. split; auto.
  split; [intros k; apply lag_decimated; auto; lia|].
  intros i row Hi Hr. exists (decimate_row lf (Z.to_nat factor) row). rewrite nth_error_map, Hi. split; auto.
  rewrite decimate_row_eq by (auto; lia). rewrite map_length, seq_length, Hr. split; auto.
  intros k Hk. rewrite nth_error_map. rewrite (nth_error_nth' _ 0) by now rewrite seq_length. rewrite seq_nth by auto. simpl.
  symmetry. apply nth_error_nth'. unfold filtered. rewrite rev_length, HL, rev_length, HL, Hr. apply kf_lt; lia.
Qed.
(** the last of every factor-th sample is missing *)
Lemma decimate_last_lost lf data h factor data' h' : keeps_length lf -> (1 < factor)%Z -> 0 < h_npts h ->
  decimate lf data h factor = Ok (data', h') ->
  let f := Z.to_nat factor in
  h_npts h' * f < h_npts h /\ forall row', In row' data' -> (forall row, In row data -> length row = h_npts h) -> nth_error row' (h_npts h') = None.
Proof.
  intros HL Hf Hn. unfold decimate. destruct (Z.ltb_spec factor 1); [lia|]. destruct (Z.eqb_spec factor 1); [lia|].
  intros H1. inversion H1; subst data' h'. clear H1. cbn [h_npts]. rewrite decimate_width by lia. cbv zeta. split.
  - apply kf_lt; [lia|]. assert (0 < (h_npts h + Z.to_nat factor - 1) / Z.to_nat factor); [|lia]. apply Nat.div_str_pos. lia.
  - intros row' Hr HR. apply in_map_iff in Hr as (row & <- & Hi). apply nth_error_None.
    rewrite decimate_row_eq by (auto; lia). rewrite map_length, seq_length, (HR _ Hi). lia.
Qed.

(** ** resampling *)
Section Loop.
  Variables (npts num : nat) (sr freq : Q).
  Hypothesis Hsr : (0 < sr)%Q.
  Hypothesis Hfreq : (0 < freq)%Q.
  Let N1 n1 := ntime num freq n1.
  Let N2 n2 := otime npts sr n2.

  Lemma match_equal fuel n1 n2 m1 m2 : match_lengths npts num sr freq fuel n1 n2 = Ok (m1, m2) -> (ntime num freq m1 == otime npts sr m2)%Q.
  Proof.
    revert n1 n2. induction fuel as [|k IH]; intros n1 n2; simpl; [discriminate|].
    destruct (Qeq_bool _ _) eqn:E.
    - intros H. inversion H; subst. now apply Qeq_bool_iff.
    - destruct (Qle_bool _ _); destruct (num <? _); try discriminate; apply IH.
  Qed.
  Lemma match_bound fuel n1 n2 m1 m2 : n1 <= num -> match_lengths npts num sr freq fuel n1 n2 = Ok (m1, m2) -> m1 <= num.
  Proof.
    revert n1 n2. induction fuel as [|k IH]; intros n1 n2 H1; simpl; [discriminate|].
    destruct (Qeq_bool _ _) eqn:E.
    - intros H. inversion H; subst. auto.
    - destruct (Qle_bool _ _); destruct (num <? _) eqn:L; try discriminate; apply Nat.ltb_ge in L; apply IH; auto.
  Qed.

  Lemma otime_lt n2 n1 : (otime npts sr n2 < ntime num freq n1)%Q <-> (inject_Z (Z.of_nat (npts + n2)) * freq < inject_Z (Z.of_nat (num + n1)) * sr)%Q.
  Proof.
    unfold otime, ntime. set (a := inject_Z (Z.of_nat (npts + n2))). set (b := inject_Z (Z.of_nat (num + n1))).
    assert (E1 : (a * freq == a / sr * (sr * freq))%Q) by (field; lra). assert (E2 : (b * sr == b / freq * (sr * freq))%Q) by (field; lra).
    assert (P : (0 < sr * freq)%Q) by nra.
    rewrite E1, E2. symmetry. apply Qmult_lt_r. auto.
  Qed.

  Lemma match_fuelled fuel n1 n2 : n1 <= num ->
    num + 1 + Z.to_nat (Qceiling (inject_Z (Z.of_nat (2 * num)) * sr / freq)) + 1 < fuel + n1 + Nat.min (npts + n2) (Z.to_nat (Qceiling (inject_Z (Z.of_nat (2 * num)) * sr / freq))) + 1 ->
    match_lengths npts num sr freq fuel n1 n2 <> Raise OutOfFuel.
  Proof.
    set (B := Z.to_nat _). revert n1 n2. induction fuel as [|k IH]; intros n1 n2 H1 HF; [lia|]. simpl.
    destruct (Qeq_bool _ _) eqn:E; [discriminate|]. apply Qeq_bool_neq in E.
    destruct (Qle_bool (otime npts sr n2) (ntime num freq n1)) eqn:L.
    - apply Qle_bool_iff in L. assert (Hlt : (otime npts sr n2 < ntime num freq n1)%Q).
      { apply Qle_lteq in L as [L|L]; auto. elim E. now symmetry. }
      apply otime_lt in Hlt. assert (HB : npts + n2 < B).
      { assert (inject_Z (Z.of_nat (npts + n2)) < inject_Z (Z.of_nat (2 * num)) * sr / freq)%Q.
        { apply Qlt_shift_div_l; auto. eapply Qlt_le_trans; [exact Hlt|]. apply Qmult_le_compat_r; [|lra]. rewrite <- Zle_Qle. lia. }
        pose proof (Qle_ceiling (inject_Z (Z.of_nat (2 * num)) * sr / freq)) as Hc.
        assert (inject_Z (Z.of_nat (npts + n2)) < inject_Z (Qceiling (inject_Z (Z.of_nat (2 * num)) * sr / freq)))%Q by lra.
        rewrite <- Zlt_Qlt in H0. unfold B. lia. }
      destruct (Nat.ltb_spec num n1); [discriminate|]. apply IH; auto. lia.
    - destruct (Nat.ltb_spec num (S n1)); [discriminate|]. apply IH; auto. lia.
  Qed.
  Lemma resample_terminates : match_lengths npts num sr freq (match_fuel npts num sr freq) 0 0 <> Raise OutOfFuel.
  Proof. unfold match_fuel. apply match_fuelled; [lia|]. set (B := Z.to_nat _). lia. Qed.

  (** fails only if the two grids do not meet *)
  Lemma match_complete fuel n1 n2 k m : n1 <= num -> num + n1 <= k <= 2 * num -> npts + n2 <= m ->
    (inject_Z (Z.of_nat k) / freq == inject_Z (Z.of_nat m) / sr)%Q ->
    match_lengths npts num sr freq fuel n1 n2 <> Raise TypeError.
  Proof.
    revert n1 n2. induction fuel as [|f IH]; intros n1 n2 H1 Hk Hm HE; simpl; [discriminate|].
    destruct (Qeq_bool _ _) eqn:E; [discriminate|]. apply Qeq_bool_neq in E.
    assert (HE' : (inject_Z (Z.of_nat k) * sr == inject_Z (Z.of_nat m) * freq)%Q).
    { assert (X : (inject_Z (Z.of_nat k) / freq * (freq * sr) == inject_Z (Z.of_nat m) / sr * (freq * sr))%Q) by now rewrite HE.
      assert (Y1 : (inject_Z (Z.of_nat k) / freq * (freq * sr) == inject_Z (Z.of_nat k) * sr)%Q) by (field; lra).
      assert (Y2 : (inject_Z (Z.of_nat m) / sr * (freq * sr) == inject_Z (Z.of_nat m) * freq)%Q) by (field; lra). lra. }
    destruct (Qle_bool (otime npts sr n2) (ntime num freq n1)) eqn:L.
    - apply Qle_bool_iff in L. assert (Hlt : (otime npts sr n2 < ntime num freq n1)%Q).
      { apply Qle_lteq in L as [L|L]; auto. elim E. now symmetry. }
      apply otime_lt in Hlt. destruct (Nat.ltb_spec num n1); [lia|]. apply IH; auto.
      assert (npts + n2 <> m); [|lia]. intros <-. rewrite <- HE' in Hlt. apply Qmult_lt_r in Hlt; auto. rewrite <- Zlt_Qlt in Hlt. lia.
    - assert (Hlt : ~ (otime npts sr n2 <= ntime num freq n1)%Q) by (intros C; apply Qle_bool_iff in C; congruence).
      assert (Hk' : k <> num + n1).
      { intros ->. apply Hlt. assert (X : ~ (ntime num freq n1 < otime npts sr n2)%Q); [|now apply Qnot_lt_le].
        intros C. assert (C' : (inject_Z (Z.of_nat (num + n1)) * sr < inject_Z (Z.of_nat (npts + n2)) * freq)%Q).
        { unfold otime, ntime in C. set (a := inject_Z (Z.of_nat (npts + n2))) in *. set (b := inject_Z (Z.of_nat (num + n1))) in *.
          assert (E1 : (a * freq == a / sr * (sr * freq))%Q) by (field; lra). assert (E2 : (b * sr == b / freq * (sr * freq))%Q) by (field; lra).
          rewrite E1, E2. apply Qmult_lt_r; auto. nra. }
        rewrite HE' in C'. apply Qmult_lt_r in C'; auto. rewrite <- Zlt_Qlt in C'. lia. }
      destruct (Nat.ltb_spec num (S n1)); [lia|]. apply IH; auto; lia.
  Qed.
End Loop.

Lemma resample_time_ok filt rs data h freq data' h' : (0 < h_sr h)%Q -> (0 < freq)%Q -> (freq < h_sr h)%Q ->
  (forall row, length (filt row) = length row) -> (forall m row, length (rs m row) = m) ->
  resample_time filt rs data h freq = Ok (data', h') ->
  h_lag h' = h_lag h /\ h_sr h' = freq /\ h_npts h' = Z.to_nat (Qfloor (inject_Z (Z.of_nat (h_npts h)) * freq / h_sr h)) /\
  exists n m, (inject_Z (Z.of_nat n) / h_sr h == inject_Z (Z.of_nat m) / freq)%Q /\ h_npts h' <= m /\
    Forall2 (fun row row' => length row = h_npts h -> length row' = h_npts h' /\
       exists padded, length padded = n /\ firstn (length row) padded = filt row /\ (forall v, In v (skipn (length row) padded) -> v = Some 0%Q) /\
         row' = firstn (h_npts h') (rs m padded)) data data'.
Proof.
  intros Hs Hf Hlt Hfl Hrl. unfold resample_time.
  assert (Qle_bool freq (h_sr h) = true) as -> by (apply Qle_bool_iff; lra). cbn [negb].
  destruct (Qeq_bool freq (h_sr h)) eqn:E; [apply Qeq_bool_iff in E; lra|].
  set (num := Z.to_nat (Qfloor (inject_Z (Z.of_nat (h_npts h)) / h_sr h * freq))).
  destruct (match_lengths (h_npts h) num (h_sr h) freq _ 0 0) as [[n1 n2]|e] eqn:M; [|discriminate]. cbn [bind]. intros H. inversion H; subst data' h'. clear H.
  cbn [h_lag h_sr h_npts]. split; auto. split; auto.
  assert (En : num = Z.to_nat (Qfloor (inject_Z (Z.of_nat (h_npts h)) * freq / h_sr h))).
  { unfold num. f_equal. apply Qfloor_comp. field. lra. }
  split; auto. apply match_equal in M.
  exists (2 * (h_npts h + n2)), (2 * (num + n1)). split; [|split; [lia|]].
  - unfold ntime, otime in M. rewrite !Nat2Z.inj_mul, !inject_Z_mult.
    transitivity (inject_Z (Z.of_nat 2) * (inject_Z (Z.of_nat (h_npts h + n2)) / h_sr h))%Q; [field; lra|]. rewrite <- M. field. lra.
  - induction data as [|row data IH]; simpl; constructor; auto. intros HL.
    split; [rewrite firstn_length, Hrl; lia|].
    exists (filt row ++ repeat (Some 0%Q) (length row + (n2 + (n2 + 0)))).
    split; [rewrite app_length, Hfl, repeat_length; lia|].
    split; [rewrite firstn_app, Hfl, Nat.sub_diag, firstn_O, app_nil_r; rewrite <- (Hfl row) at 1; apply firstn_all|].
    split; [|reflexivity].
    intros v Hv. rewrite skipn_app, Hfl, Nat.sub_diag in Hv. rewrite <- (Hfl row) in Hv at 1. rewrite skipn_all in Hv. simpl in Hv. eapply repeat_spec; eauto.
Qed.
Lemma resample_time_fails filt rs data h freq e : (0 < h_sr h)%Q -> (0 < freq)%Q -> (freq < h_sr h)%Q ->
  resample_time filt rs data h freq = Raise e ->
  e = TypeError /\
  let num := Z.to_nat (Qfloor (inject_Z (Z.of_nat (h_npts h)) * freq / h_sr h)) in
  ~ exists k m, num <= k <= 2 * num /\ h_npts h <= m /\ (inject_Z (Z.of_nat k) / freq == inject_Z (Z.of_nat m) / h_sr h)%Q.
Proof.
  intros Hs Hf Hlt. unfold resample_time.
  assert (Qle_bool freq (h_sr h) = true) as -> by (apply Qle_bool_iff; lra). cbn [negb].
  destruct (Qeq_bool freq (h_sr h)) eqn:E; [apply Qeq_bool_iff in E; lra|].
  set (num := Z.to_nat (Qfloor (inject_Z (Z.of_nat (h_npts h)) / h_sr h * freq))).
  assert (En : num = Z.to_nat (Qfloor (inject_Z (Z.of_nat (h_npts h)) * freq / h_sr h))).
  { unfold num. f_equal. apply Qfloor_comp. field. lra. }
  rewrite <- En. clearbody num. clear En.
  destruct (match_lengths (h_npts h) num (h_sr h) freq _ 0 0) as [[n1 n2]|e'] eqn:M; [discriminate|]. cbn [bind]. intros H. inversion H; subst e'. clear H.
  assert (X : e = TypeError).
  { assert (G : forall fuel n1 n2, match_lengths (h_npts h) num (h_sr h) freq fuel n1 n2 = Raise e -> e = TypeError \/ e = OutOfFuel).
    { clear. induction fuel as [|k IH]; intros n1 n2; simpl; [intros H; inversion H; auto|].
      destruct (Qeq_bool _ _); [discriminate|]. destruct (Qle_bool _ _); destruct (num <? _); try (intros H; inversion H; auto; fail); apply IH. }
    destruct (G _ _ _ M); auto. subst. now elim (resample_terminates (h_npts h) num (h_sr h) freq Hs Hf). }
  split; auto. subst e. intros (k & m & Hk & Hm & HE).
  eapply (match_complete (h_npts h) num (h_sr h) freq Hs Hf _ 0 0 k m); eauto; lia.
Qed.
