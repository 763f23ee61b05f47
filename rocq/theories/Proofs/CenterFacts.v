(** Facts about tapering the centre of the lag axis. *)
From Coq Require Import QArith Qround Qabs Lqa.
From Verif Require Import Lib.Base Model.CorrStream Model.LagMatrix Model.Resampling Spec.LagSpec Spec.ResamplingSpec Proofs.LagFacts Proofs.MaskFacts.
Local Open Scope nat_scope.

Lemma assign_ok {A} (l : list A) (a b : Z) v : (0 <= a <= b)%Z -> (b <= Z.of_nat (length l))%Z -> length v = Z.to_nat (b - a) ->
  assign l a b v = Ok (firstn (Z.to_nat a) l ++ v ++ skipn (Z.to_nat b) l).
Proof.
  intros Ha Hb HL. unfold assign, norm_index. destruct (Z.ltb_spec a 0); [lia|]. destruct (Z.ltb_spec b 0); [lia|].
  rewrite !Nat.min_l by lia. rewrite Nat.max_r by lia. destruct v as [|x [|y r]].
  - simpl in HL. destruct (Nat.eqb_spec (length (@nil A)) (Z.to_nat b - Z.to_nat a)); [reflexivity|simpl in *; lia].
  - simpl in HL. replace (Z.to_nat b - Z.to_nat a) with 1 by lia. reflexivity.
  - destruct (Nat.eqb_spec (length (x :: y :: r)) (Z.to_nat b - Z.to_nat a)); [reflexivity|lia].
Qed.
Lemma assign_neg {A} (l : list A) (a b : Z) v : (0 < a <= Z.of_nat (length l))%Z -> assign l (- a) b v = assign l (Z.of_nat (length l) - a) b v.
Proof.
  intros Ha. unfold assign. replace (norm_index (length l) (- a)) with (norm_index (length l) (Z.of_nat (length l) - a)); auto.
  unfold norm_index. destruct (Z.ltb_spec (Z.of_nat (length l) - a) 0); [lia|]. destruct (Z.ltb_spec (- a) 0); [|lia]. lia.
Qed.
Lemma firstn_repeat' {A} (x : A) n k : firstn k (repeat x n) = repeat x (Nat.min k n).
Proof. revert n. induction k; intros [|n]; simpl; auto. f_equal. apply IHk. Qed.
Lemma skipn_repeat' {A} (x : A) n k : skipn k (repeat x n) = repeat x (n - k).
Proof. revert n. induction k; intros [|n]; simpl; auto. Qed.

Lemma nth_skip {A} (l : list A) k j d : nth j (skipn k l) d = nth (k + j) l d.
Proof. revert l. induction k; intros [|a l]; simpl; auto. now destruct j. Qed.
Lemma nth_first {A} (l : list A) k j d : j < k -> nth j (firstn k l) d = nth j l d.
Proof. revert l j. induction k; intros [|a l] [|j] H; simpl; auto; try lia. apply IHk. lia. Qed.
Lemma nth_repeat0 n j : nth j (repeat 0%Q n) 0%Q = 0%Q.
Proof. revert j. induction n; intros [|j]; simpl; auto. Qed.

Section Taper.
  Variable tap : nat -> list Q.
  Hypothesis tap_len : forall n, length (tap n) = n.

  Definition profile (half s : Z) : list Q :=
    skipn (Z.to_nat s) (tap (Z.to_nat (2 * s))) ++ repeat 0%Q (Z.to_nat (2 * half + 1 - 2 * s)) ++ firstn (Z.to_nat s) (tap (Z.to_nat (2 * s))).
  Lemma profile_length half s : (1 <= s <= half)%Z -> length (profile half s) = Z.to_nat (2 * half + 1).
  Proof. intros H. unfold profile. rewrite !app_length, repeat_length, skipn_length, firstn_length, tap_len. lia. Qed.
  Lemma inverse_ok half s : (1 <= s <= half)%Z -> inverse_taper tap (2 * half) s = Ok (profile half s).
  Proof.
    intros H. unfold inverse_taper. destruct (Z.ltb_spec s 0); [lia|].
    replace (2 * Z.to_nat s) with (Z.to_nat (2 * s)) by lia.
    rewrite assign_ok; [|lia|rewrite repeat_length; lia|rewrite skipn_length, tap_len; lia]. cbn [bind].
    set (z := firstn _ _ ++ _ ++ _).
    assert (Lz : length z = Z.to_nat (2 * half + 1)).
    { unfold z. rewrite !app_length, firstn_length, !skipn_length, repeat_length, tap_len. lia. }
    rewrite assign_neg by lia. rewrite assign_ok; [|lia|lia|rewrite firstn_length, tap_len; lia]. f_equal.
    replace (skipn (Z.to_nat (Z.of_nat (length z))) z) with (@nil Q) by (symmetry; rewrite Nat2Z.id; apply skipn_all).
    rewrite app_nil_r. unfold profile. rewrite app_assoc. f_equal. rewrite Lz. unfold z. change (firstn (Z.to_nat 0) (repeat 0%Q (Z.to_nat (2 * half + 1)))) with (@nil Q).
    rewrite app_nil_l, firstn_app, skipn_length, tap_len, skipn_repeat', firstn_repeat'.
    rewrite firstn_all2 by (rewrite skipn_length, tap_len; lia). f_equal. f_equal. lia.
  Qed.
  (** the weight at position j *)
  Lemma profile_nth half s j : (1 <= s <= half)%Z -> (0 <= j <= 2 * half)%Z ->
    nth (Z.to_nat j) (profile half s) 0%Q =
    if (Z.abs (j - half) <=? half - s)%Z then 0%Q
    else nth (Z.to_nat (if (j - half <? 0)%Z then (s + j)%Z else (s - 1 - 2 * half + j)%Z)) (tap (Z.to_nat (2 * s))) 0%Q.
  Proof.
    intros H Hj. unfold profile.
    assert (L1 : length (skipn (Z.to_nat s) (tap (Z.to_nat (2 * s)))) = Z.to_nat s) by (rewrite skipn_length, tap_len; lia).
    destruct (Z.leb_spec (Z.abs (j - half)) (half - s)) as [Ha|Ha].
    - rewrite app_nth2 by lia. rewrite app_nth1 by (rewrite repeat_length; lia). apply nth_repeat0.
    - destruct (Z.ltb_spec (j - half) 0).
      + rewrite app_nth1 by lia. rewrite nth_skip. f_equal. lia.
      + rewrite app_nth2 by lia. rewrite app_nth2 by (rewrite repeat_length; lia). rewrite L1, repeat_length. rewrite nth_first by lia. f_equal. lia.
  Qed.
End Taper.

Lemma multiply_ok row a b taper : (0 <= a)%Z -> (a + Z.of_nat (length taper) <= Z.of_nat (length row))%Z -> length (pyslice row a b) = length taper ->
  (0 <= b)%Z ->
  exists row', multiply row a b taper = Ok row' /\ length row' = length row /\
    forall k v, nth_error row k = Some v ->
      nth_error row' k = Some (if (a <=? Z.of_nat k)%Z && (Z.of_nat k <? a + Z.of_nat (length taper))%Z then scale (nth (Z.to_nat (Z.of_nat k - a)) taper 0%Q) v else v).
Proof.
  intros Ha Hb HL Hb0. unfold multiply. rewrite HL, Nat.eqb_refl. cbn [bind]. eexists. split; [reflexivity|].
  assert (En : norm_index (length row) a = Z.to_nat a) by (unfold norm_index; destruct (Z.ltb_spec a 0); lia).
  rewrite En. set (part := pyslice row a b) in *. set (new := map _ (combine taper part)).
  assert (Ln : length new = length taper) by (unfold new; rewrite map_length, combine_length; lia).
  split; [rewrite !app_length, firstn_length, skipn_length, Ln; lia|].
  intros k v Hk. assert (Hkl : k < length row) by (apply nth_error_Some; congruence).
  destruct (Z.leb_spec a (Z.of_nat k)); simpl.
  - rewrite nth_error_app2 by (rewrite firstn_length; lia). rewrite firstn_length, Nat.min_l by lia.
    destruct (Z.ltb_spec (Z.of_nat k) (a + Z.of_nat (length taper))).
    + rewrite nth_error_app1 by lia. unfold new. rewrite nth_error_map.
      assert (P : nth_error part (k - Z.to_nat a) = Some v).
      { unfold part, pyslice. rewrite En. rewrite nth_error_firstn' by (unfold part, pyslice in HL; rewrite En, firstn_length in HL; lia).
        rewrite nth_error_skipn'. replace (Z.to_nat a + (k - Z.to_nat a)) with k by lia. exact Hk. }
      assert (C : nth_error (combine taper part) (k - Z.to_nat a) = Some (nth (k - Z.to_nat a) taper 0%Q, v)).
      { rewrite (nth_error_nth' _ (0%Q, v)) by (rewrite combine_length; lia). rewrite combine_nth by auto. f_equal. f_equal.
        apply nth_error_nth with (d := v) in P. exact P. }
      rewrite C. simpl. replace (Z.to_nat (Z.of_nat k - a)) with (k - Z.to_nat a) by lia. reflexivity.
    + rewrite nth_error_app2 by lia. rewrite nth_error_skipn'. rewrite <- Hk. f_equal. lia.
  - rewrite nth_error_app1 by (rewrite firstn_length; lia). rewrite nth_error_firstn' by lia. exact Hk.
Qed.

Lemma mapM_ok {A B} (f : A -> result B) (Q : A -> B -> Prop) l : (forall x, In x l -> exists y, f x = Ok y /\ Q x y) ->
  exists r, mapM f l = Ok r /\ Forall2 Q l r.
Proof.
  induction l as [|x l IH]; intros H; simpl; [eauto|]. destruct (H x (or_introl eq_refl)) as (y & -> & Hy). simpl.
  destruct IH as (r & -> & Hr); [intros z Hz; apply H; now right|]. simpl. eauto.
Qed.
Lemma mapM_raise {A B} (f : A -> result B) e l : l <> [] -> (forall x, In x l -> f x = Raise e) -> mapM f l = Raise e.
Proof. destruct l as [|x l]; [congruence|]. intros _ H. simpl. now rewrite (H x (or_introl eq_refl)). Qed.
Lemma multiply_fail row a b taper : length taper <> length (pyslice row a b) -> length taper <> 1 -> multiply row a b taper = Raise ValueError.
Proof.
  intros H1 H2. unfold multiply. destruct (Nat.eqb_spec (length taper) (length (pyslice row a b))); [congruence|].
  destruct taper as [|w [|w' r]]; auto. now elim H2.
Qed.
Lemma pyslice_len {A} (l : list A) a b : (0 <= a)%Z -> (0 <= b)%Z ->
  length (pyslice l a b) = Nat.min (Z.to_nat b) (length l) - Nat.min (Z.to_nat a) (length l).
Proof.
  intros Ha Hb. unfold pyslice, norm_index. destruct (Z.ltb_spec a 0); [lia|]. destruct (Z.ltb_spec b 0); [lia|].
  rewrite firstn_length, skipn_length. lia.
Qed.

Lemma half_positive h width : (0 < h_sr h)%Q -> (0 < width)%Q -> (1 <= half_width h width)%Z.
Proof.
  intros Hs Hw. unfold half_width. assert (P : (0 < width * h_sr h / 2)%Q).
  { assert (0 < width * h_sr h)%Q by nra. apply Qlt_shift_div_l; lra. }
  pose proof (Qle_ceiling (width * h_sr h / 2)) as C. assert (0 < inject_Z (Qceiling (width * h_sr h / 2)))%Q as C' by lra.
  change 0%Q with (inject_Z 0) in C'. rewrite <- Zlt_Qlt in C'. lia.
Qed.

Section Center.
  Variable tap : nat -> list Q.
  Hypothesis tap_len : forall n, length (tap n) = n.
  Variables (data : matrix) (h : hdr) (width frac : Q) (z : Z).
  Hypothesis rows : forall row, In row data -> length row = h_npts h.
  Hypothesis sr_pos : (0 < h_sr h)%Q.
  Hypothesis width_ok : (0 < width <= inject_Z (Z.of_nat (h_npts h)) / h_sr h)%Q.
  Hypothesis frac_ok : (0 < frac <= 1)%Q.
  Hypothesis zero_lag : (- h_lag h * h_sr h == inject_Z z)%Q.
  Hypothesis on_axis : (0 <= z < Z.of_nat (h_npts h))%Z.
  Let half := half_width h width.
  Let s := slope_width h width frac.

  Lemma half_pos : (1 <= half)%Z.
  Proof. apply half_positive; tauto. Qed.
  Lemma slope_range : (1 <= s <= half)%Z.
  Proof.
    pose proof half_pos as Hp. unfold s, slope_width. fold half.
    assert (Hq : (1 <= inject_Z half)%Q) by (change 1%Q with (inject_Z 1); now rewrite <- Zle_Qle). split.
    - pose proof (Qle_ceiling (inject_Z half * frac)) as C. assert (0 < inject_Z (Qceiling (inject_Z half * frac)))%Q as C' by nra.
      change 0%Q with (inject_Z 0) in C'. rewrite <- Zlt_Qlt in C'. lia.
    - rewrite <- (Qceiling_Z half) at 2. apply Qceiling_resp_le. nra.
  Qed.
  Lemma start_eq : qtrunc (- h_lag h * h_sr h - inject_Z (2 * half) / 2) = (z - half)%Z.
  Proof.
    assert (E : (- h_lag h * h_sr h - inject_Z (2 * half) / 2 == inject_Z (z - half))%Q).
    { rewrite zero_lag, inject_Z_mult. unfold Zminus. rewrite inject_Z_plus, inject_Z_opp. change (inject_Z 2) with 2%Q. field. }
    unfold qtrunc. destruct (Qle_bool 0 _).
    - rewrite (Qfloor_comp _ _ E). apply Qfloor_Z.
    - rewrite (Qceiling_comp _ _ E). apply Qceiling_Z.
  Qed.

  (** the lengths of what is multiplied, and the weights *)
  Let npts := Z.of_nat (h_npts h).
  Let start := Z.max 0 (z - half).
  Let stop := Z.min npts (start + 2 * half).
  Let taper :=
    let t := skipn (Z.to_nat (half - z)) (profile tap half s) in
    if (npts <? start + 2 * half)%Z then pyslice t 0 (npts - start) else t.

  Lemma unfold_taper : taper_center tap data h width frac = mapM (fun row => multiply row start (stop + 1) taper) data.
  Proof.
    pose proof half_pos as Hp. pose proof slope_range as Hs. unfold taper_center.
    destruct (Qeq_bool width 0) eqn:E0; [apply Qeq_bool_iff in E0; lra|].
    assert (Qle_bool 0 width = true) as -> by (apply Qle_bool_iff; lra). cbn [negb].
    assert (Qle_bool width (inject_Z (Z.of_nat (h_npts h)) / h_sr h) = true) as -> by (apply Qle_bool_iff; lra). cbn [negb].
    fold (half_width h width). fold half.
    assert (Es : Qceiling (inject_Z (2 * half) * frac / 2) = s).
    { unfold s, slope_width. fold half. apply Qceiling_comp. rewrite inject_Z_mult. change (inject_Z 2) with 2%Q. field. }
    rewrite Es, (inverse_ok tap tap_len half s Hs). cbn [bind]. rewrite start_eq.
    unfold taper, stop, start, npts. destruct (Z.ltb_spec (z - half) 0).
    - rewrite Z.max_l by lia. replace (- (z - half))%Z with (half - z)%Z by lia.
      destruct (Z.ltb_spec (Z.of_nat (h_npts h)) (0 + 2 * half)); [rewrite Z.min_l by lia|rewrite Z.min_r by lia]; reflexivity.
    - rewrite Z.max_r by lia. replace (Z.to_nat (half - z)) with 0 by lia. cbn [skipn].
      destruct (Z.ltb_spec (Z.of_nat (h_npts h)) (z - half + 2 * half)); [rewrite Z.min_l by lia|rewrite Z.min_r by lia]; reflexivity.
  Qed.

  Lemma taper_length : Z.of_nat (length taper) =
    let t := (if z <? half then half + z + 1 else 2 * half + 1)%Z in
    if (npts <? start + 2 * half)%Z then Z.min (npts - start) t else t.
  Proof.
    pose proof half_pos as Hp. pose proof slope_range as Hs. pose proof (profile_length tap tap_len half s Hs) as HL.
    unfold taper. cbv zeta. assert (Lt : Z.of_nat (length (skipn (Z.to_nat (half - z)) (profile tap half s))) = (if z <? half then half + z + 1 else 2 * half + 1)%Z).
    { rewrite skipn_length, HL. destruct (Z.ltb_spec z half); lia. }
    destruct (Z.ltb_spec npts (start + 2 * half)); [|exact Lt].
    assert (start <= npts)%Z by (unfold start, npts; lia).
    rewrite pyslice_len by lia. change (Z.to_nat 0) with 0. rewrite Nat.min_0_l, Nat.sub_0_r. lia.
  Qed.
  Lemma taper_nth j : (0 <= j < Z.of_nat (length taper))%Z -> nth (Z.to_nat j) taper 0%Q = nth (Z.to_nat (j + start - z + half)) (profile tap half s) 0%Q.
  Proof.
    intros Hj. unfold taper. cbv zeta.
    assert (E : nth (Z.to_nat j) (skipn (Z.to_nat (half - z)) (profile tap half s)) 0%Q = nth (Z.to_nat (j + start - z + half)) (profile tap half s) 0%Q).
    { rewrite nth_skip. f_equal. unfold start. lia. }
    pose proof taper_length as TL. cbv zeta in TL.
    destruct (Z.ltb_spec npts (start + 2 * half)); [|exact E].
    rewrite <- E. assert (0 <= npts - start)%Z by (unfold start, npts; lia).
    unfold pyslice. change (norm_index _ 0) with 0. cbn [skipn]. unfold norm_index. destruct (Z.ltb_spec (npts - start) 0); [lia|].
    rewrite Nat.sub_0_r. apply nth_first.
    assert (Z.to_nat j < length (skipn (Z.to_nat (half - z)) (profile tap half s))); [|lia].
    pose proof half_pos. pose proof slope_range as Hs. rewrite skipn_length, (profile_length tap tap_len half s Hs). destruct (Z.ltb_spec z half); lia.
  Qed.

  Lemma part_length (row : list sample) : length row = h_npts h -> Z.of_nat (length (pyslice row start (stop + 1))) = (Z.min npts (start + 2 * half + 1) - Z.min start npts)%Z.
  Proof.
    intros HL. pose proof half_pos. rewrite pyslice_len by (unfold stop, start, npts; lia). rewrite HL. unfold stop, start, npts. lia.
  Qed.
  Lemma lengths_agree : fits half z (h_npts h) <-> Z.of_nat (length taper) = (Z.min npts (start + 2 * half + 1) - Z.min start npts)%Z.
  Proof.
    pose proof half_pos. rewrite taper_length. cbv zeta. unfold fits, start, npts.
    destruct (Z.ltb_spec z half), (Z.ltb_spec (Z.of_nat (h_npts h)) (Z.max 0 (z - half) + 2 * half)); lia.
  Qed.

  Lemma center_ok : fits half z (h_npts h) -> exists data', taper_center tap data h width frac = Ok data' /\ Forall2 (tapered_row tap half s z) data data'.
  Proof.
    intros HF. rewrite unfold_taper. apply mapM_ok. intros row Hr. pose proof (rows row Hr) as RL.
    pose proof (part_length row RL) as PL. pose proof HF as FI. unfold fits in FI. apply lengths_agree in HF. pose proof half_pos as Hp. pose proof slope_range as Hs.
    pose proof taper_length as TL. cbv zeta in TL.
    destruct (multiply_ok row start (stop + 1) taper) as (row' & E & L & HN).
    - unfold start. lia.
    - rewrite RL. unfold start, npts in *. lia.
    - lia.
    - unfold stop, start, npts. lia.
    - exists row'. split; auto. split; auto. intros k v Hk. rewrite (HN k v Hk). eexists. split; [reflexivity|].
      assert (Hkl : k < h_npts h) by (rewrite <- RL; apply nth_error_Some; congruence).
      unfold tapered_value. destruct (Z.ltb_spec half (Z.abs (Z.of_nat k - z))) as [Hout|Hin].
      + destruct (Z.leb_spec start (Z.of_nat k)), (Z.ltb_spec (Z.of_nat k) (start + Z.of_nat (length taper))); simpl; auto; exfalso;
          clear TL HN; unfold start, npts in *; lia.
      + assert (Hs1 : (start <= Z.of_nat k)%Z) by (unfold start; lia).
        assert (Hs2 : (Z.of_nat k < start + Z.of_nat (length taper))%Z) by (rewrite HF; unfold start, npts in *; lia).
        destruct (Z.leb_spec start (Z.of_nat k)); [|lia]. destruct (Z.ltb_spec (Z.of_nat k) (start + Z.of_nat (length taper))); [|lia]. simpl.
        rewrite taper_nth by lia. replace (Z.of_nat k - start + start - z + half)%Z with (Z.of_nat k - z + half)%Z by lia.
        rewrite (profile_nth tap tap_len half s) by lia. replace (Z.of_nat k - z + half - half)%Z with (Z.of_nat k - z)%Z by lia.
        destruct (Z.leb_spec (Z.abs (Z.of_nat k - z)) (half - s)); [reflexivity|]. f_equal. f_equal. f_equal.
        destruct (Z.ltb_spec (Z.of_nat k - z) 0); lia.
  Qed.
  Lemma center_fails : ~ fits half z (h_npts h) -> data <> [] -> taper_center tap data h width frac = Raise ValueError.
  Proof.
    intros HF HD. rewrite unfold_taper. apply mapM_raise; auto. intros row Hr. pose proof (rows row Hr) as RL.
    pose proof (part_length row RL) as PL. pose proof half_pos as Hp. pose proof taper_length as TL. cbv zeta in TL.
    apply multiply_fail.
    - intros C. apply HF. apply lengths_agree. lia.
    - intros C. rewrite C in TL. apply HF. apply lengths_agree. rewrite C. unfold start, npts in *. destruct (Z.ltb_spec z half); destruct (Z.ltb_spec (Z.of_nat (h_npts h)) (Z.max 0 (z - half) + 2 * half)); lia.
  Qed.
End Center.

Lemma no_slope tap data h width : (forall n, length (tap n) = n) -> (0 < h_sr h)%Q -> (0 < width <= inject_Z (Z.of_nat (h_npts h)) / h_sr h)%Q ->
  taper_center tap data h width 0 = Raise ValueError.
Proof.
  intros TL Hs Hw. pose proof (half_positive h width Hs (proj1 Hw)) as Hp. unfold half_width in Hp. unfold taper_center.
  destruct (Qeq_bool width 0) eqn:E0; [apply Qeq_bool_iff in E0; lra|].
  assert (Qle_bool 0 width = true) as -> by (apply Qle_bool_iff; lra). cbn [negb].
  assert (Qle_bool width (inject_Z (Z.of_nat (h_npts h)) / h_sr h) = true) as -> by (apply Qle_bool_iff; lra). cbn [negb].
  set (half := Qceiling (width * h_sr h / 2)) in *.
  assert (Es : Qceiling (inject_Z (2 * half) * 0 / 2) = 0%Z).
  { rewrite (Qceiling_comp _ (inject_Z 0)); [apply Qceiling_Z|]. change (inject_Z 0) with 0%Q. field. }
  rewrite Es. unfold inverse_taper. destruct (Z.ltb_spec 0 0); [lia|]. change (Z.to_nat 0) with 0. change (2 * 0) with 0. cbn [skipn firstn].
  destruct (tap 0) as [|x r] eqn:E; [|specialize (TL 0); rewrite E in TL; discriminate].
  rewrite assign_ok; [|lia|lia|reflexivity]. cbn [bind]. change (Z.to_nat 0) with 0. cbn [firstn skipn app]. unfold assign. change (- 0)%Z with 0%Z.
  rewrite repeat_length. unfold norm_index. change (0 <? 0)%Z with false. cbv iota. destruct (Z.ltb_spec (Z.of_nat (Z.to_nat (2 * half + 1))) 0); [lia|].
  destruct (Nat.eqb_spec (@length Q []) (Nat.max (Nat.min (Z.to_nat 0) (Z.to_nat (2 * half + 1))) (Nat.min (Z.to_nat (Z.of_nat (Z.to_nat (2 * half + 1)))) (Z.to_nat (2 * half + 1))) - Nat.min (Z.to_nat 0) (Z.to_nat (2 * half + 1)))) as [e|e]; [change (@length Q []) with 0 in e; lia|].
  reflexivity.
Qed.
