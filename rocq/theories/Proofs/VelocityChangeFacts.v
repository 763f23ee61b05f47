(** The velocity change of one combination. *)
From Coq Require Import Reals QArith Qround Qreals Qfield Lra Lia.
From Verif Require Import Lib.Base Model.LagMatrix Model.Similarity Model.TimeDomain Model.Shift Model.MultiRef Model.VelocityChange.
From Verif Require Import Spec.LagSpec Spec.ShiftSpec Spec.VelocityChangeSpec Proofs.SimilarityFacts Proofs.ShiftFacts.
Local Open Scope Z_scope.

(** ** rational numbers *)
Lemma floor_int q z : (q == inject_Z z)%Q -> Qfloor q = z.
Proof. intros E. rewrite (Qfloor_comp _ _ E). apply Qfloor_Z. Qed.
Lemma ceil_int q z : (q == inject_Z z)%Q -> Qceiling q = z.
Proof. intros E. rewrite (Qceiling_comp _ _ E). unfold Qceiling. change (- inject_Z z)%Q with (inject_Z (- z)). rewrite Qfloor_Z. lia. Qed.
Lemma truncated_int q z : (q == inject_Z z)%Q -> truncated q = z.
Proof. unfold Qeq, truncated. cbn. intros E. rewrite Z.mul_1_r in E. rewrite E. apply Z.quot_mul. discriminate. Qed.

(** ** lists *)
Lemma list_as_map {A} (d : A) l : l = map (fun k => nth k l d) (seq 0 (length l)).
Proof.
  induction l as [|x l IH]; [reflexivity|]. cbn [length seq map nth]. f_equal. rewrite <- seq_shift, map_map. exact IH.
Qed.
Lemma firstn_map_seq {A} (f : nat -> A) n : forall s k, (n <= k)%nat -> firstn n (map f (seq s k)) = map f (seq s n).
Proof. induction n as [|n IH]; intros s [|k] L; cbn; try reflexivity; [lia|]. f_equal. apply IH. lia. Qed.
Lemma skipn_map_seq {A} (f : nat -> A) n : forall s k, (n <= k)%nat -> skipn n (map f (seq s k)) = map f (seq (s + n) (k - n)).
Proof.
  induction n as [|n IH]; intros s k L; cbn [skipn]; [now rewrite Nat.add_0_r, Nat.sub_0_r|]. destruct k as [|k]; [lia|].
  cbn [seq map]. rewrite IH by lia. f_equal. f_equal; lia.
Qed.
Lemma map_seq_shift {A} (f : nat -> A) s n : map f (seq s n) = map (fun k => f (s + k)%nat) (seq 0 n).
Proof.
  revert s. induction n as [|n IH]; intros s; [reflexivity|]. cbn [seq map]. rewrite Nat.add_0_r. f_equal.
  rewrite IH, <- seq_shift, map_map. apply map_ext. intros k. f_equal. lia.
Qed.

Lemma pyslice_seq {A} (d : A) (l : list A) s t : 0 <= s -> s <= t -> t < Z.of_nat (length l) ->
  pyslice l s (t + 1) = map (fun k => nth (Z.to_nat s + k) l d) (seq 0 (Z.to_nat (t + 1 - s))).
Proof.
  intros S T L. unfold pyslice, norm_index. destruct (Z.ltb_spec s 0); [lia|]. destruct (Z.ltb_spec (t + 1) 0); [lia|].
  rewrite (Nat.min_l (Z.to_nat s)), (Nat.min_l (Z.to_nat (t + 1))) by lia.
  rewrite (list_as_map d l) at 1. rewrite skipn_map_seq, firstn_map_seq by lia. rewrite map_seq_shift.
  replace (Z.to_nat (t + 1) - Z.to_nat s)%nat with (Z.to_nat (t + 1 - s)) by lia. reflexivity.
Qed.

(** ** trimming *)
Lemma trim_rows_at {A} (rows : list (list A)) h st et s t :
  ((st - h_lag h) * h_sr h == inject_Z s)%Q -> ((et - h_lag h) * h_sr h == inject_Z t)%Q -> 0 <= s -> s <= t -> t < Z.of_nat (h_npts h) ->
  trim_rows rows h st et = (map (fun row => pyslice row s (t + 1)) rows, mkH st (h_sr h) (Z.to_nat (t + 1 - s)) (h_start h) (h_end h)).
Proof.
  intros S T S0 ST TN. unfold trim_rows. rewrite (floor_int _ _ S), (floor_int _ _ T).
  destruct (Z.ltb_spec s 0); [lia|]. destruct (Z.leb_spec (Z.of_nat (h_npts h)) t); [lia|]. f_equal. f_equal.
  rewrite (pyslice_seq tt) by (rewrite ?repeat_length; lia). now rewrite map_length, seq_length.
Qed.

(** ** windows *)
Lemma qarange_ints a b A B : (a == inject_Z A)%Q -> (b == inject_Z B)%Q ->
  Forall2 (fun q z => (q == inject_Z z)%Q) (qarange a b) (arange A B 1).
Proof.
  intros EA EB. unfold qarange. assert (C : Qceiling (b - a) = B - A).
  { apply ceil_int. rewrite EA, EB. unfold Qminus. rewrite <- inject_Z_opp, <- inject_Z_plus. reflexivity. }
  rewrite C. unfold arange, arange_len. rewrite Z.div_1_r. replace (B - A + 1 - 1) with (B - A) by lia.
  generalize (seq 0 (Z.to_nat (B - A))). intros l. induction l as [|k l IH]; cbn [map]; constructor; [|exact IH].
  rewrite EA, inject_Z_plus, Z.mul_1_r. reflexivity.
Qed.

Lemma map_trunc (f : Q -> Q) (g : Z -> Z) qs zs : (forall q z, (q == inject_Z z)%Q -> (f q == inject_Z (g z))%Q) ->
  Forall2 (fun q z => (q == inject_Z z)%Q) qs zs -> map (fun q => truncated (f q)) qs = map g zs.
Proof. intros H F. induction F as [|q z qs zs E F IH]; [reflexivity|]. cbn. f_equal; [|exact IH]. apply truncated_int. now apply H. Qed.
Lemma Forall2_rev {A B} (P : A -> B -> Prop) l m : Forall2 P l m -> Forall2 P (rev l) (rev m).
Proof. induction 1; cbn; [constructor|]. apply Forall2_app; [assumption|]. now repeat constructor. Qed.

Lemma minus_int c q z : (q == inject_Z z)%Q -> (inject_Z c - q == inject_Z (c - z))%Q.
Proof. intros ->. unfold Qminus, Z.sub. now rewrite <- inject_Z_opp, <- inject_Z_plus. Qed.
Lemma plus_int c q z : (q == inject_Z z)%Q -> (inject_Z c + q == inject_Z (c + z))%Q.
Proof. intros ->. now rewrite <- inject_Z_plus. Qed.

Lemma used_int s n qs zs : Forall2 (fun q z => (q == inject_Z z)%Q) qs zs -> used s n qs = side_indices s n zs.
Proof.
  intros F. unfold used, side_indices. set (c := center n).
  assert (MN : forall q z, (q == inject_Z z)%Q -> (inject_Z c - q == inject_Z (c - z))%Q) by (intros; now apply minus_int).
  assert (PL : forall q z, (q == inject_Z z)%Q -> (inject_Z c + q == inject_Z (c + z))%Q) by (intros; now apply plus_int).
  destruct s.
  - destruct F as [|q z qs zs E F]; [reflexivity|]. f_equal. f_equal.
    + apply (map_trunc (fun t => inject_Z c - t)%Q (fun t => c - t)); [exact MN|]. apply Forall2_rev. now constructor.
    + destruct (Qeq_bool q 0) eqn:Z0.
      * apply Qeq_bool_iff in Z0. assert (z = 0) as ->.
        { rewrite E in Z0. apply (inject_Z_injective z 0). exact Z0. }
        apply (map_trunc (fun t => inject_Z c + t)%Q (fun t => c + t)); assumption.
      * destruct (Z.eqb_spec z 0) as [->|N].
        { apply Qeq_bool_neq in Z0. contradiction. }
        apply (map_trunc (fun t => inject_Z c + t)%Q (fun t => c + t)); [exact PL|]. now constructor.
  - f_equal. apply (map_trunc (fun t => inject_Z c - t)%Q (fun t => c - t)); [exact MN|]. now apply Forall2_rev.
  - f_equal. now apply (map_trunc (fun t => inject_Z c + t)%Q (fun t => c + t)).
  - f_equal. rewrite <- (map_id zs). now apply (map_trunc (fun t => t) (fun t => t)).
Qed.

Lemma mask_int s n qs zs : Forall2 (fun q z => (q == inject_Z z)%Q) qs zs -> mask s n qs = window_mask s n zs.
Proof. intros F. unfold mask, window_mask. now rewrite (used_int _ _ _ _ F). Qed.

(** ** sums *)
Local Open Scope R_scope.
Definition total (f : nat -> R) (l : list nat) : R := fold_right Rplus 0 (map f l).
Lemma dot_map (f g : nat -> R) l : Similarity.dot (map f l) (map g l) = total (fun k => f k * g k) l.
Proof. unfold Similarity.dot, total. f_equal. induction l as [|k l IH]; [reflexivity|]. cbn. now rewrite IH. Qed.
Lemma total_app f a b : total f (a ++ b) = total f a + total f b.
Proof. unfold total. rewrite map_app. induction (map f a) as [|x l IH]; cbn; [lra|]. rewrite IH. lra. Qed.
Lemma total_zero f l : (forall k, In k l -> f k = 0) -> total f l = 0.
Proof. intros H. unfold total. induction l as [|k l IH]; [reflexivity|]. cbn. rewrite (H k) by now left. rewrite IH; [lra|]. intros; apply H; now right. Qed.
Lemma total_ext f g l : (forall k, In k l -> f k = g k) -> total f l = total g l.
Proof. intros H. unfold total. f_equal. now apply map_ext_in. Qed.
Lemma total_shift f s n : total f (seq s n) = total (fun k => f (s + k)%nat) (seq 0 n).
Proof. unfold total. f_equal. apply map_seq_shift. Qed.
Lemma total_part f s w n : (s + w <= n)%nat -> (forall k, (k < n)%nat -> (k < s \/ s + w <= k)%nat -> f k = 0) ->
  total f (seq 0 n) = total (fun k => f (s + k)%nat) (seq 0 w).
Proof.
  intros L Z. replace n with (s + (w + (n - s - w)))%nat by lia. rewrite !seq_app, !total_app. cbn [Nat.add].
  rewrite (total_zero f (seq 0 s)), (total_zero f (seq (s + w) (n - s - w))).
  - rewrite total_shift. lra.
  - intros k K. apply in_seq in K. apply Z; lia.
  - intros k K. apply in_seq in K. apply Z; lia.
Qed.

Lemma masked_map (p : nat -> bool) (q : nat -> R) l : masked (map p l) (map q l) = map (fun k => if p k then q k else 0) l.
Proof. unfold masked. induction l as [|k l IH]; [reflexivity|]. cbn. now rewrite IH. Qed.

(** ** the window on the axis *)
Lemma Qle_scaled sr x y X Y : (0 < sr)%Q -> (x * sr == inject_Z X)%Q -> (y * sr == inject_Z Y)%Q -> Qle_bool x y = (X <=? Y)%Z.
Proof.
  intros P EX EY. apply eq_true_iff_eq. rewrite Qle_bool_iff, Z.leb_le. rewrite <- (Qmult_le_r x y sr P), EX, EY. rewrite <- Zle_Qle. reflexivity.
Qed.

Lemma in_lags_int sr b e x B E L : (0 < sr)%Q -> (b * sr == inject_Z B)%Q -> (e * sr == inject_Z E)%Q -> (x * sr == inject_Z L)%Q ->
  in_lags b e x = ((B <=? L) && (L <? E))%Z.
Proof.
  intros P HB HE HL. unfold in_lags. rewrite (Qle_scaled sr b x B L P HB HL), (Qle_scaled sr e x E L P HE HL). f_equal. apply eq_sym, Z.ltb_antisym.
Qed.

Lemma lag_int h M k : two_sided h M -> ((h_lag h + inject_Z (Z.of_nat k) / h_sr h) * h_sr h == inject_Z (Z.of_nat k - Z.of_nat M))%Q.
Proof.
  intros (P & _ & L). assert (~ h_sr h == 0)%Q by (intros X; rewrite X in P; now apply Qlt_irrefl in P).
  rewrite Qmult_plus_distr_l, L. unfold Z.sub. rewrite inject_Z_plus, inject_Z_opp. field. assumption.
Qed.

Lemma in_arange a b x : In x (arange a b 1) <-> (a <= x < b)%Z.
Proof.
  unfold arange, arange_len. rewrite Z.div_1_r. rewrite in_map_iff. split.
  - intros (k & <- & K). apply in_seq in K. lia.
  - intros H. exists (Z.to_nat (x - a)). split; [lia|]. apply in_seq. lia.
Qed.

Definition window_at (s : sides) (B E : Z) (l : Z) : bool :=
  match s with
  | Both => ((B <=? l) && (l <? E)) || ((B <=? - l) && (- l <? E))
  | LeftSide => (B <=? - l) && (- l <? E)
  | RightSide | Single => (B <=? l) && (l <? E)
  end%Z.

Lemma in_window_int s h M b e B E k : two_sided h M -> (b * h_sr h == inject_Z B)%Q -> (e * h_sr h == inject_Z E)%Q ->
  in_window s b e (h_lag h + inject_Z (Z.of_nat k) / h_sr h) = window_at s B E (Z.of_nat k - Z.of_nat M).
Proof.
  intros T HB HE. pose proof (lag_int h M k T) as L.
  assert (L' : (- (h_lag h + inject_Z (Z.of_nat k) / h_sr h) * h_sr h == inject_Z (- (Z.of_nat k - Z.of_nat M)))%Q).
  { rewrite inject_Z_opp, <- L. ring. }
  destruct T as (P & _). unfold in_window, window_at.
  rewrite !(in_lags_int _ _ _ _ _ _ _ P HB HE L), !(in_lags_int _ _ _ _ _ _ _ P HB HE L'). reflexivity.
Qed.

Lemma wanted_at s E B i : s <> Single -> (0 <= B)%Z -> (i < 2 * E + 1)%nat ->
  wanted s (2 * E + 1) (arange B (Z.of_nat E) 1) i <-> window_at s B (Z.of_nat E) (Z.of_nat i - Z.of_nat E) = true.
Proof.
  intros N B0 I. unfold wanted, window_at. assert (C : center (Z.of_nat (2 * E + 1)) = Z.of_nat E).
  { unfold center. replace (Z.of_nat (2 * E + 1) - 1)%Z with (Z.of_nat E * 2)%Z by lia. apply Z.div_mul. lia. }
  rewrite C. destruct s; [| | |congruence]; rewrite ?in_arange; rewrite ?orb_true_iff, !andb_true_iff, !Z.leb_le, !Z.ltb_lt; lia.
Qed.

Lemma window_mask_at s E B : s <> Single -> (0 <= B < Z.of_nat E)%Z ->
  window_mask s (2 * E + 1) (arange B (Z.of_nat E) 1) =
  Ok (map (fun i => window_at s B (Z.of_nat E) (Z.of_nat i - Z.of_nat E)) (seq 0 (2 * E + 1))).
Proof.
  intros N BE. assert (C : center (Z.of_nat (2 * E + 1)) = Z.of_nat E).
  { unfold center. replace (Z.of_nat (2 * E + 1) - 1)%Z with (Z.of_nat E * 2)%Z by lia. apply Z.div_mul. lia. }
  destruct (window_exact s (2 * E + 1) (arange B (Z.of_nat E) 1)) as (m & -> & L & W).
  - lia.
  - intros t T. apply in_arange in T. rewrite C. destruct s; lia.
  - intros Z. assert (I : In B (arange B (Z.of_nat E) 1)) by (apply in_arange; lia). rewrite Z in I. contradiction.
  - f_equal. rewrite (list_as_map false m), L. apply map_ext_in. intros i I. apply in_seq in I.
    apply eq_true_iff_eq. rewrite W by lia. apply wanted_at; [exact N|lia|lia].
Qed.

(** the trace between the lags -E and E *)
Definition central (M E : nat) {A} (d : A) (row : list A) : list A := map (fun k => nth (M - E + k) row d) (seq 0 (2 * E + 1)).

Lemma central_slice M E {A} (d : A) row : (E <= M)%nat -> length row = (2 * M + 1)%nat ->
  pyslice row (Z.of_nat M - Z.of_nat E) (Z.of_nat M + Z.of_nat E + 1) = central M E d row.
Proof.
  intros L N. rewrite (pyslice_seq d) by lia. unfold central.
  replace (Z.to_nat (Z.of_nat M + Z.of_nat E + 1 - (Z.of_nat M - Z.of_nat E))) with (2 * E + 1)%nat by lia.
  apply map_ext. intros k. f_equal. lia.
Qed.
Lemma central_length M E {A} (d : A) row : length (central M E d row) = (2 * E + 1)%nat.
Proof. unfold central. now rewrite map_length, seq_length. Qed.

Lemma windowed_dot s h M b e B E x y : two_sided h M -> (b * h_sr h == inject_Z B)%Q -> (e * h_sr h == inject_Z (Z.of_nat E))%Q ->
  (0 <= B)%Z -> (E <= M)%nat ->
  let m := map (fun i => window_at s B (Z.of_nat E) (Z.of_nat i - Z.of_nat E)) (seq 0 (2 * E + 1)) in
  Similarity.dot (masked m (central M E 0 x)) (masked m (central M E 0 y)) = Similarity.dot (windowed s h b e x) (windowed s h b e y).
Proof.
  intros T HB HE B0 EM m. unfold windowed. rewrite dot_map. unfold m, central. rewrite !masked_map, dot_map.
  pose proof T as (P & NP & L). rewrite NP. rewrite (total_part _ (M - E) (2 * E + 1) (2 * M + 1)); [|lia|].
  2:{ intros k K O. rewrite (in_window_int s h M b e B (Z.of_nat E) k T HB HE).
      replace (window_at s B (Z.of_nat E) (Z.of_nat k - Z.of_nat M)) with false; [cbv iota; ring|]. symmetry. unfold window_at.
      apply not_true_iff_false. destruct s; rewrite ?orb_true_iff, !andb_true_iff, !Z.leb_le, !Z.ltb_lt; lia. }
  apply total_ext. intros k K. rewrite (in_window_int s h M b e B (Z.of_nat E) _ T HB HE).
  replace (Z.of_nat (M - E + k) - Z.of_nat M)%Z with (Z.of_nat k - Z.of_nat E)%Z by lia. reflexivity.
Qed.

Lemma windowed_similarity s h M b e B E x y : two_sided h M -> (b * h_sr h == inject_Z B)%Q -> (e * h_sr h == inject_Z (Z.of_nat E))%Q ->
  (0 <= B)%Z -> (E <= M)%nat ->
  let m := map (fun i => window_at s B (Z.of_nat E) (Z.of_nat i - Z.of_nat E)) (seq 0 (2 * E + 1)) in
  similarity (masked m (central M E 0 x)) (masked m (central M E 0 y)) = similarity (windowed s h b e x) (windowed s h b e y).
Proof. intros. unfold similarity. unfold m. now rewrite !(windowed_dot s h M b e B E) by assumption. Qed.

(** ** one measurement *)
Lemma qmin_cases a b : qmin a b = a \/ qmin a b = b.
Proof. unfold qmin. destruct (Qle_bool a b); auto. Qed.

Lemma sr_nonzero h : (0 < h_sr h)%Q -> ~ (h_sr h == 0)%Q.
Proof. intros P X. rewrite X in P. now apply Qlt_irrefl in P. Qed.

Lemma half_length h E : two_sided h E -> (qmin (- h_lag h) (end_lag h) * h_sr h == inject_Z (Z.of_nat E))%Q /\ (end_lag h * h_sr h == inject_Z (Z.of_nat E))%Q.
Proof.
  intros (P & N & L). pose proof (sr_nonzero h P) as NZ.
  assert (X : (end_lag h * h_sr h == inject_Z (Z.of_nat E))%Q).
  { unfold end_lag. destruct (Nat.eqb_spec (h_npts h) 0) as [Z0|_]; [lia|]. rewrite Qmult_plus_distr_l, L.
    assert (E2 : (inject_Z (Z.of_nat (h_npts h - 1)) == inject_Z (Z.of_nat E) + inject_Z (Z.of_nat E))%Q)
      by (rewrite <- inject_Z_plus; replace (Z.of_nat (h_npts h - 1)) with (Z.of_nat E + Z.of_nat E)%Z by lia; reflexivity).
    rewrite E2. field. exact NZ. }
  split; [|exact X]. destruct (qmin_cases (- h_lag h) (end_lag h)) as [->| ->]; [|exact X].
  assert (R : (- h_lag h * h_sr h == - (h_lag h * h_sr h))%Q) by ring. rewrite R, L. apply Qopp_involutive.
Qed.

Lemma from_lag h M st S : two_sided h M -> (st * h_sr h == inject_Z S)%Q -> ((st - h_lag h) * h_sr h == inject_Z (S + Z.of_nat M))%Q.
Proof.
  intros (P & N & L) E. assert (X : ((st - h_lag h) * h_sr h == st * h_sr h - h_lag h * h_sr h)%Q) by ring.
  rewrite X, E, L, inject_Z_plus. ring.
Qed.
Lemma opp_int x sr z : (x * sr == inject_Z z)%Q -> (- x * sr == inject_Z (- z))%Q.
Proof. intros E. assert (X : (- x * sr == - (x * sr))%Q) by ring. rewrite X, E. now rewrite inject_Z_opp. Qed.

Lemma pyslice_all {A} (l : list A) t : (t + 1 = Z.of_nat (length l))%Z -> (0 <= t)%Z -> pyslice l 0 (t + 1) = l.
Proof.
  intros L T. unfold pyslice, norm_index. cbn [Z.ltb Z.compare]. destruct (Z.ltb_spec (t + 1) 0); [lia|].
  replace (Nat.min (Z.to_nat (t + 1)) (length l)) with (length l) by lia. cbn. rewrite Nat.sub_0_r. apply firstn_all.
Qed.

Lemma nan_central M E row : nan_to_num (central M E None row) = central M E 0 (nan_to_num row).
Proof.
  unfold central, nan_to_num. rewrite map_map. apply map_ext. intros k.
  symmetry. apply (map_nth (fun x : option R => match x with Some v => v | None => 0 end) row None).
Qed.

Lemma linspace_nonempty a b n : (0 < n)%nat -> linspace a b n <> [].
Proof. destruct n as [|[|n]]; [lia|discriminate|discriminate]. Qed.
Lemma tested_nonempty c : (0 < c_steps c)%nat -> tested c <> [].
Proof. intros P E. apply map_eq_nil in E. now apply linspace_nonempty in E. Qed.

Lemma stretched_ref_length sp p r v : length (stretched_ref sp p r v) = length r.
Proof. unfold stretched_ref. now rewrite map_length, seq_length. Qed.

Lemma mapM_ext_in {A B} (f g : A -> result B) l : (forall x, In x l -> f x = g x) -> mapM f l = mapM g l.
Proof. induction l as [|x l IH]; intros H; [reflexivity|]. cbn. rewrite (H x) by now left. rewrite IH; [reflexivity|]. intros; apply H; now right. Qed.
Lemma mapM_of_map {A B C} (f : B -> result C) (g : A -> B) l : mapM f (map g l) = mapM (fun x => f (g x)) l.
Proof. induction l as [|x l IH]; [reflexivity|]. cbn. now rewrite IH. Qed.

Section WithSpline.
  Variable sp : list R -> R -> R.

  Lemma stretch_measures c h H M E B b e rows ref :
    c_sides c <> Single -> (0 < c_steps c)%nat -> two_sided H M -> two_sided h E -> h_sr h = h_sr H ->
    (forall row, In row rows -> length row = (2 * M + 1)%nat) -> length ref = (2 * M + 1)%nat ->
    (0 <= B < Z.of_nat E)%Z -> (E <= M)%nat -> (b * h_sr H == inject_Z B)%Q -> (e * h_sr H == inject_Z (Z.of_nat E))%Q ->
    exists h', two_sided h' E /\ h_sr h' = h_sr H /\
      stretch sp c (mkB h (map (central M E None) rows)) ref H (qarange (b * h_sr H) (e * h_sr H)) =
      (do res <- measure sp c H b e (INR M) rows ref; Ok (res, h')).
  Proof.
    intros S1 ST TH Th SR LR LF BE EM HB HE. destruct (half_length h E Th) as [D _]. set (dt := qmin (- h_lag h) (end_lag h)) in *.
    pose proof (opp_int _ _ _ D) as D'. pose proof Th as (Ph & Nh & _). pose proof TH as (PH & NH & _).
    assert (K1 : ((- dt - h_lag h) * h_sr h == inject_Z 0)%Q).
    { rewrite (from_lag h E (- dt) _ Th D'). apply inject_Z_injective. lia. }
    assert (K2 : ((dt - h_lag h) * h_sr h == inject_Z (2 * Z.of_nat E))%Q).
    { rewrite (from_lag h E dt _ Th D). apply inject_Z_injective. lia. }
    rewrite SR in D, D'.
    assert (K3 : ((- dt - h_lag H) * h_sr H == inject_Z (Z.of_nat M - Z.of_nat E))%Q).
    { rewrite (from_lag H M (- dt) _ TH D'). apply inject_Z_injective. lia. }
    assert (K4 : ((dt - h_lag H) * h_sr H == inject_Z (Z.of_nat M + Z.of_nat E))%Q).
    { rewrite (from_lag H M dt _ TH D). apply inject_Z_injective. lia. }
    set (h' := mkH (- dt) (h_sr h) (2 * E + 1) (h_start h) (h_end h)). exists h'.
    split; [|split; [exact SR|]].
    { split; [exact Ph|]. split; [reflexivity|]. cbn. rewrite SR, D'. now rewrite inject_Z_opp. }
    unfold stretch. cbn [b_hdr b_rows]. fold dt.
    assert (SS : (match c_sides c with Single => 0%Q | _ => (- dt)%Q end = (- dt)%Q) /\ (match c_sides c with Single => end_lag h | _ => dt end = dt))
      by (destruct (c_sides c); auto; congruence). destruct SS as [-> ->].
    rewrite (trim_rows_at _ h (- dt) dt 0 (2 * Z.of_nat E) K1 K2) by lia.
    replace (Z.to_nat (2 * Z.of_nat E + 1 - 0)) with (2 * E + 1)%nat by lia. fold h'.
    rewrite (trim_rows_at _ H (- dt) dt (Z.of_nat M - Z.of_nat E) (Z.of_nat M + Z.of_nat E) K3 K4) by lia.
    cbn [fst]. rewrite !map_map.
    assert (LN : length (nan_to_num ref) = (2 * M + 1)%nat) by (unfold nan_to_num; now rewrite map_length).
    assert (CT : stretch_center (c_sides c) (length (nan_to_num ref)) = INR M).
    { rewrite LN. unfold stretch_center. rewrite plus_INR, mult_INR. cbn [INR]. destruct (c_sides c); try lra. congruence. }
    rewrite CT.
    rewrite (map_ext_in _ (fun q => central M E 0 (stretched_ref sp (INR M) (nan_to_num ref) (Q2R q))))
      by (intros q _; apply central_slice; [exact EM|now rewrite stretched_ref_length]).
    rewrite <- (map_map Q2R (fun v => central M E 0 (stretched_ref sp (INR M) (nan_to_num ref) v))).
    change (map Q2R (linspace (- c_range c) (c_range c) (c_steps c))) with (tested c).
    pose proof (tested_nonempty c ST) as TN.
    set (refs := map (fun v => central M E 0 (stretched_ref sp (INR M) (nan_to_num ref) v)) (tested c)).
    destruct refs as [|r0 rr] eqn:RE; [now apply map_eq_nil in RE|].
    assert (L0 : length r0 = (2 * E + 1)%nat).
    { assert (I : In r0 refs) by (rewrite RE; now left). unfold refs in I. apply in_map_iff in I as (v & <- & _). apply central_length. }
    rewrite L0. change (h_npts h') with (2 * E + 1)%nat. rewrite Nat.eqb_refl. cbn [negb]. rewrite <- RE.
    rewrite (mask_int _ _ _ (arange B (Z.of_nat E) 1)) by (apply qarange_ints; assumption).
    rewrite (window_mask_at _ E B S1 BE). cbn [bind].
    assert (Q : forall row, In row rows -> pyslice (central M E None row) 0 (2 * Z.of_nat E + 1) = central M E None row)
      by (intros row _; apply pyslice_all; rewrite ?central_length; lia).
    rewrite (map_ext_in _ (central M E None) rows Q).
    unfold measure. rewrite mapM_of_map. f_equal. apply mapM_ext_in. intros row I. f_equal.
    unfold sim_row, refs. rewrite map_map. apply map_ext. intros v. rewrite nan_central. unfold likeness.
    apply windowed_similarity; try assumption; lia.
  Qed.

  Variable gap_row : list (option R) -> option R -> list (option R).
  Variable extract : bulk -> result (list (option R)).

  Lemma correct_hdr cb res ccb : correct sp gap_row cb res = Ok ccb -> b_hdr ccb = b_hdr cb.
  Proof. unfold correct. destruct (for_rows _ _ _ _) as [[e|] rows]; [discriminate|]. intros [= <-]. reflexivity. Qed.

  Lemma for_rows_lengths {V} (f : list (option R) -> V -> list (option R)) get w : (forall row v, length (f row v) = length row) ->
    forall rows i out, (forall row, In row rows -> length row = w) -> for_rows f get i rows = (None, out) ->
    length out = length rows /\ forall row, In row out -> length row = w.
  Proof.
    intros LF rows. induction rows as [|r rows IH]; intros i out LR E; cbn in E.
    - injection E as <-. split; [reflexivity|]. intros row [].
    - destruct (get i) as [v|]; [|discriminate]. destruct (for_rows f get (S i) rows) as [o rest] eqn:R.
      destruct o; [discriminate|]. injection E as <-. destruct (IH (S i) rest) as [L W]; [intros; apply LR; now right|exact R|].
      split; [cbn; now rewrite L|]. intros row [<-|I]; [rewrite LF; apply LR; now left|now apply W].
  Qed.
  Lemma correct_row_length h row v : (forall row v, length (gap_row row v) = length row) -> length (correct_row sp gap_row h row v) = length row.
  Proof.
    intros LG. unfold correct_row. destruct (all_samples row) as [x|] eqn:A; [|apply LG]. destruct v as [v|]; [|apply LG].
    rewrite map_length. unfold stretch_row. rewrite map_length, seq_length. revert x A. induction row as [|o row IH]; intros x A.
    - now injection A as <-.
    - cbn in A. destruct o as [y|]; [|discriminate]. destruct (all_samples row) as [x'|]; [|discriminate]. injection A as <-. cbn. f_equal. now apply IH.
  Qed.
  Lemma correct_whole cb res ccb M : (forall row v, length (gap_row row v) = length row) -> whole cb M -> correct sp gap_row cb res = Ok ccb ->
    length (b_rows ccb) = length (b_rows cb) /\ whole ccb M.
  Proof.
    intros LG LR. unfold correct, whole. destruct (for_rows _ _ _ _) as [[e|] rows] eqn:F; [discriminate|]. intros [= <-]. cbn [b_rows].
    eapply for_rows_lengths; [|exact LR|exact F]. intros; now apply correct_row_length.
  Qed.

  Lemma trim_window H M E e {A} (d : A) rows : two_sided H M -> (E <= M)%nat -> (e * h_sr H == inject_Z (Z.of_nat E))%Q ->
    (forall row, In row rows -> length row = (2 * M + 1)%nat) ->
    trim_rows rows H (- e) e = (map (central M E d) rows, mkH (- e) (h_sr H) (2 * E + 1) (h_start H) (h_end H)).
  Proof.
    intros TH EM HE LR. pose proof (opp_int _ _ _ HE) as HE'. pose proof TH as (P & N & _).
    rewrite (trim_rows_at rows H (- e) e (Z.of_nat M - Z.of_nat E) (Z.of_nat M + Z.of_nat E)); try lia.
    - f_equal; [|f_equal; lia]. apply map_ext_in. intros row I. apply central_slice; [exact EM|now apply LR].
    - rewrite (from_lag H M (- e) _ TH HE'). apply inject_Z_injective. lia.
    - rewrite (from_lag H M e _ TH HE). apply inject_Z_injective. lia.
  Qed.

  Lemma window_end c lts g b e : window c lts g = Ok (b, e) -> (e <= lts)%Q.
  Proof.
    unfold window. destruct (begin c g) as [[b'|] d]; destruct (c_len c) as [l|]; try discriminate.
    destruct (Qle_bool (b' + l) lts) eqn:Q; [|discriminate]. intros [= <- <-]. now apply Qle_bool_iff.
  Qed.

  Lemma end_inside H M E lts e : two_sided H M -> (e * h_sr H == inject_Z (Z.of_nat E))%Q -> (e <= lts)%Q -> (lts <= end_lag H)%Q -> (E <= M)%nat.
  Proof.
    intros TH HE L1 L2. destruct (half_length H M TH) as [_ X]. destruct TH as (P & _).
    assert (L : (e * h_sr H <= end_lag H * h_sr H)%Q) by (apply Qmult_le_r; [exact P|]; eapply Qle_trans; eassumption).
    rewrite HE, X, <- Zle_Qle in L. lia.
  Qed.

  Theorem measured_twice c lts g custom cb M B E b e :
    c_sides c <> Single -> (0 < c_steps c)%nat -> two_sided (b_hdr cb) M ->
    whole cb M -> (forall row v, length (gap_row row v) = length row) ->
    (forall r, custom = Some r -> length r = (2 * M + 1)%nat) -> (custom = None -> extracts extract cb M) ->
    (lts <= end_lag (b_hdr cb))%Q -> window c lts g = Ok (b, e) ->
    (b * h_sr (b_hdr cb) == inject_Z B)%Q -> (e * h_sr (b_hdr cb) == inject_Z (Z.of_nat E))%Q -> (0 <= B < Z.of_nat E)%Z -> (10 <= E)%nat ->
    velocity_change sp gap_row extract c lts g custom cb = two_pass sp gap_row extract c M b e custom cb.
  Proof.
    intros S1 ST TH LR LG LC LE LT W HB HE BE E10. unfold velocity_change. rewrite W. cbn [bind].
    pose proof (end_inside _ M E lts e TH HE (window_end _ _ _ _ _ W) LT) as EM.
    rewrite (trim_window (b_hdr cb) M E e None (b_rows cb) TH EM HE LR). cbn [h_npts h_sr].
    destruct (Nat.leb_spec (2 * E + 1) 20) as [X|_]; [lia|].
    unfold two_pass.
    set (reference := fun b => match custom with Some r => Ok r | None => extract b end).
    assert (LREF : forall bk r, b_hdr bk = b_hdr cb -> length (b_rows bk) = length (b_rows cb) -> whole bk M -> reference bk = Ok r -> length r = (2 * M + 1)%nat).
    { intros bk r HH LB WB X. unfold reference in X. destruct custom as [r'|].
      - injection X as <-. now apply LC.
      - exact (LE eq_refl bk r HH LB WB X). }
    change (match custom with Some r => Ok r | None => extract cb end) with (reference cb).
    destruct (reference cb) as [tr|x] eqn:R1; [|reflexivity]. cbn [bind].
    set (h := mkH (- e) (h_sr (b_hdr cb)) (2 * E + 1) (h_start (b_hdr cb)) (h_end (b_hdr cb))).
    assert (Th : two_sided h E).
    { destruct TH as (P & _). split; [exact P|]. split; [reflexivity|]. cbn. rewrite (opp_int _ _ _ HE). now rewrite inject_Z_opp. }
    destruct (stretch_measures c h (b_hdr cb) M E B b e (b_rows cb) tr S1 ST TH Th eq_refl LR (LREF cb tr eq_refl eq_refl LR R1) BE EM HB HE) as (h1 & T1 & SR1 & ->).
    destruct (measure sp c (b_hdr cb) b e (INR M) (b_rows cb) tr) as [first|x]; [|reflexivity]. cbn [bind fst snd].
    destruct (correct sp gap_row cb first) as [ccb|x] eqn:C; [|reflexivity]. cbn [bind].
    destruct (correct_whole cb first ccb M LG LR C) as [LB WB].
    change (match custom with Some r => Ok r | None => extract ccb end) with (reference ccb).
    destruct (reference ccb) as [tr'|x] eqn:R2; [|reflexivity]. cbn [bind].
    destruct (stretch_measures c h1 (b_hdr cb) M E B b e (b_rows cb) tr' S1 ST TH T1 SR1 LR (LREF ccb tr' (correct_hdr _ _ _ C) LB WB R2) BE EM HB HE) as (h2 & _ & _ & ->).
    destruct (measure sp c (b_hdr cb) b e (INR M) (b_rows cb) tr') as [second|x]; reflexivity.
  Qed.

  (** at most 20 samples *)
  Lemma too_short c lts g custom cb M E b e : two_sided (b_hdr cb) M -> whole cb M -> (lts <= end_lag (b_hdr cb))%Q -> window c lts g = Ok (b, e) ->
    (e * h_sr (b_hdr cb) == inject_Z (Z.of_nat E))%Q -> (E < 10)%nat ->
    velocity_change sp gap_row extract c lts g custom cb = Raise ValueError.
  Proof.
    intros TH LR LT W HE E10. unfold velocity_change. rewrite W. cbn [bind].
    pose proof (end_inside _ M E lts e TH HE (window_end _ _ _ _ _ W) LT) as EM.
    rewrite (trim_window (b_hdr cb) M E e None (b_rows cb) TH EM HE LR). cbn [h_npts].
    destruct (Nat.leb_spec (2 * E + 1) 20) as [_|X]; [reflexivity|lia].
  Qed.
End WithSpline.

(** ** one-sided measurements *)
Definition part {A} (d : A) (E p : nat) (row : list A) : list A := map (fun k => nth (p + k) row d) (seq 0 (E + 1)).

Lemma part_slice {A} (d : A) E p row : (p + E < length row)%nat -> pyslice row (Z.of_nat p) (Z.of_nat p + Z.of_nat E + 1) = part d E p row.
Proof.
  intros L. rewrite (pyslice_seq d) by lia. unfold part. replace (Z.to_nat (Z.of_nat p + Z.of_nat E + 1 - Z.of_nat p)) with (E + 1)%nat by lia.
  now rewrite Nat2Z.id.
Qed.
Lemma nan_part E p row : nan_to_num (part None E p row) = part 0 E p (nan_to_num row).
Proof.
  unfold part, nan_to_num. rewrite map_map. apply map_ext. intros k.
  symmetry. apply (map_nth (fun x : option R => match x with Some v => v | None => 0 end) row None).
Qed.

Lemma window_mask_single E B : (B < E)%nat ->
  window_mask Single (E + 1) (arange (Z.of_nat B) (Z.of_nat E) 1) = Ok (map (fun k => (B <=? k)%nat && (k <? E)%nat) (seq 0 (E + 1))).
Proof.
  intros BE. destruct (window_exact Single (E + 1) (arange (Z.of_nat B) (Z.of_nat E) 1)) as (m & -> & L & W).
  - lia.
  - intros t T. apply in_arange in T. lia.
  - intros Z. assert (I : In (Z.of_nat B) (arange (Z.of_nat B) (Z.of_nat E) 1)) by (apply in_arange; lia). rewrite Z in I. contradiction.
  - f_equal. rewrite (list_as_map false m), L. apply map_ext_in. intros i I. apply in_seq in I.
    apply eq_true_iff_eq. rewrite W by lia. unfold wanted. rewrite in_arange, andb_true_iff, Nat.leb_le, Nat.ltb_lt. lia.
Qed.

Section Single.
  Variable sp : list R -> R -> R.

  Lemma stretch_single c h H M E B b e p rows ref :
    c_sides c = Single -> (0 < c_steps c)%nat -> two_sided H M -> h_sr h = h_sr H ->
    (end_lag h * h_sr H == inject_Z (Z.of_nat E))%Q -> (- h_lag h * h_sr H == inject_Z (Z.of_nat p))%Q -> (p + E < h_npts h)%nat ->
    (forall row, In row rows -> (p + E < length row)%nat) -> length ref = (2 * M + 1)%nat ->
    (B < E)%nat -> (E <= M)%nat -> (b * h_sr H == inject_Z (Z.of_nat B))%Q -> (e * h_sr H == inject_Z (Z.of_nat E))%Q ->
    stretch sp c (mkB h rows) ref H (qarange (b * h_sr H) (e * h_sr H)) =
    (do res <- mapM (fun row => best_match (tested c) (map (fun v => similarity (piece B E p (nan_to_num row)) (piece B E M (stretched_ref sp 0 (nan_to_num ref) v))) (tested c))) rows;
     Ok (res, mkH 0 (h_sr H) (E + 1) (h_start h) (h_end h))).
  Proof.
    intros S1 ST TH SR EL HL PN LR LF BE EM HB HE. pose proof TH as (PH & NH & LH).
    assert (K1 : ((0 - h_lag h) * h_sr h == inject_Z (Z.of_nat p))%Q) by (rewrite SR, <- HL; ring).
    assert (K2 : ((end_lag h - h_lag h) * h_sr h == inject_Z (Z.of_nat p + Z.of_nat E))%Q).
    { rewrite SR, inject_Z_plus, <- HL, <- EL. ring. }
    assert (K3 : ((0 - h_lag H) * h_sr H == inject_Z (Z.of_nat M))%Q).
    { rewrite (from_lag H M 0 0 TH); [reflexivity|]. ring. }
    assert (K4 : ((end_lag h - h_lag H) * h_sr H == inject_Z (Z.of_nat M + Z.of_nat E))%Q).
    { rewrite (from_lag H M (end_lag h) _ TH EL). apply inject_Z_injective. lia. }
    unfold stretch. cbn [b_hdr b_rows]. rewrite S1.
    rewrite (trim_rows_at _ h 0 (end_lag h) (Z.of_nat p) (Z.of_nat p + Z.of_nat E) K1 K2) by lia.
    rewrite (trim_rows_at _ H 0 (end_lag h) (Z.of_nat M) (Z.of_nat M + Z.of_nat E) K3 K4) by lia.
    cbn [fst stretch_center]. rewrite SR. replace (Z.to_nat (Z.of_nat p + Z.of_nat E + 1 - Z.of_nat p)) with (E + 1)%nat by lia.
    set (h' := mkH 0 (h_sr H) (E + 1) (h_start h) (h_end h)). rewrite !map_map.
    rewrite (map_ext_in _ (fun q => part 0 E M (stretched_ref sp 0 (nan_to_num ref) (Q2R q))) (linspace _ _ _)).
    2:{ intros q _. apply part_slice. rewrite stretched_ref_length. unfold nan_to_num. rewrite map_length. lia. }
    rewrite <- (map_map Q2R (fun v => part 0 E M (stretched_ref sp 0 (nan_to_num ref) v))).
    change (map Q2R (linspace (- c_range c) (c_range c) (c_steps c))) with (tested c).
    pose proof (tested_nonempty c ST) as TN.
    set (refs := map (fun v => part 0 E M (stretched_ref sp 0 (nan_to_num ref) v)) (tested c)).
    destruct refs as [|r0 rr] eqn:RE; [now apply map_eq_nil in RE|].
    assert (L0 : length r0 = (E + 1)%nat).
    { assert (I : In r0 refs) by (rewrite RE; now left). unfold refs in I. apply in_map_iff in I as (v & <- & _). unfold part. now rewrite map_length, seq_length. }
    rewrite L0. change (h_npts h') with (E + 1)%nat. rewrite Nat.eqb_refl. cbn [negb]. rewrite <- RE.
    rewrite (mask_int _ _ _ (arange (Z.of_nat B) (Z.of_nat E) 1)) by (apply qarange_ints; assumption).
    rewrite (window_mask_single E B BE). cbn [bind].
    rewrite (map_ext_in _ (part None E p) rows) by (intros row I; apply part_slice; now apply LR).
    rewrite mapM_of_map. f_equal. apply mapM_ext_in. intros row I. f_equal.
    unfold sim_row, refs. rewrite map_map. apply map_ext. intros v. rewrite nan_part. unfold part. rewrite !masked_map. reflexivity.
  Qed.
End Single.
