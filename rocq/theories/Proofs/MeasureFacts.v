From Coq Require Import Reals QArith Qround Qreals Lra Lia.
From Verif Require Import Lib.Base Model.LagMatrix Model.Spectral Model.TimeDomain Model.Similarity Model.DVs Model.Shift Spec.ShiftSpec.
From Verif Require Import Proofs.SpectralFacts Proofs.LagFacts Proofs.AmplitudeFacts Proofs.ReferenceFacts Proofs.ExtractFacts Proofs.DVFacts Proofs.SimilarityFacts Proofs.ShiftFacts Proofs.ShiftWindow.
Local Open Scope R_scope.

Lemma Q2R_whole q z : (q == inject_Z z)%Q -> Q2R q = IZR z.
Proof. intros E. rewrite (Qeq_eqR _ _ E). unfold Q2R. cbn. lra. Qed.

(** ** means of similarities *)
Lemma existing_in l v : In v (existing l) <-> In (Some v) l.
Proof.
  unfold existing. rewrite in_flat_map. split.
  - intros ([w|] & I & J); cbn in J; [destruct J as [<-|[]]; exact I|destruct J].
  - intros I. exists (Some v). split; [exact I|now left].
Qed.
Lemma total_le l c : (forall v, In v l -> v <= c) -> Spec.ReferenceSpec.total l <= INR (length l) * c.
Proof.
  induction l as [|v l IH]; intros H; cbn [Spec.ReferenceSpec.total length]; [cbn; lra|]. rewrite S_INR.
  pose proof (H v (or_introl eq_refl)). assert (Spec.ReferenceSpec.total l <= INR (length l) * c) by (apply IH; intros; apply H; now right). lra.
Qed.
Lemma total_eq l c : (forall v, In v l -> v <= c) -> Spec.ReferenceSpec.total l = INR (length l) * c -> forall v, In v l -> v = c.
Proof.
  induction l as [|v l IH]; intros H E w I0; [destruct I0|destruct I0 as [<-|I]]; cbn [Spec.ReferenceSpec.total length] in E; rewrite S_INR in E;
    pose proof (H v (or_introl eq_refl)) as Hv; assert (T : Spec.ReferenceSpec.total l <= INR (length l) * c) by (apply total_le; intros; apply H; now right).
  - lra.
  - apply IH; [intros; apply H; now right|lra|exact I].
Qed.
Lemma nan_mean_le l c v : (forall x, In (Some x) l -> x <= c) -> nan_mean l = Some v -> v <= c.
Proof.
  intros H. unfold nan_mean. destruct (existing l) as [|x r] eqn:E; [discriminate|]. intros [= <-].
  rewrite mean_average. unfold Spec.ReferenceSpec.average. rewrite <- E.
  assert (P : 0 < INR (length (existing l))) by (rewrite E; apply lt_0_INR; cbn; lia).
  apply Rmult_le_reg_r with (INR (length (existing l))); [exact P|]. unfold Rdiv. rewrite Rmult_assoc, Rinv_l by lra. rewrite Rmult_1_r, Rmult_comm.
  apply total_le. intros y I. apply H. now apply existing_in.
Qed.
Lemma nan_mean_eq l c : (forall x, In (Some x) l -> x <= c) -> nan_mean l = Some c -> forall x, In (Some x) l -> x = c.
Proof.
  intros H. unfold nan_mean. destruct (existing l) as [|x r] eqn:E; [discriminate|]. intros [= M] y I.
  rewrite mean_average in M. unfold Spec.ReferenceSpec.average in M. rewrite <- E in M.
  assert (P : 0 < INR (length (existing l))) by (rewrite E; apply lt_0_INR; cbn; lia).
  apply (total_eq (existing l) c).
  - intros z Z. apply H. now apply existing_in.
  - rewrite <- M. field. lra.
  - now apply existing_in.
Qed.
Lemma nan_mean_const l c : (forall x, In (Some x) l -> x = c) -> nan_mean l = None \/ nan_mean l = Some c.
Proof.
  intros H. unfold nan_mean. destruct (existing l) as [|x r] eqn:E; [now left|]. right. f_equal.
  rewrite mean_average. unfold Spec.ReferenceSpec.average. rewrite <- E.
  assert (P : 0 < INR (length (existing l))) by (rewrite E; apply lt_0_INR; cbn; lia).
  assert (T : Spec.ReferenceSpec.total (existing l) = INR (length (existing l)) * c).
  { assert (A : forall y, In y (existing l) -> y = c) by (intros y I; apply H; now apply existing_in). clear E P. revert A.
    generalize (existing l) as e. induction e as [|y e IH]; intros A; cbn [Spec.ReferenceSpec.total length]; [cbn; lra|].
    rewrite S_INR, (A y (or_introl eq_refl)), IH by (intros; apply A; now right). lra. }
  rewrite T. field. lra.
Qed.
Lemma nan_mean_some l x : In (Some x) l -> exists c, nan_mean l = Some c.
Proof. intros I. apply existing_in in I. unfold nan_mean. destruct (existing l); [destruct I|eauto]. Qed.

(** ** one window *)
Lemma pick_length {A} (d : A) ix row : length (pick d ix row) = length ix.
Proof. apply map_length. Qed.
Lemma compare_le ix row ref s : compare_rows ix row ref = Some s -> s <= 1.
Proof.
  unfold compare_rows. destruct (all_samples _) as [x|] eqn:E; [|discriminate]. intros H. apply similarity_bounded in H; [lra|].
  apply ExtractFacts.all_samples_inv in E. rewrite pick_length. apply (f_equal (@length _)) in E. rewrite pick_length, map_length in E. congruence.
Qed.
Lemma compare_same ix row ref : pick None ix row = map Some (pick 0 ix ref) -> compare_rows ix row ref = None \/ compare_rows ix row ref = Some 1.
Proof.
  intros E. unfold compare_rows. rewrite E, all_samples_some. destruct (Req_dec (dot (pick 0 ix ref) (pick 0 ix ref)) 0) as [Z|NZ].
  - left. apply similarity_silent. now left.
  - right. now apply similarity_self.
Qed.

Lemma nth_error_nth' {A} (l : list A) k d v : nth_error l k = Some v -> nth k l d = v.
Proof. intros E. exact (nth_error_nth l k d E). Qed.
Lemma pyslice_at {A} (l : list A) a c d i : (0 <= a)%Z -> (0 <= c <= Z.of_nat (length l))%Z -> (a + Z.of_nat i < c)%Z ->
  nth i (pyslice l a c) d = nth (Z.to_nat a + i) l d.
Proof.
  intros Ha Hc L. pose proof (pyslice_nth l a c i Ha Hc) as E. destruct (Z.ltb_spec (a + Z.of_nat i) c); [|lia].
  destruct (nth_error l (Z.to_nat a + i)) as [v|] eqn:N.
  - rewrite (nth_error_nth' _ _ d _ E). symmetry. now apply nth_error_nth'.
  - apply nth_error_None in N. lia.
Qed.
Lemma pyslice_len' {A} (l : list A) a c : (0 <= a)%Z -> (a <= c <= Z.of_nat (length l))%Z -> Z.of_nat (length (pyslice l a c)) = (c - a)%Z.
Proof.
  intros Ha Hc. unfold pyslice, norm_index. destruct (Z.ltb_spec a 0); [lia|]. destruct (Z.ltb_spec c 0); [lia|].
  rewrite firstn_length, skipn_length. lia.
Qed.

(** equality in the inequality of Cauchy and Schwarz *)
Lemma dot_zero x : dot x x = 0 -> forall v, In v x -> v = 0.
Proof.
  induction x as [|a x IH]; intros E v I; [destruct I|]. unfold dot in E. cbn in E. fold (dot x x) in E.
  pose proof (dot_nonneg x) as P. assert (S : 0 <= a * a) by apply Rle_0_sqr.
  destruct I as [<-|I]; [nra|apply IH; [lra|exact I]].
Qed.
Lemma dot_all_zero x : (forall v, In v x -> v = 0) -> dot x x = 0.
Proof.
  induction x as [|a x IH]; intros H; [reflexivity|]. unfold dot. cbn. fold (dot x x).
  rewrite IH by (intros; apply H; now right). rewrite (H a (or_introl eq_refl)). ring.
Qed.
Lemma dot_combo a : forall x y, length x = length y ->
  dot (map (fun p => snd p - a * fst p) (combine x y)) (map (fun p => snd p - a * fst p) (combine x y)) = dot y y - 2 * a * dot x y + a * a * dot x x.
Proof.
  induction x as [|u x IH]; intros [|v y] L; try discriminate; [unfold dot; cbn; lra|]. injection L as L. specialize (IH y L).
  unfold dot in *. cbn [combine map fold_right fst snd] in *. rewrite IH. ring.
Qed.
Lemma similarity_one x y : length x = length y -> similarity x y = Some 1 -> exists a, 0 < a /\ forall k, (k < length x)%nat -> nth k y 0 = a * nth k x 0.
Proof.
  intros L E. unfold similarity in E. destruct (Req_EM_T (sqrt (dot x x * dot y y)) 0) as [Z|NZ]; [discriminate|]. injection E as E.
  pose proof (dot_nonneg x) as PX. pose proof (dot_nonneg y) as PY.
  set (den := sqrt (dot x x * dot y y)) in *. assert (P : 0 < den) by (pose proof (sqrt_pos (dot x x * dot y y)); unfold den in *; lra).
  assert (D : dot x y = den) by (apply Rmult_eq_reg_r with (/ den); [|apply Rinv_neq_0_compat; lra]; rewrite Rinv_r by lra; exact E).
  assert (DD : den * den = dot x x * dot y y) by (apply sqrt_sqrt; apply Rmult_le_pos; assumption).
  assert (XX : 0 < dot x x). { destruct (Req_dec (dot x x) 0) as [Z|]; [rewrite Z in DD; nra|lra]. }
  exists (den / dot x x). split; [now apply Rdiv_lt_0_compat|]. intros k K.
  set (a := den / dot x x). assert (Z : dot (map (fun p => snd p - a * fst p) (combine x y)) (map (fun p => snd p - a * fst p) (combine x y)) = 0).
  { rewrite (dot_combo a x y L), D. unfold a. apply Rmult_eq_reg_r with (dot x x); [|lra]. field_simplify; [|lra]. nra. }
  assert (V : nth k y 0 - a * nth k x 0 = 0).
  { apply (dot_zero _ Z). apply in_map_iff. exists (nth k x 0, nth k y 0). split; [reflexivity|].
    rewrite <- (combine_nth x y k 0 0 L). apply nth_In. rewrite combine_length. lia. }
  lra.
Qed.

(** ** one trace *)
Section Trace.
  Variables (sp : list R -> R -> R) (windows : list (list Z)) (refs : list (list R)).

  Lemma shift_sims_le row s : In (Some s) (shift_sims windows refs row) -> s <= 1.
  Proof.
    unfold shift_sims. intros I. apply in_map_iff in I as (ref & E & _). apply (nan_mean_le _ 1) in E; [exact E|].
    intros x I. apply in_map_iff in I as (ix & C & _). now apply compare_le in C.
  Qed.
  Lemma best_displaced strvec row ref : length strvec = length refs -> In ref refs ->
    (forall ix, In ix windows -> pick None ix row = map Some (pick 0 ix ref)) ->
    best_match strvec (shift_sims windows refs row) = Ok (None, None) \/
    exists i v, best_match strvec (shift_sims windows refs row) = Ok (Some 1, Some v) /\ nth_error strvec i = Some v /\
      nth_error (shift_sims windows refs row) i = Some (Some 1).
  Proof.
    intros L I H. set (sims := shift_sims windows refs row).
    assert (LS : length strvec = length sims) by (unfold sims, shift_sims; now rewrite map_length).
    destruct (existsb (fun x => negb (is_some x)) sims) eqn:N.
    - left. apply existsb_exists in N as ([v|] & Iv & N); [discriminate|]. now apply best_match_nan.
    - right. assert (ND : forall x, In x sims -> x <> None).
      { intros x Ix ->. enough (existsb (fun x => negb (is_some x)) sims = true) by congruence. apply existsb_exists. exists None. split; [exact Ix|reflexivity]. }
      assert (One : In (Some 1) sims).
      { assert (M : In (nan_mean (map (fun ix => compare_rows ix row ref) windows)) sims) by (apply (in_map (fun ref => nan_mean (map (fun ix => compare_rows ix row ref) windows))); exact I).
        destruct (nan_mean_const (map (fun ix => compare_rows ix row ref) windows) 1) as [E|E].
        - intros x X. apply in_map_iff in X as (ix & C & J). apply H, compare_same in J. destruct J as [J|J]; rewrite J in C; congruence.
        - exfalso. rewrite E in M. now apply (ND None).
        - now rewrite E in M. }
      destruct (best_match_spec strvec sims) as (i & c & v & B & Ni & Nv & Mx); [|exact LS|exact ND|].
      { destruct sims; [destruct One|discriminate]. }
      assert (c = 1) as ->. { apply Rle_antisym; [apply (shift_sims_le row); now apply nth_error_In in Ni|now apply Mx]. }
      exists i, v. auto.
  Qed.
End Trace.

Lemma mapM_exists {A B} (f : A -> result B) l : (forall x, In x l -> exists y, f x = Ok y) -> exists l', mapM f l = Ok l'.
Proof.
  induction l as [|a l IH]; intros H; cbn; [eauto|]. destruct (H a (or_introl eq_refl)) as [y ->]. cbn.
  destruct IH as [l' ->]; [intros; apply H; now right|]. cbn. eauto.
Qed.
Lemma best_match_total strvec sims : sims <> [] -> length strvec = length sims -> exists r, best_match strvec sims = Ok r.
Proof.
  intros NE L. destruct (existsb (fun x => negb (is_some x)) sims) eqn:N.
  - apply existsb_exists in N as ([v|] & Iv & N); [discriminate|]. rewrite best_match_nan by assumption. eauto.
  - destruct (best_match_spec strvec sims NE L) as (i & c & v & B & _); [|eauto].
    intros x Ix ->. enough (existsb (fun x => negb (is_some x)) sims = true) by congruence. apply existsb_exists. exists None. split; [exact Ix|reflexivity].
Qed.
Lemma squeeze_reported l i : reported (squeeze l) i = nth_error l i.
Proof. destruct l as [|v [|w l]]; cbn; [reflexivity| |reflexivity]. destruct i as [|[|i]]; reflexivity. Qed.

(** ** measure_shift *)
Section Measure.
  Variables (sp : list R -> R -> R) (h : hdr) (data : list (list (option R))) (ref : list R) (tw : option (list (Q * Q))) (range : Q) (steps : nat) (sd : shift_sides).
  Hypothesis Hsr : (0 < h_sr h)%Q.
  Hypothesis Hn : length ref = h_npts h.
  Hypothesis Hpos : (0 < h_npts h)%nat.
  Hypothesis Hrange : (0 <= range)%Q.
  Hypothesis Hodd : Nat.even steps = false.
  Hypothesis Hsd : sd <> OtherSides.
  Hypothesis Hfit : fits h sd range tw.

  (** the run of the function *)
  Lemma measure_run : exists hi twmin,
    let start := Qfloor ((twmin - h_lag h) * h_sr h) in
    let stop := Qfloor ((hi + range - h_lag h) * h_sr h) in
    let r := pyslice ref start (stop + 1) in
    let shifts := linspace (- range) range steps in
    let refs := map (fun s => shifted_ref sp r (Q2R (s * h_sr h))) shifts in
    let windows := map (window_indices sd (h_sr h) twmin) (windows_of h range tw) in
    (0 <= start)%Z /\ (start <= stop + 1)%Z /\ (stop < Z.of_nat (h_npts h))%Z /\
    (exists lo, latest (windows_of h range tw) = Some hi /\ earliest (windows_of h range tw) = Some lo /\ twmin = match sd with BothSides => (- (hi + range))%Q | _ => (lo - range)%Q end) /\
    (forall w i m, In w (windows_of h range tw) -> In i (window_indices sd (h_sr h) twmin w) ->
      (inject_Z m <= range * h_sr h /\ - (range * h_sr h) <= inject_Z m)%Q -> (0 <= i + m <= stop - start)%Z) /\
    exists res, measure_shift sp h data ref tw range steps sd = Ok (shift_measurement res) /\ length res = length data /\
      forall i row, nth_error data i = Some row ->
        exists cv, nth_error res i = Some cv /\ best_match (map Q2R shifts) (shift_sims windows refs (pyslice row start (stop + 1))) = Ok cv.
  Proof.
    destruct (fits_spec h sd range tw Hsr Hpos Hrange Hsd Hfit) as (hi & lo & twmin & HI & LO & ET & B1 & B2 & S0 & S1 & W).
    exists hi, twmin. intros start stop r shifts refs windows.
    assert (SS : (start <= stop + 1)%Z).
    { unfold start, stop. enough (Qfloor ((twmin - h_lag h) * h_sr h) <= Qfloor ((hi + range - h_lag h) * h_sr h))%Z by lia.
      apply Qfloor_resp_le. apply Qmult_le_compat_r; [|now apply Qlt_le_weak].
      assert (twmin <= hi + range)%Q; [|unfold Qminus; now apply Qplus_le_compat; [|apply Qle_refl]].
      assert (T1 : exists w, In w (windows_of h range tw)). { apply latest_in in HI as (w & I & _). eauto. }
      destruct T1 as (w & Iw). pose proof (latest_ge _ _ _ HI Iw) as [L1 _]. pose proof (earliest_le _ _ _ LO Iw) as [L2 _].
      rewrite ET. destruct sd; [apply (ShiftQ_both h range tw hi); assumption|apply (ShiftQ_single hi lo range (fst w)); assumption|congruence]. }
    split; [exact S0|]. split; [exact SS|]. split; [exact S1|]. split; [now exists lo|]. split; [exact W|].
    assert (D : exists res, mapM (fun row => best_match (map Q2R shifts) (shift_sims windows refs row)) (map (fun row => pyslice row start (stop + 1)) data) = Ok res).
    { apply mapM_exists. intros x _. apply best_match_total.
      - unfold shift_sims, refs, shifts. intros E. apply (f_equal (@length _)) in E. rewrite !map_length, linspace_length in E. destruct steps; discriminate.
      - unfold shift_sims, refs. now rewrite !map_length. }
    destruct D as (res & D). exists res.
    assert (IX : forallb (fun ix => forallb (index_ok (Z.of_nat (length r))) ix) windows = true).
    { apply forallb_forall. intros ix I. apply in_map_iff in I as (w & <- & Iw). apply forallb_forall. intros i Ii.
      specialize (W w i 0%Z Iw Ii). unfold index_ok. assert (Lr : Z.of_nat (length r) = (stop + 1 - start)%Z) by (unfold r; apply pyslice_len'; [exact S0|lia]).
      rewrite Lr. rewrite Z.add_0_r in W. assert (0 <= i <= stop - start)%Z; [|apply andb_true_iff; split; [apply Z.leb_le|apply Z.ltb_lt]; lia].
      apply W. assert (0 <= range * h_sr h)%Q by (apply Qmult_le_0_compat; [exact Hrange|now apply Qlt_le_weak]). split; [exact H|].
      apply ShiftQ_opp. exact H. }
    assert (MW : measure_windows sp h data ref (windows_of h range tw) range steps sd = Ok (shift_measurement res)).
    { unfold measure_windows. rewrite HI, LO. cbv zeta. rewrite <- ET.
      apply Qle_bool_iff in B1. apply Qle_bool_iff in B2. rewrite B1, B2. cbn [negb].
      fold start stop r shifts refs windows. rewrite IX, D. reflexivity. }
    split; [|split].
    - unfold measure_shift. rewrite Hodd. destruct tw as [l|].
      + assert (NN : match sd with BothSides => existsb (fun w => negb (Qle_bool 0 (fst w)) || negb (Qle_bool 0 (snd w))) l | _ => false end = false).
        { destruct sd; [|reflexivity..]. apply not_true_iff_false. intros E. apply existsb_exists in E as (w & Iw & E). destruct Hfit as [_ F].
          destruct (F w (fst w) Iw (or_introl eq_refl)) as [_ [P1 _]]. destruct (F w (snd w) Iw (or_intror eq_refl)) as [_ [P2 _]].
          apply Qle_bool_iff in P1. apply Qle_bool_iff in P2. rewrite P1, P2 in E. discriminate. }
        rewrite NN, Hn, Nat.eqb_refl. cbn [negb]. destruct sd; [exact MW|exact MW|congruence].
      + rewrite Hn, Nat.eqb_refl. cbn [negb]. destruct sd; [exact MW|exact MW|congruence].
    - apply mapM_nth in D as [L _]. now rewrite map_length in L.
    - intros i row Hi. apply mapM_nth in D as [_ G]. destruct (G i (pyslice row start (stop + 1))) as (cv & E1 & E2).
      { now apply (map_nth_error (fun row => pyslice row start (stop + 1))). }
      eauto.
  Qed.
End Measure.
