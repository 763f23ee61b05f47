(** Proofs about Model.Spatial. *)
From Coq Require Import QArith Qabs Qround Lqa.
From Verif Require Import Lib.Base Model.Spatial Spec.SpatialSpec.
Local Open Scope nat_scope.

Lemma Qlt_b_iff a b : Qlt_b a b = true <-> (a < b)%Q.
Proof.
  unfold Qlt_b. rewrite negb_true_iff. rewrite <- not_true_iff_false, Qle_bool_iff. split; [apply Qnot_le_lt|apply Qlt_not_le].
Qed.
Lemma Qlt_b_false a b : Qlt_b a b = false <-> (b <= a)%Q.
Proof. unfold Qlt_b. rewrite negb_false_iff. apply Qle_bool_iff. Qed.

(** ** argmin *)
Lemma argmin_from_spec l : forall pre i best bv, i = length pre -> nth_error pre best = Some bv -> (forall v, In v pre -> (bv <= v)%Q) ->
  exists v, nth_error (pre ++ l) (argmin_from i best bv l) = Some v /\ forall v', In v' (pre ++ l) -> (v <= v')%Q.
Proof.
  induction l as [|x r IH]; intros pre i best bv I B M; cbn.
  - rewrite app_nil_r. exists bv. auto.
  - replace (pre ++ x :: r) with ((pre ++ [x]) ++ r) by (rewrite <- app_assoc; reflexivity).
    destruct (Qlt_b x bv) eqn:E.
    + apply Qlt_b_iff in E. apply IH.
      * rewrite app_length. cbn. lia.
      * subst i. rewrite nth_error_app2, Nat.sub_diag by lia. reflexivity.
      * intros v. rewrite in_app_iff. cbn. intros [J|[<-|[]]]; [specialize (M v J); lra|lra].
    + apply Qlt_b_false in E. apply IH.
      * rewrite app_length. cbn. lia.
      * rewrite nth_error_app1; [exact B|]. apply nth_error_Some. congruence.
      * intros v. rewrite in_app_iff. cbn. intros [J|[<-|[]]]; [exact (M v J)|exact E].
Qed.
Lemma argmin_spec l i : argmin l = Ok i -> exists v, nth_error l i = Some v /\ forall v', In v' l -> (v <= v')%Q.
Proof.
  destruct l as [|x r]; cbn; [discriminate|]. intros [= <-]. apply (argmin_from_spec r [x] 1 0 x); try reflexivity.
  intros v [<-|[]]. apply Qle_refl.
Qed.
Lemma argmin_ok l : l <> [] -> exists i, argmin l = Ok i.
Proof. destruct l; [contradiction|]. cbn. eauto. Qed.

Lemma nearest_argmin cells x y i : argmin (map (sqdist x y) cells) = Ok i -> nearest cells x y i.
Proof.
  intros H. apply argmin_spec in H as (v & E & M). rewrite nth_error_map in E. unfold nearest.
  destruct (nth_error cells i) as [c|]; [|discriminate]. injection E as <-. exists c. split; [reflexivity|].
  intros c' I. apply M. now apply in_map.
Qed.

Lemma forallb_far d (f : Q * Q -> Q) cells x :
  forallb (fun c => Qlt_b d (Qabs (f c - x))) cells = true <-> far d (map f cells) x.
Proof.
  rewrite forallb_forall. unfold far. split.
  - intros H a I. apply in_map_iff in I as (c & <- & I). apply Qlt_b_iff. exact (H c I).
  - intros H c I. apply Qlt_b_iff. apply H. now apply in_map.
Qed.

Lemma find_coord_ok cells res x y i : find_coord cells res x y = Ok i -> nearest cells x y i.
Proof.
  unfold find_coord. destruct (_ || _); [discriminate|]. destruct (_ || _); [discriminate|]. apply nearest_argmin.
Qed.

Lemma mesh_in xs ys x y : In (x, y) (mesh xs ys) <-> In x xs /\ In y ys.
Proof.
  unfold mesh. rewrite in_flat_map. split.
  - intros (y' & Iy & I). apply in_map_iff in I as (x' & [= <- <-] & Ix). auto.
  - intros [Ix Iy]. exists y. split; [exact Iy|]. apply in_map_iff. exists x. auto.
Qed.

Lemma find_coords_ok cells res pts l : find_coords cells res pts = Ok l -> Forall2 (fun p i => nearest cells (fst p) (snd p) i) pts l.
Proof.
  unfold find_coords. destruct (existsb _ _); [discriminate|]. destruct (_ || _); [discriminate|].
  revert l. induction pts as [|p r IH]; intros l H; cbn in H; [injection H as <-; constructor|].
  destruct (argmin (map (sqdist (fst p) (snd p)) cells)) as [i|] eqn:E; [|discriminate]. cbn in H.
  destruct (mapM _ r) as [l'|]; [|discriminate]. injection H as <-. constructor; [now apply nearest_argmin|]. now apply IH.
Qed.
Lemma find_coords_fails cells res pts : cells <> [] ->
  ((exists e, find_coords cells res pts = Raise e) <->
   (exists p, In p pts /\ ((fst p < 0)%Q \/ (snd p < 0)%Q)) \/
   (forall p, In p pts -> far res (map fst cells) (fst p)) \/ (forall p, In p pts -> far res (map snd cells) (snd p))).
Proof.
  intros NC. unfold find_coords. destruct (existsb _ pts) eqn:E1.
  - apply existsb_exists in E1 as (p & I & H). apply orb_true_iff in H. rewrite !Qlt_b_iff in H.
    split; [intros _; left; eauto|eauto].
  - assert (N1 : ~ exists p, In p pts /\ ((fst p < 0)%Q \/ (snd p < 0)%Q)).
    { intros (p & I & H). apply not_true_iff_false in E1. apply E1. apply existsb_exists. exists p. split; [exact I|].
      apply orb_true_iff. rewrite !Qlt_b_iff. exact H. }
    assert (F : forall f : Q * Q -> Q, forallb (fun p => forallb (fun c => Qlt_b res (Qabs (f c - f p))) cells) pts = true <->
      forall p, In p pts -> far res (map f cells) (f p)).
    { intros f. rewrite forallb_forall. split; intros H p I; apply forallb_far; exact (H p I). }
    pose proof (F fst) as F1. pose proof (F snd) as F2.
    destruct (forallb (fun p => forallb (fun c => Qlt_b res (Qabs (fst c - fst p))) cells) pts) eqn:A1.
    { cbn [orb]. split; [intros _; right; left; now apply F1|eauto]. }
    destruct (forallb (fun p => forallb (fun c => Qlt_b res (Qabs (snd c - snd p))) cells) pts) eqn:A2.
    { cbn [orb]. split; [intros _; right; right; now apply F2|eauto]. }
    cbn [orb]. split.
    + intros (e & H). exfalso. revert H. clear - NC. revert e. induction pts as [|p r IH]; intros e H; cbn in H; [discriminate|].
      destruct (argmin_ok (map (sqdist (fst p) (snd p)) cells)) as [i Ei]; [destruct cells; [contradiction|discriminate]|].
      rewrite Ei in H. cbn in H. destruct (mapM _ r) as [l|e'] eqn:M; [discriminate|]. exact (IH e' eq_refl).
    + intros [H|[H|H]]; [contradiction|apply F1 in H; discriminate|apply F2 in H; discriminate].
Qed.
(** on a grid whose southern row is at 0 *)
Lemma find_coord_fails xs ys res x y : (0 <= res)%Q -> (exists y0, In y0 ys /\ (y0 <= 0)%Q) -> xs <> [] ->
  (find_coord (mesh xs ys) res x y = Raise ValueError <-> (x < 0)%Q \/ (y < 0)%Q \/ far res xs x).
Proof.
  intros R (y0 & Z0 & Y0) NX. unfold find_coord.
  assert (FX : forallb (fun c => Qlt_b res (Qabs (fst c - x))) (mesh xs ys) = true <-> far res xs x).
  { rewrite (forallb_far res fst). unfold far. split; intros H a I.
    - apply H. apply in_map_iff. exists (a, y0). split; [reflexivity|]. now apply mesh_in.
    - apply in_map_iff in I as ([a' b] & E & I). cbn in E. subst a'. apply mesh_in in I as [I _]. exact (H a I). }
  destruct (Qlt_b x 0) eqn:X; cbn [orb].
  { apply Qlt_b_iff in X. split; [intros _; left; exact X|reflexivity]. }
  destruct (Qlt_b y 0) eqn:Y.
  { apply Qlt_b_iff in Y. split; [intros _; right; left; exact Y|reflexivity]. }
  apply Qlt_b_false in X, Y.
  assert (FY : forallb (fun c => Qlt_b res (snd c - y)) (mesh xs ys) = false).
  { apply not_true_iff_false. intros H. rewrite forallb_forall in H. destruct xs as [|x0 xr]; [contradiction|].
    specialize (H (x0, y0)). cbn [snd] in H. rewrite Qlt_b_iff in H. assert (res < y0 - y)%Q; [|lra].
    apply H. apply mesh_in. split; [now left|exact Z0]. }
  rewrite FY, orb_false_r.
  destruct (forallb (fun c => Qlt_b res (Qabs (fst c - x))) (mesh xs ys)) eqn:E.
  - split; [intros _; right; right; now apply FX|reflexivity].
  - assert (NF : ~ far res xs x) by (intros F; apply FX in F; congruence).
    destruct (argmin_ok (map (sqdist x y) (mesh xs ys))) as [i ->].
    { destruct xs as [|x0 xr]; [contradiction|]. intros M. apply map_eq_nil in M.
      assert (In (x0, y0) (mesh (x0 :: xr) ys)) by (apply mesh_in; split; [now left|exact Z0]). now rewrite M in H. }
    split; [discriminate|]. intros [H|[H|H]]; [lra|lra|contradiction].
Qed.

(** points inside the grid *)
Lemma arange_near extent res x : (0 < res)%Q -> (0 <= x)%Q -> (x <= extent)%Q ->
  exists a, In a (arange extent res) /\ (Qabs (a - x) <= res / 2)%Q.
Proof.
  intros R X E. set (k := Qfloor (x / res + (1 # 2))).
  assert (D : (x / res * res == x)%Q) by (field; lra).
  assert (D0 : (0 <= x / res)%Q) by (apply Qle_shift_div_l; lra).
  assert (DE : (x / res <= extent / res)%Q).
  { unfold Qdiv. apply Qmult_le_compat_r; [exact E|]. apply Qlt_le_weak, Qinv_lt_0_compat, R. }
  assert (L : (inject_Z k <= x / res + (1 # 2))%Q) by apply Qfloor_le.
  assert (U : (x / res + (1 # 2) < inject_Z (k + 1))%Q) by apply Qlt_floor.
  rewrite inject_Z_plus in U. change (inject_Z 1) with 1%Q in U.
  assert (K0 : (0 <= k)%Z).
  { assert (A : (-1 < k)%Z); [|lia]. rewrite Zlt_Qlt. change (inject_Z (-1)) with (-(1))%Q. lra. }
  assert (K1 : (k < Qceiling ((extent + res) / res))%Z).
  { rewrite Zlt_Qlt. eapply Qlt_le_trans; [|apply Qle_ceiling].
    assert (Ee : ((extent + res) / res == extent / res + 1)%Q) by (field; lra). rewrite Ee. lra. }
  exists (inject_Z (Z.of_nat (Z.to_nat k)) * res)%Q. split.
  - unfold arange. apply in_map_iff. exists (Z.to_nat k). split; [reflexivity|]. apply in_seq. lia.
  - rewrite Z2Nat.id by exact K0.
    assert (Ed : (inject_Z k * res - x == (inject_Z k - x / res) * res)%Q) by (rewrite <- D at 1; ring).
    rewrite Ed. assert (H1 : (- (1#2) <= inject_Z k - x / res)%Q) by lra. assert (H2 : (inject_Z k - x / res <= 1#2)%Q) by lra.
    apply Qabs_Qle_condition. set (t := (inject_Z k - x / res)%Q) in *. clearbody t.
    assert (Hr : (res / 2 == (1 # 2) * res)%Q) by (field). rewrite Hr. split; nra.
Qed.
Lemma arange_zero extent res : (0 < res)%Q -> (0 <= extent)%Q ->
  (exists y0, In y0 (arange extent res) /\ (y0 <= 0)%Q) /\ arange extent res <> [].
Proof.
  intros R E. assert (1 <= Qceiling ((extent + res) / res))%Z.
  { assert (0 < Qceiling ((extent + res) / res))%Z; [|lia]. rewrite Zlt_Qlt. eapply Qlt_le_trans; [|apply Qle_ceiling].
    change (inject_Z 0) with 0%Q. apply Qlt_shift_div_l; lra. }
  unfold arange. destruct (Z.to_nat (Qceiling ((extent + res) / res))) eqn:N; [lia|]. cbn [seq map].
  split; [|discriminate]. eexists. split; [now left|]. change (inject_Z (Z.of_nat 0)) with 0%Q. lra.
Qed.

Lemma sq_le a b : (a * a <= b * b)%Q -> (Qabs a <= Qabs b)%Q.
Proof.
  intros H. assert (A : (Qabs a * Qabs a == a * a)%Q) by (rewrite <- Qabs_Qmult; apply Qabs_pos; nra).
  assert (B : (Qabs b * Qabs b == b * b)%Q) by (rewrite <- Qabs_Qmult; apply Qabs_pos; nra).
  pose proof (Qabs_nonneg a). pose proof (Qabs_nonneg b).
  destruct (Qlt_le_dec (Qabs b) (Qabs a)) as [L|L]; [|exact L]. exfalso. nra.
Qed.
(** the nearest cell of a product grid is nearest in each direction *)
Lemma nearest_mesh xs ys x y i : nearest (mesh xs ys) x y i ->
  exists a b, nth_error (mesh xs ys) i = Some (a, b) /\
    (forall a', In a' xs -> (Qabs (a - x) <= Qabs (a' - x))%Q) /\ (forall b', In b' ys -> (Qabs (b - y) <= Qabs (b' - y))%Q).
Proof.
  intros ([a b] & E & M). exists a, b. split; [exact E|]. apply nth_error_In in E. apply mesh_in in E as [Ea Eb].
  split.
  - intros a' I. apply sq_le. specialize (M (a', b)). unfold sqdist in M. cbn [fst snd] in M.
    assert (In (a', b) (mesh xs ys)) as J by (apply mesh_in; auto). specialize (M J). lra.
  - intros b' I. apply sq_le. specialize (M (a, b')). unfold sqdist in M. cbn [fst snd] in M.
    assert (In (a, b') (mesh xs ys)) as J by (apply mesh_in; auto). specialize (M J). lra.
Qed.
(** a point of the area of the grid is found in a cell whose centre is at most half a cell away in each direction *)
Lemma find_coord_inside ex ey res x y : (0 < res)%Q -> (0 <= x)%Q -> (x <= ex)%Q -> (0 <= y)%Q -> (y <= ey)%Q ->
  exists i a b, find_coord (mesh (arange ex res) (arange ey res)) res x y = Ok i /\
    nth_error (mesh (arange ex res) (arange ey res)) i = Some (a, b) /\
    (Qabs (a - x) <= res / 2)%Q /\ (Qabs (b - y) <= res / 2)%Q.
Proof.
  intros R X0 X1 Y0 Y1.
  destruct (arange_near ex res x R X0 X1) as (a0 & A0 & A1). destruct (arange_near ey res y R Y0 Y1) as (b0 & B0 & B1).
  destruct (arange_zero ey res R) as [Z0 _]; [lra|]. destruct (arange_zero ex res R) as [_ NX]; [lra|].
  pose proof (find_coord_fails _ _ res x y (Qlt_le_weak _ _ R) Z0 NX) as F.
  destruct (find_coord (mesh (arange ex res) (arange ey res)) res x y) as [i|e] eqn:E.
  - exists i. pose proof (find_coord_ok _ _ _ _ _ E) as N. apply nearest_mesh in N as (a & b & N & NA & NB).
    exists a, b. split; [reflexivity|]. split; [exact N|]. split; [specialize (NA a0 A0); lra|specialize (NB b0 B0); lra].
  - exfalso. assert (e = ValueError) as ->.
    { unfold find_coord in E. destruct (_ || _); [congruence|]. destruct (_ || _); [congruence|].
      destruct (map (sqdist x y) (mesh (arange ex res) (arange ey res))); cbn in E; congruence. }
    destruct (proj1 F eq_refl) as [H|[H|H]]; [lra|lra|].
    specialize (H a0 A0). assert (Hr : (res / 2 == (1 # 2) * res)%Q) by field. lra.
Qed.

(** ** Aligning *)
Lemma nansum_cons o l : nansum (o :: l) = match o with Some q => (q + nansum l)%Q | None => nansum l end.
Proof. unfold nansum. cbn. destruct o; reflexivity. Qed.

Lemma slice_around {A} (l : list A) lo hi ii steps :
  (forall i, i < length l -> (lo <= i < hi <-> i <= ii + steps /\ ii <= i + steps)) ->
  slice lo hi l = around ii steps l.
Proof.
  unfold slice, around. intros H.
  assert (G : forall (l : list A) k lo hi, (forall i, k <= i -> i < k + length l -> (lo <= i - k < hi <-> i <= ii + steps /\ ii <= i + steps)) ->
    skipn lo (firstn hi l) = map snd (filter (fun p => (fst p <=? ii + steps) && (ii <=? fst p + steps)) (combine (seq k (length l)) l))).
  { clear. induction l as [|x r IH]; intros k lo hi H; cbn [length seq combine filter map].
    - rewrite firstn_nil, skipn_nil. reflexivity.
    - cbn [fst].
      assert (HI : forall i, S k <= i -> i < S k + length r -> (lo - 1 <= i - S k < hi - 1 <-> i <= ii + steps /\ ii <= i + steps)).
      { intros i I1 I2. rewrite <- H by (cbn [length]; lia). lia. }
      specialize (IH (S k) (lo - 1) (hi - 1) HI). specialize (H k (le_n k)). cbn [length] in H. specialize (H ltac:(lia)).
      destruct ((k <=? ii + steps) && (ii <=? k + steps)) eqn:E.
      + apply andb_true_iff in E as [E1 E2]. apply Nat.leb_le in E1, E2. assert (lo = 0 /\ 0 < hi) as [-> HH] by lia.
        destruct hi; [lia|]. cbn [firstn skipn map snd]. f_equal. rewrite <- IH. replace (S hi - 1) with hi by lia. reflexivity.
      + assert (lo > 0 \/ hi = 0) as D.
        { destruct (Nat.eq_dec hi 0); [now right|]. left. destruct (Nat.eq_dec lo 0); [|lia]. exfalso.
          apply andb_false_iff in E as [E|E]; apply Nat.leb_gt in E; lia. }
        destruct hi.
        * cbn [firstn]. rewrite skipn_nil. rewrite <- IH. cbn. rewrite skipn_nil. reflexivity.
        * destruct D as [D|D]; [|lia]. destruct lo; [lia|]. cbn [firstn skipn]. rewrite <- IH.
          replace (S hi - 1) with hi by lia. replace (S lo - 1) with lo by lia. reflexivity. }
  apply G. intros i _ I. rewrite Nat.sub_0_r. apply H. lia.
Qed.

Lemma wmean_shift off v c : Forall2 (fun v k => is_some v = is_some k) v c -> ~ (nansum c == 0)%Q ->
  (nansum (map2 omul (map (option_map (fun x => x - off)%Q) v) c) == nansum (map2 omul v c) - off * nansum c)%Q.
Proof.
  intros F _. induction F as [|a b v c E F IH]; [cbn; ring|].
  cbn [map map2]. rewrite !nansum_cons. destruct a, b; cbn in E; try discriminate; cbn [option_map omul]; rewrite IH; ring.
Qed.
Lemma wmean_shifted off v c m : Forall2 (fun v k => is_some v = is_some k) v c -> wmean v c = Some m ->
  exists m', wmean (map (option_map (fun x => x - off)%Q) v) c = Some m' /\ (m' == m - off)%Q.
Proof.
  unfold wmean. intros F H. destruct (Qeq_bool (nansum c) 0) eqn:E; [discriminate|].
  assert (N : ~ (nansum c == 0)%Q) by (intros Q; apply Qeq_bool_iff in Q; congruence).
  injection H as <-. eexists. split; [reflexivity|]. rewrite wmean_shift by assumption. field. exact N.
Qed.

Lemma around_map {A B} (f : A -> B) ii steps l : around ii steps (map f l) = map f (around ii steps l).
Proof.
  unfold around. rewrite map_length. generalize 0. induction l as [|x r IH]; intros k; [reflexivity|].
  cbn [length seq map combine filter fst]. destruct ((k <=? ii + steps) && (ii <=? k + steps)); cbn [map snd]; rewrite IH; reflexivity.
Qed.
Lemma around_forall2 {A B} (R : A -> B -> Prop) ii steps l m : Forall2 R l m -> Forall2 R (around ii steps l) (around ii steps m).
Proof.
  unfold around. generalize 0. intros k F. revert k. induction F as [|x y l m E F IH]; intros k; [constructor|].
  cbn [length seq combine filter fst]. destruct ((k <=? ii + steps) && (ii <=? k + steps)); cbn [map snd]; [constructor; auto|auto].
Qed.
Lemma around_in {A} ii steps (l : list A) : forall x, In x (around ii steps l) -> In x l.
Proof.
  intros x I. unfold around in I. apply in_map_iff in I as ([k y] & <- & I). apply filter_In in I as [I _].
  now apply in_combine_r in I.
Qed.
Lemma around_has {A} ii steps (l : list A) x : nth_error l ii = Some x -> In x (around ii steps l).
Proof.
  intros E. unfold around. apply in_map_iff. exists (ii, x). split; [reflexivity|]. apply filter_In. split.
  - assert (ii < length l) by (apply nth_error_Some; congruence).
    assert (G : forall (l : list A) k i, nth_error l i = Some x -> In (k + i, x) (combine (seq k (length l)) l)).
    { clear. induction l as [|a r IH]; intros k i E; [destruct i; discriminate|]. destruct i; cbn in *.
      - injection E as ->. left. f_equal. lia.
      - right. replace (k + S i) with (S k + i) by lia. now apply IH. }
    exact (G l 0 ii E).
  - cbn [fst]. apply andb_true_iff. split; apply Nat.leb_le; lia.
Qed.
Lemma nansum_nonneg l : Forall (fun k => match k with Some q => (0 <= q)%Q | None => True end) l -> (0 <= nansum l)%Q.
Proof. induction 1 as [|o l E F IH]; [cbn; lra|]. rewrite nansum_cons. destruct o; lra. Qed.
Lemma nansum_pos l q : Forall (fun k => match k with Some q => (0 <= q)%Q | None => True end) l -> In (Some q) l -> (0 < q)%Q -> (0 < nansum l)%Q.
Proof.
  induction 1 as [|o l E F IH]; [contradiction|]. rewrite nansum_cons. intros [->|I] P.
  - apply nansum_nonneg in F. lra.
  - specialize (IH I P). destruct o; lra.
Qed.

Lemma closest_from_bound l : forall i best bv, best < i -> zargmin_from i best bv l < i + length l.
Proof.
  induction l as [|x r IH]; intros i best bv B; cbn; [lia|]. destruct (x <? bv)%Z; (eapply Nat.lt_le_trans; [apply IH; lia|lia]).
Qed.
Lemma closest_bound l utc : l <> [] -> closest l utc < length l.
Proof.
  destruct l as [|x r]; [contradiction|]. intros _. unfold closest. cbn [map].
  pose proof (closest_from_bound (map (fun t => Z.abs (t - utc)) r) 1 0 (Z.abs (x - utc))) as H. rewrite map_length in H. cbn. apply H. lia.
Qed.

(** one curve *)
Lemma align_curve_ok c utc steps value c' q : well_formed c -> align_curve c utc steps value = Ok c' ->
  at_ (c_corr c) (closest (c_starts c) utc) = Some q -> (0 < q)%Q ->
  aligned_to value utc steps c c'.
Proof.
  intros (LS & W & NN) H Q P. unfold align_curve in H. set (ii := closest (c_starts c) utc) in *.
  set (n := length (c_value c)) in *.
  destruct (at_ (c_value c) ii) as [v|] eqn:V; [|discriminate].
  assert (LI : ii < n).
  { unfold n. destruct (Nat.lt_ge_cases ii (length (c_value c))) as [L|L]; [exact L|]. unfold at_ in V. rewrite nth_overflow in V by exact L. discriminate. }
  assert (LC : length (c_corr c) = n) by (symmetry; unfold n; clear - W; induction W; cbn; congruence).
  set (lohi := if ii <? steps then (0, ii + steps + 1) else if (Z.of_nat n - Z.of_nat steps <? Z.of_nat ii)%Z then (ii - steps, n) else (ii - steps, ii + steps + 1)) in H.
  assert (S1 : forall A (l : list A), length l = n -> slice (fst lohi) (snd lohi) l = around ii steps l).
  { intros A l L. apply slice_around. rewrite L. intros i I. unfold lohi.
    destruct (ii <? steps) eqn:E1; [apply Nat.ltb_lt in E1|apply Nat.ltb_ge in E1]; [cbn; lia|].
    destruct (Z.of_nat n - Z.of_nat steps <? Z.of_nat ii)%Z eqn:E2; [apply Z.ltb_lt in E2|apply Z.ltb_ge in E2]; cbn; lia. }
  destruct lohi as [lo hi]. cbn [fst snd] in S1. rewrite !S1 in H by (auto; reflexivity). injection H as <-.
  assert (PS : (0 < nansum (around ii steps (c_corr c)))%Q).
  { apply nansum_pos with q; [|apply around_has|exact P].
    - apply Forall_forall. intros o I. apply around_in in I. rewrite Forall_forall in NN. exact (NN o I).
    - unfold at_ in Q. rewrite <- Q. apply nth_error_nth'. rewrite LC. exact LI. }
  destruct (wmean (around ii steps (c_value c)) (around ii steps (c_corr c))) as [s|] eqn:WM.
  2: { unfold wmean in WM. destruct (Qeq_bool (nansum (around ii steps (c_corr c))) 0) eqn:E; [|discriminate].
       apply Qeq_bool_iff in E. lra. }
  assert (MS : map (fun o => match o with Some v0 => Some (v0 - (s - value))%Q | None => None end) (c_value c) =
    map (option_map (fun x => x - (s - value))%Q) (c_value c)) by (apply map_ext; intros [|]; reflexivity).
  rewrite MS. split.
  - exists (s - value)%Q. repeat split; try reflexivity. cbn [c_value]. generalize (c_value c). induction l as [|o l IH]; constructor; [|exact IH].
    destruct o; cbn; [reflexivity|trivial].
  - unfold mean_at. cbn [c_starts c_value c_corr]. fold ii. rewrite around_map.
    destruct (wmean_shifted (s - value) _ _ s (around_forall2 _ ii steps _ _ W) WM) as (m' & -> & E). rewrite E. ring.
Qed.

(** the loop *)
Lemma align_loop_ok utc steps dvs : forall shifts flags flags' out, length shifts = length dvs ->
  align_loop flags dvs shifts utc steps = Ok (flags', out) ->
  length out = length dvs /\
  (forall i c s, nth_error dvs i = Some c -> nth_error shifts i = Some s -> exists c', nth_error out i = Some c' /\ align_curve c utc steps s = Ok c') /\
  (forall c, In c dvs -> exists s, flags' (c_proc c) = FShift s) /\
  (forall k, ~ In k (map c_proc dvs) -> flags' k = flags k) /\
  (NoDup (map c_proc dvs) -> forall i c s, nth_error dvs i = Some c -> nth_error shifts i = Some s -> flags' (c_proc c) = FShift s).
Proof.
  induction dvs as [|c r IH]; intros shifts flags flags' out L H.
  - destruct shifts; [|discriminate]. cbn in H. injection H as <- <-. split; [reflexivity|]. split; [intros [|]; discriminate|].
    split; [contradiction|]. split; [reflexivity|]. intros _ [|]; discriminate.
  - destruct shifts as [|s q]; [discriminate|]. cbn [align_loop] in H.
    destruct (align_curve c utc steps s) as [c'|] eqn:A; [|discriminate]. cbn [bind] in H.
    destruct (align_loop (set_flag flags (c_proc c) (FShift s)) r q utc steps) as [[f o]|] eqn:B; [|discriminate]. cbn in H. injection H as <- <-.
    apply IH in B as (B0 & B1 & B2 & B3 & B4); [|cbn in L; lia].
    assert (FC : exists s', f (c_proc c) = FShift s').
    { destruct (in_dec Nat.eq_dec (c_proc c) (map c_proc r)) as [I|I].
      - apply in_map_iff in I as (c2 & E & I). rewrite <- E. exact (B2 c2 I).
      - exists s. rewrite (B3 _ I). unfold set_flag. now rewrite Nat.eqb_refl. }
    split; [cbn; lia|]. split; [|split; [|split]].
    + intros [|i] c0 s0 E1 E2; cbn in E1, E2.
      * injection E1 as <-. injection E2 as <-. exists c'. split; [reflexivity|exact A].
      * exact (B1 i c0 s0 E1 E2).
    + intros c0 [<-|I]; [exact FC|exact (B2 c0 I)].
    + intros k K. cbn in K. rewrite B3 by tauto. unfold set_flag. destruct (Nat.eqb_spec k (c_proc c)); [subst; tauto|reflexivity].
    + intros N. cbn in N. inversion N; subst. intros [|i] c0 s0 E1 E2; cbn in E1, E2.
      * injection E1 as <-. injection E2 as <-. rewrite B3 by assumption. unfold set_flag. now rewrite Nat.eqb_refl.
      * eapply B4; eassumption.
Qed.

Lemma filter_filter {A} (f g : A -> bool) l : filter g (filter f l) = filter (fun x => f x && g x) l.
Proof. induction l as [|x r IH]; cbn; [reflexivity|]. destruct (f x); cbn; [|exact IH]. destruct (g x); rewrite IH; reflexivity. Qed.
Lemma align_dvs_eq vel flags dvs utc steps thres : align_dvs vel flags dvs utc steps thres =
  match selected flags dvs utc thres with
  | [] => Ok (flags, [])
  | _ => do shifts <- match vel with Some fwd => forward_model fwd (selected flags dvs utc thres) utc | None => Ok (map (fun _ => 0%Q) (selected flags dvs utc thres)) end;
         align_loop flags (selected flags dvs utc thres) shifts utc steps
  end.
Proof. unfold align_dvs, selected. rewrite filter_filter. reflexivity. Qed.

Lemma forward_model_all fwd dvs utc tw : Forall (fun c => usable c utc = true) dvs -> Forall (fun c => c_tw c = Some tw) dvs -> dvs <> [] ->
  forward_model fwd dvs utc = Ok (map (fun c => fwd (c_pair c) tw) dvs).
Proof.
  intros U T N. unfold forward_model.
  assert (F : filter (fun c => usable c utc) dvs = dvs).
  { clear N T. induction U as [|c r E U IH]; [reflexivity|]. cbn. rewrite E, IH. reflexivity. }
  rewrite F. destruct (rev dvs) as [|l r] eqn:R.
  - apply (f_equal (@rev curve)) in R. rewrite rev_involutive in R. contradiction.
  - assert (I : In l dvs) by (apply in_rev; rewrite R; now left). rewrite Forall_forall in T. rewrite (T l I). reflexivity.
Qed.

Lemma align_dvs_ok vel flags dvs utc steps thres tw flags' out :
  (vel <> None -> Forall (fun c => usable c utc = true /\ c_tw c = Some tw) (selected flags dvs utc thres)) ->
  (0 < thres)%Q -> Forall well_formed dvs ->
  align_dvs vel flags dvs utc steps thres = Ok (flags', out) ->
  Forall2 (fun c c' => aligned_to (target vel tw c) utc steps c c') (selected flags dvs utc thres) out /\
  (NoDup (map c_proc (selected flags dvs utc thres)) -> forall c, In c (selected flags dvs utc thres) -> flags' (c_proc c) = FShift (target vel tw c)) /\
  (forall c, In c (selected flags dvs utc thres) -> not_aligned (flags' (c_proc c)) = false) /\
  (forall k, ~ In k (map c_proc (selected flags dvs utc thres)) -> flags' k = flags k).
Proof.
  intros U T W H. rewrite align_dvs_eq in H. set (sel := selected flags dvs utc thres) in *.
  assert (HS : forall c, In c sel -> well_formed c /\ exists q, at_ (c_corr c) (closest (c_starts c) utc) = Some q /\ (0 < q)%Q).
  { intros c I. apply filter_In in I as [I J]. rewrite Forall_forall in W. split; [exact (W c I)|].
    apply andb_true_iff in J as [_ J]. unfold dv_starts in J. apply andb_true_iff in J as [_ J].
    destruct (at_ (c_corr c) (closest (c_starts c) utc)) as [q|]; [|discriminate]. exists q. split; [reflexivity|].
    apply negb_true_iff, Qlt_b_false in J. lra. }
  assert (SE : exists shifts, shifts = map (target vel tw) sel /\ align_loop flags sel shifts utc steps = Ok (flags', out)).
  { clearbody sel. assert (D : sel = [] \/ sel <> []) by (destruct sel; [now left|right; discriminate]). destruct D as [->|D]; [eexists; split; [reflexivity|]; exact H|].
    assert (H' : (do shifts <- match vel with Some fwd => forward_model fwd sel utc | None => Ok (map (fun _ => 0%Q) sel) end;
         align_loop flags sel shifts utc steps) = Ok (flags', out)) by (destruct sel; [contradiction|exact H]). clear H. rename H' into H.
    destruct vel as [fwd|]; [|eexists; split; [reflexivity|]; exact H].
    rewrite (forward_model_all fwd sel utc tw) in H.
    - eexists. split; [reflexivity|]. exact H.
    - eapply Forall_impl; [|apply U; discriminate]. intros ? [? _]. assumption.
    - eapply Forall_impl; [|apply U; discriminate]. intros ? [_ ?]. assumption.
    - exact D. }
  destruct SE as (shifts & -> & AL). apply align_loop_ok in AL as (L & A1 & A2 & A3 & A4); [|now rewrite map_length].
  split; [|split; [|split; [|exact A3]]].
  - assert (P : forall i c, nth_error sel i = Some c -> exists c', nth_error out i = Some c' /\ aligned_to (target vel tw c) utc steps c c').
    { intros i c E. destruct (A1 i c (target vel tw c) E) as (c' & E' & AC).
      - rewrite nth_error_map, E. reflexivity.
      - exists c'. split; [exact E'|]. apply nth_error_In in E. destruct (HS c E) as (WF & q & Q1 & Q2). eapply align_curve_ok; eassumption. }
    clear - P L. revert out L P. induction sel as [|c r IH]; intros [|o out] L P; try discriminate L; [constructor|].
    constructor.
    + destruct (P 0 c eq_refl) as (c' & [= <-] & AT). exact AT.
    + apply IH; [cbn in L; lia|]. intros i c0 E. exact (P (S i) c0 E).
  - intros N c I. apply In_nth_error in I as [i E]. apply (A4 N i c); [exact E|]. rewrite nth_error_map, E. reflexivity.
  - intros c I. destruct (A2 c I) as [s ->]. reflexivity.
Qed.
