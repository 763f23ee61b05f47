(** Lag windows, similarity and best match. *)
From Verif Require Import Lib.Base Model.Similarity Spec.LagSpec.
From Coq Require Import Reals Lra.
Local Open Scope nat_scope.
#[local] Ltac Zify.zify_post_hook ::= Z.div_mod_to_equations.

(** ** windows *)
Lemma side_fits s n ctw ix : 0 < n -> window_fits s n ctw -> side_indices s (Z.of_nat n) ctw = Ok ix ->
  (forall i, In i ix -> 0 <= i < Z.of_nat n)%Z /\
  (forall k, k < n -> In (Z.of_nat k) ix <-> wanted s n ctw k).
Proof.
  intros N0 F E. unfold window_fits in F. unfold side_indices in E. set (c := center (Z.of_nat n)) in *.
  assert (C : (0 < Z.of_nat n -> 0 <= c /\ 2 * c < Z.of_nat n)%Z) by (unfold c, center; lia).
  assert (M : forall (f : Z -> Z) l x, In x (map f l) <-> exists t, f t = x /\ In t l) by (intros; apply in_map_iff).
  destruct s.
  - destruct ctw as [|t0 r] eqn:D; [discriminate|].
    match type of E with Ok ?a = Ok ?b => assert (EE : b = a) by congruence end. subst ix. clear E. rewrite <- D in *.
    assert (N : (0 < Z.of_nat n)%Z).
    { destruct (F t0) as [F0 F1]; [subst ctw; now left|]. unfold c, center in *. lia. }
    assert (T : forall x, In x (map (fun t => c - t)%Z (rev ctw) ++ map (fun t => c + t)%Z (if (t0 =? 0)%Z then r else ctw)) <->
                          In (c - x)%Z ctw \/ In (x - c)%Z ctw).
    { intros x. rewrite in_app_iff, !M. split.
      - intros [(t & <- & Ht)|(t & <- & Ht)].
        + left. apply in_rev in Ht. now replace (c - (c - t))%Z with t by lia.
        + right. replace (c + t - c)%Z with t by lia. destruct (t0 =? 0)%Z; [|exact Ht]. subst ctw. now right.
      - intros [H|H].
        + left. exists (c - x)%Z. split; [lia|]. now apply -> in_rev.
        + destruct (Z.eqb_spec t0 0) as [Z0|Z0].
          * subst ctw. destruct H as [H|H].
            -- left. exists 0%Z. split; [lia|]. apply -> in_rev. left. lia.
            -- right. exists (x - c)%Z. split; [lia|exact H].
          * right. exists (x - c)%Z. split; [lia|exact H]. }
    split.
    + intros i Hi. apply T in Hi as [H|H]; apply F in H; lia.
    + intros k Hk. rewrite T. unfold wanted. fold c. split; (intros [H|H]; [right|left]);
        [replace (- (Z.of_nat k - c))%Z with (c - Z.of_nat k)%Z by lia; exact H | exact H | exact H |
         replace (c - Z.of_nat k)%Z with (- (Z.of_nat k - c))%Z by lia; exact H].
  - injection E as <-. split.
    + intros i Hi. apply M in Hi as (t & <- & Ht). apply in_rev, F in Ht.
      assert (0 < Z.of_nat n)%Z by (unfold c, center in *; lia). lia.
    + intros k Hk. rewrite M. unfold wanted. fold c. split.
      * intros (t & E & Ht). apply in_rev in Ht. now replace (- (Z.of_nat k - c))%Z with t by lia.
      * intros H. exists (- (Z.of_nat k - c))%Z. split; [lia|now apply -> in_rev].
  - injection E as <-. split.
    + intros i Hi. apply M in Hi as (t & <- & Ht). apply F in Ht.
      unfold c, center in *. lia.
    + intros k Hk. rewrite M. unfold wanted. fold c. split.
      * intros (t & E & Ht). now replace (Z.of_nat k - c)%Z with t by lia.
      * intros H. exists (Z.of_nat k - c)%Z. split; [lia|exact H].
  - injection E as <-. split; [exact F|]. intros k Hk. reflexivity.
Qed.

Lemma window_exact s n ctw : 0 < n -> window_fits s n ctw -> ctw <> [] ->
  exists m, window_mask s n ctw = Ok m /\ length m = n /\
    forall i, i < n -> (nth i m false = true <-> wanted s n ctw i).
Proof.
  intros N0 F NE. unfold window_mask.
  destruct (side_indices s (Z.of_nat n) ctw) as [ix|e] eqn:E.
  2:{ destruct s, ctw; try discriminate; congruence. }
  destruct (side_fits s n ctw ix N0 F E) as [B W]. cbn [bind].
  assert (A : forallb (index_ok (Z.of_nat n)) ix = true).
  { apply forallb_forall. intros i Hi. apply B in Hi. unfold index_ok.
    apply andb_true_intro. split; [apply Z.leb_le|apply Z.ltb_lt]; lia. }
  rewrite A. eexists. split; [reflexivity|]. split; [now rewrite map_length, seq_length|].
  intros i Hi. set (f := fun k => existsb (fun j => (wrap (Z.of_nat n) j =? Z.of_nat k)%Z) ix).
  rewrite (nth_indep _ false (f 0)) by now rewrite map_length, seq_length.
  rewrite map_nth, seq_nth by exact Hi. rewrite <- W by exact Hi. unfold f. rewrite existsb_exists. split.
  - intros (j & Hj & Ej). apply Z.eqb_eq in Ej. pose proof (B j Hj). unfold wrap in Ej.
    destruct (Z.ltb_spec j 0); [lia|]. cbn in Ej. now rewrite <- Ej.
  - intros H. exists (Z.of_nat i). split; [exact H|]. apply Z.eqb_eq. unfold wrap. destruct (Z.ltb_spec (Z.of_nat i) 0); lia.
Qed.

Lemma window_right_beyond n ctw t : In t ctw -> (Z.of_nat n - center (Z.of_nat n) <= t)%Z -> 0 < n ->
  window_mask RightSide n ctw = Raise IndexError /\ window_mask Both n ctw = Raise IndexError.
Proof.
  intros I B N. unfold window_mask.
  assert (NO : forall ix, In (center (Z.of_nat n) + t)%Z ix -> forallb (index_ok (Z.of_nat n)) ix = false).
  { intros ix H. destruct (forallb _ ix) eqn:A; [exfalso|reflexivity].
    rewrite forallb_forall in A. specialize (A _ H). unfold index_ok in A. apply andb_prop in A as [_ A]. apply Z.ltb_lt in A. lia. }
  split.
  - cbn [side_indices bind]. rewrite NO; [reflexivity|]. apply in_map_iff. eauto.
  - destruct ctw as [|t0 r]; [destruct I|]. cbn [side_indices bind]. rewrite NO; [reflexivity|].
    apply in_app_iff. right. apply in_map_iff. exists t. split; [reflexivity|].
    destruct (Z.eqb_spec t0 0) as [Z0|Z0]; [|exact I]. destruct I as [I|I]; [|exact I].
    exfalso. unfold center in B. lia.
Qed.

(** ** similarity *)
Local Open Scope R_scope.

Lemma dot_nonneg a : 0 <= dot a a.
Proof. unfold dot. induction a as [|x a IH]; cbn; [lra|]. pose proof (Rle_0_sqr x) as H. unfold Rsqr in H. lra. Qed.

Lemma dot_quadratic t a b : length a = length b ->
  dot a a * (t * t) - 2 * dot a b * t + dot b b >= 0.
Proof.
  unfold dot. revert b. induction a as [|x a IH]; destruct b as [|y b]; intros L; try discriminate; cbn; [lra|].
  injection L as L. specialize (IH b L). pose proof (Rle_0_sqr (x * t - y)) as H. unfold Rsqr in H. lra.
Qed.

Lemma cauchy_schwarz a b : length a = length b -> dot a b * dot a b <= dot a a * dot b b.
Proof.
  intros L. pose proof (dot_nonneg a) as A. pose proof (dot_nonneg b) as B.
  set (D := dot a b). set (P := dot a a) in *. set (Q := dot b b) in *.
  assert (H : forall t, P * (t * t) - 2 * D * t + Q >= 0) by (intros t; now apply dot_quadratic).
  destruct (Req_dec P 0) as [Z|NZ].
  - rewrite Z in *. destruct (Req_dec D 0) as [->|ND]; [lra|exfalso].
    specialize (H ((Q + 1) / (2 * D))).
    replace (0 * ((Q + 1) / (2 * D) * ((Q + 1) / (2 * D))) - 2 * D * ((Q + 1) / (2 * D)) + Q) with (-1) in H by (field; exact ND).
    lra.
  - assert (PP : 0 < P) by lra. specialize (H (D / P)).
    replace (P * (D / P * (D / P)) - 2 * D * (D / P) + Q) with ((P * Q - D * D) / P) in H by (field; exact NZ).
    apply Rge_le in H. apply (Rmult_le_compat_r P) in H; [|lra].
    replace ((P * Q - D * D) / P * P) with (P * Q - D * D) in H by (field; exact NZ). lra.
Qed.

Lemma similarity_bounded a b s : length a = length b -> similarity a b = Some s -> -1 <= s <= 1.
Proof.
  intros L. unfold similarity. set (den := sqrt (dot a a * dot b b)).
  destruct (Req_EM_T den 0) as [Z|NZ]; [discriminate|]. intros [= <-].
  assert (P : 0 < den) by (pose proof (sqrt_pos (dot a a * dot b b)); unfold den in *; lra).
  assert (AB : Rabs (dot a b) <= den).
  { unfold den. rewrite <- sqrt_Rsqr_abs. apply sqrt_le_1; [apply Rle_0_sqr| |apply (cauchy_schwarz a b L)].
    apply Rmult_le_pos; apply dot_nonneg. }
  assert (AB2 : - den <= dot a b <= den) by (unfold Rabs in AB; destruct (Rcase_abs (dot a b)); lra). split.
  - apply (Rmult_le_reg_r den); [exact P|]. replace (dot a b / den * den) with (dot a b) by (field; exact NZ). lra.
  - apply (Rmult_le_reg_r den); [exact P|]. replace (dot a b / den * den) with (dot a b) by (field; exact NZ). lra.
Qed.

Lemma similarity_self a : dot a a <> 0 -> similarity a a = Some 1.
Proof.
  intros H. unfold similarity. rewrite sqrt_square by apply dot_nonneg.
  destruct (Req_EM_T (dot a a) 0); [contradiction|]. f_equal. field. exact H.
Qed.

Lemma similarity_silent a b : dot a a = 0 \/ dot b b = 0 -> similarity a b = None.
Proof.
  intros H. unfold similarity. assert (E : dot a a * dot b b = 0) by (destruct H as [->| ->]; ring).
  rewrite E, sqrt_0. destruct (Req_EM_T 0 0); [reflexivity|contradiction].
Qed.

Lemma similarity_defined a b : dot a a <> 0 -> dot b b <> 0 -> exists s, similarity a b = Some s.
Proof.
  intros H1 H2. unfold similarity. destruct (Req_EM_T _ 0) as [Z|NZ]; [exfalso|eauto].
  apply sqrt_eq_0 in Z; [|apply Rmult_le_pos; apply dot_nonneg].
  apply Rmult_integral in Z. tauto.
Qed.

(** scaling a trace with a positive factor does not change its similarity *)
Lemma dot_scale_l k a b : dot (map (Rmult k) a) b = k * dot a b.
Proof.
  unfold dot. revert b. induction a as [|x a IH]; destruct b as [|y b]; cbn; try ring.
  rewrite IH. ring.
Qed.
Lemma dot_comm a b : dot a b = dot b a.
Proof.
  unfold dot. revert b. induction a as [|x a IH]; destruct b as [|y b]; cbn; try reflexivity. rewrite IH. ring.
Qed.
Lemma similarity_scale k a b : 0 < k -> similarity (map (Rmult k) a) b = similarity a b.
Proof.
  intros K. unfold similarity. rewrite !dot_scale_l. rewrite (dot_comm a (map (Rmult k) a)), dot_scale_l.
  replace (k * (k * dot a a) * dot b b) with ((k * k) * (dot a a * dot b b)) by ring.
  rewrite sqrt_mult; [|nra|apply Rmult_le_pos; apply dot_nonneg]. rewrite sqrt_square by lra.
  set (d := sqrt (dot a a * dot b b)).
  destruct (Req_EM_T (k * d) 0) as [Z|NZ]; destruct (Req_EM_T d 0) as [Z'|NZ'].
  - reflexivity.
  - exfalso. apply Rmult_integral in Z as [Z|Z]; [lra|contradiction].
  - exfalso. apply NZ. rewrite Z'. ring.
  - f_equal. field. split; [exact NZ'|lra].
Qed.

Lemma masked_length m r r' : length r = length r' -> length (masked m r) = length (masked m r').
Proof. intros L. unfold masked. now rewrite !map_length, !combine_length, L. Qed.

Lemma sims_bounded m row refs s :
  (forall ref, In ref refs -> length ref = length row) ->
  In (Some s) (sim_row m row refs) -> -1 <= s <= 1.
Proof.
  intros L I. unfold sim_row in I. apply in_map_iff in I as (ref & E & I).
  apply (similarity_bounded _ _ s) in E; [exact E|]. apply masked_length. unfold nan_to_num. rewrite map_length.
  symmetry. now apply L.
Qed.

(** ** best match *)
Lemma argmax_from_spec l : forall i best bv c j, 
  argmax_from i best bv l = (j, c) ->
  match bv with
  | None => j = best /\ c = None
  | Some b =>
      (existsb (fun x => negb (is_some x)) l = false ->
        exists v, c = Some v /\ b <= v /\ (forall x, In (Some x) l -> x <= v) /\
                  ((j = best /\ v = b) \/ ((i <= j)%nat /\ nth_error l (j - i) = Some (Some v)))) /\
      (existsb (fun x => negb (is_some x)) l = true -> c = None /\ (j < i + length l)%nat)
  end.
Proof.
  induction l as [|x l IH]; intros i best bv c j; cbn [argmax_from].
  - intros [= <- <-]. destruct bv as [b|]; [|auto]. cbn. split; [|discriminate]. intros _.
    exists b. split; [reflexivity|]. split; [lra|]. split; [intros ? []|]. left. auto.
  - destruct bv as [b|].
    2:{ destruct x; cbn [larger]; intros E; apply IH in E; exact E. }
    destruct x as [x|]; cbn [larger].
    + destruct (Rlt_dec b x) as [L|L]; intros E; apply IH in E as [E1 E2]; cbn [existsb is_some negb orb length].
      * split.
        -- intros N. destruct (E1 N) as (v & -> & Hb & Hx & Hj). exists v. split; [reflexivity|]. split; [lra|].
           split. { intros y [[= <-]|I]; [exact Hb|auto]. }
           right. destruct Hj as [[-> ->]|[Hi Hj]].
           ++ split; [lia|]. now rewrite Nat.sub_diag.
           ++ split; [lia|]. replace (j - i)%nat with (S (j - S i)) by lia. exact Hj.
        -- intros N. destruct (E2 N). split; [assumption|lia].
      * split.
        -- intros N. destruct (E1 N) as (v & -> & Hb & Hx & Hj). exists v. split; [reflexivity|]. split; [lra|].
           split. { intros y [[= <-]|I]; [lra|auto]. }
           destruct Hj as [Hj|[Hi Hj]]; [now left|right].
           split; [lia|]. replace (j - i)%nat with (S (j - S i)) by lia. exact Hj.
        -- intros N. destruct (E2 N). split; [assumption|lia].
    + intros E. apply IH in E as [-> ->]. cbn. split; [discriminate|]. intros _. split; [reflexivity|lia].
Qed.

Lemma best_match_spec strvec sims : sims <> [] -> length strvec = length sims ->
  (forall x, In x sims -> x <> None) ->
  exists i c v, best_match strvec sims = Ok (Some c, Some v) /\ nth_error sims i = Some (Some c) /\
    nth_error strvec i = Some v /\ (forall s, In (Some s) sims -> s <= c).
Proof.
  intros NE L D. unfold best_match, argmax.
  destruct sims as [|x0 r]; [congruence|]. destruct x0 as [b|]; [|exfalso; apply (D None); [now left|reflexivity]].
  destruct (argmax_from 1 0 (Some b) r) as [j c] eqn:E. apply argmax_from_spec in E as [E1 _].
  destruct E1 as (v & -> & Hb & Hx & Hj).
  { destruct (existsb _ r) eqn:X; [|reflexivity]. apply existsb_exists in X as (y & Iy & Y). destruct y; [discriminate|].
    exfalso. apply (D None); [now right|reflexivity]. }
  assert (N : nth_error (Some b :: r) j = Some (Some v)).
  { destruct Hj as [[-> ->]|[Hi Hj]]; [reflexivity|]. replace j with (S (j - 1)) by lia. exact Hj. }
  assert (Lj : (j < length strvec)%nat) by (rewrite L; apply nth_error_Some; congruence).
  apply nth_error_Some in Lj. destruct (nth_error strvec j) as [w|] eqn:W; [|congruence].
  exists j, v, w. split; [reflexivity|]. split; [exact N|]. split; [exact W|].
  intros s [[= <-]|I]; [exact Hb|auto].
Qed.

Lemma best_match_nan strvec sims : length strvec = length sims -> In None sims -> best_match strvec sims = Ok (None, None).
Proof.
  intros L I. unfold best_match, argmax. destruct sims as [|x0 r]; [destruct I|].
  destruct (argmax_from 1 0 x0 r) as [j c] eqn:E. apply argmax_from_spec in E.
  assert (c = None /\ (j < length (x0 :: r))%nat) as [-> Lj].
  { destruct x0 as [b|].
    - destruct E as [_ E]. destruct I as [I|I]; [discriminate|].
      destruct E as [-> Lj]; [|split; [reflexivity|cbn [length]; lia]].
      apply existsb_exists. exists None. split; [exact I|reflexivity].
    - destruct E as [-> ->]. split; [reflexivity|cbn; lia]. }
  rewrite <- L in Lj. apply nth_error_Some in Lj. destruct (nth_error strvec j); [reflexivity|congruence].
Qed.

(** ** windows *)
Lemma time_window_spec start width :
  ((width <= 0)%Z -> time_window start width = Raise ValueError) /\
  ((0 < width)%Z -> exists l, time_window start width = Ok l /\ Z.of_nat (length l) = width /\
     forall i t, nth_error l i = Some t <-> t = (start + Z.of_nat i)%Z /\ (Z.of_nat i < width)%Z).
Proof.
  unfold time_window. split; intros W.
  - now rewrite (proj2 (Z.leb_le width 0) W).
  - rewrite (proj2 (Z.leb_gt width 0) W). eexists. split; [reflexivity|].
    unfold arange, arange_len. rewrite Z.div_1_r, map_length, seq_length. split; [lia|]. intros i t.
    rewrite nth_error_map. destruct (Nat.lt_ge_cases i (Z.to_nat (start + width - start + 1 - 1))) as [L|L].
    + rewrite (nth_error_nth' _ 0%nat) by (now rewrite seq_length). rewrite seq_nth by exact L. cbn [option_map].
      split; [intros [= <-]; split; lia|]. intros [-> _]. f_equal. lia.
    + rewrite (proj2 (nth_error_None _ i)) by (now rewrite seq_length). cbn [option_map].
      split; [discriminate|]. intros [_ H]. lia.
Qed.
