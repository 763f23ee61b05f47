From Coq Require Import Reals Lia.
From Verif Require Import Lib.Base Proofs.MaskFacts Model.Gaps Spec.GapsSpec Proofs.GapsFacts.
Local Open Scope Z_scope.
#[local] Ltac Zify.zify_post_hook ::= Z.div_mod_to_equations.

Section W.
  Context {A : Type}.
  Implicit Types (t : trace A) (st : list (trace A)).
  Lemma trim_at s len t p : at_pos (trim_pad s len t) p = if (s <=? p) && (p <? s + len) then at_pos t p else None.
  Proof.
    unfold trim_pad. unfold at_pos at 1. cbn [t_start t_data]. destruct (Z.ltb_spec p s); [destruct (Z.leb_spec s p); [lia|reflexivity]|].
    destruct (Z.leb_spec s p); [|lia]. cbn [andb]. destruct (Z.ltb_spec p (s + len)) as [L|L].
    - rewrite nth_indep with (d' := (fun k => at_pos t (s + Z.of_nat k)) 0%nat) by (rewrite map_length, seq_length; lia).
      rewrite (map_nth (fun k => at_pos t (s + Z.of_nat k))), seq_nth by lia. f_equal. lia.
    - apply nth_overflow. rewrite map_length, seq_length. lia.
  Qed.
  Lemma trim_window s len t : 0 <= len -> is_window s len t (trim_pad s len t).
  Proof.
    intros L. split; [reflexivity|]. split; [unfold trim_pad; cbn [t_data]; rewrite map_length, seq_length; lia|]. intros p P. rewrite trim_at.
    destruct (Z.leb_spec s p); [|lia]. destruct (Z.ltb_spec p (s + len)); [reflexivity|lia].
  Qed.
  Lemma trim_ext s len t u : (forall p, s <= p < s + len -> at_pos t p = at_pos u p) -> trim_pad s len t = trim_pad s len u.
  Proof. intros H. unfold trim_pad. f_equal. apply map_ext_in. intros k K. apply in_seq in K. apply H. lia. Qed.
  Lemma window_unique s len t w w' : is_window s len t w -> is_window s len t w' -> w = w'.
  Proof.
    intros (S & L & V) (S' & L' & V'). destruct w as [a d], w' as [a' d']. cbn [t_start t_data] in *. subst a a'. f_equal. apply same_nth_error; [lia|]. intros k K.
    specialize (V (s + Z.of_nat k) ltac:(lia)). specialize (V' (s + Z.of_nat k) ltac:(lia)). rewrite <- V' in V. unfold at_pos in V. cbn [t_start t_data] in V.
    destruct (Z.ltb_spec (s + Z.of_nat k) s); [lia|]. replace (Z.to_nat (s + Z.of_nat k - s)) with k in V by lia.
    rewrite (nth_error_nth' d None), (nth_error_nth' d' None) by lia. now f_equal.
  Qed.
  Lemma masked_data s len t : masked_all (t_data (trim_pad s len t)) = false <-> has_data s len t.
  Proof.
    unfold masked_all, trim_pad, has_data. cbn [t_data]. split.
    - intros H. destruct (forallb _ _) eqn:F in H; [discriminate|]. assert (X : existsb (fun o => is_some o) (map (fun k => at_pos t (s + Z.of_nat k)) (seq 0 (Z.to_nat len))) = true).
      { clear H. revert F. induction (map _ _) as [|o l IH]; cbn; [discriminate|]. destruct o; cbn; auto. }
      apply existsb_exists in X. destruct X as (o & I & O). apply in_map_iff in I. destruct I as (k & <- & K). apply in_seq in K. exists (s + Z.of_nat k). split; [lia|].
      intros C. now rewrite C in O.
    - intros (p & P & N). apply not_true_iff_false. intros F. rewrite forallb_forall in F. apply N.
      specialize (F (at_pos t p)). destruct (at_pos t p) eqn:E; [|reflexivity]. exfalso. discriminate F. apply in_map_iff. exists (Z.to_nat (p - s)). split; [|apply in_seq; lia].
      rewrite <- E. f_equal. lia.
  Qed.
  Lemma slice_trim s len t w : slice s len t = Some w -> trim_pad s len w = trim_pad s len t.
  Proof.
    unfold slice. destruct (Z.ltb_spec (Z.min (s + len - 1) (last_pos t)) (Z.max s (t_start t))); [discriminate|]. intros E. assert (w = trim_pad (Z.max s (t_start t)) (Z.min (s + len - 1) (last_pos t) - Z.max s (t_start t) + 1) t) by congruence. subst w.
    apply trim_ext. intros p P. rewrite trim_at. destruct (Z.leb_spec (Z.max s (t_start t)) p), (Z.ltb_spec p (Z.max s (t_start t) + (Z.min (s + len - 1) (last_pos t) - Z.max s (t_start t) + 1))); cbn [andb]; [reflexivity| | |];
      symmetry; apply outside_none; unfold inside; lia.
  Qed.
  Lemma slice_none s len t : slice s len t = None -> masked_all (t_data (trim_pad s len t)) = true.
  Proof.
    unfold slice. destruct (Z.ltb_spec (Z.min (s + len - 1) (last_pos t)) (Z.max s (t_start t))) as [L|L]; [|discriminate]. intros _. apply not_false_iff_true. intros C.
    apply masked_data in C. destruct C as (p & P & N). apply N, outside_none. unfold inside. lia.
  Qed.
  Definition cut s len (q : nat * trace A) := (fst q, trim_pad s len (snd q)).
  Definition valid (q : nat * trace A) := negb (masked_all (t_data (snd q))).
  Lemma slices_cut s len st : filter valid (map (cut s len) (slices s len st)) = filter valid (map (cut s len) (enumerate st)).
  Proof.
    unfold slices. induction (enumerate st) as [|[j t] r IH]; [reflexivity|]. cbn [map concat fst snd]. rewrite map_app. rewrite filter_app, IH. cbn [filter]. destruct (slice s len t) as [w|] eqn:E.
    - cbn [map filter app]. assert (C : cut s len (j, w) = cut s len (j, t)) by (unfold cut; cbn [fst snd]; now rewrite (slice_trim _ _ _ _ E)). rewrite C.
      now destruct (valid (cut s len (j, t))).
    - cbn [map filter app]. assert (C : valid (cut s len (j, t)) = false) by (unfold valid, cut; cbn [snd]; now rewrite (slice_none _ _ _ E)). now rewrite C.
  Qed.
  Lemma slices_some s len st : (exists t, In t st /\ t_start t <= s <= last_pos t) -> 0 < len -> slices s len st <> [].
  Proof.
    intros (t & I & R) L. apply In_nth_error in I. destruct I as [j J]. unfold slices.
    assert (In (j, t) (enumerate st)) as I. { apply nth_error_In with j. now rewrite enumerate_nth, J. }
    assert (exists w, slice s len t = Some w) as [w W]. { unfold slice. destruct (Z.ltb_spec (Z.min (s + len - 1) (last_pos t)) (Z.max s (t_start t))); [lia|eauto]. }
    intros C. assert (X : In (j, w) []); [|contradiction]. rewrite <- C. apply in_concat. exists [(j, w)]. split; [|now left]. apply in_map_iff. exists (j, t). cbn [fst snd]. rewrite W. auto.
  Qed.
  Lemma start_same st s0 : st <> [] -> (forall t, In t st -> t_start t = s0) -> stream_start st = s0.
  Proof.
    destruct st as [|t r]; [contradiction|]. intros _ H. unfold stream_start. rewrite (H t (or_introl eq_refl)). assert (H' : forall u, In u r -> t_start u = s0) by (intros; apply H; now right).
    clear H. induction r as [|u r IH]; [reflexivity|]. cbn [fold_left]. rewrite (H' u (or_introl eq_refl)), Z.min_id. apply IH. intros. apply H'. now right.
  Qed.
  Lemma end_spec st : st <> [] -> ends_at st (stream_end st).
  Proof.
    destruct st as [|t r]; [contradiction|]. intros _. unfold stream_end.
    assert (G : forall m, m <= fold_left (fun m u => Z.max m (last_pos u)) r m /\ (fold_left (fun m u => Z.max m (last_pos u)) r m = m \/ exists u, In u r /\ last_pos u = fold_left (fun m u => Z.max m (last_pos u)) r m) /\ forall u, In u r -> last_pos u <= fold_left (fun m u => Z.max m (last_pos u)) r m).
    { induction r as [|u r IH]; intros m; cbn [fold_left]; [repeat split; [lia|auto|contradiction]|]. destruct (IH (Z.max m (last_pos u))) as (H1 & H2 & H3). split; [lia|]. split.
      - destruct H2 as [H2|(v & I & E)]; [|right; exists v; split; [now right|assumption]]. destruct (Z.max_spec m (last_pos u)) as [[M E]|[M E]]; rewrite E in H2 |- *; [right; exists u; split; [now left|auto]|left; lia].
      - intros v [<-|I]; [lia|auto]. }
    destruct (G (last_pos t)) as (H1 & H2 & H3). split.
    - destruct H2 as [->|(u & I & E)]; [exists t; split; [now left|reflexivity]|exists u; split; [now right|assumption]].
    - intros u [<-|I]; auto.
  Qed.
  Lemma filter_id {B} (f : B -> bool) l : (forall x, In x l -> f x = true) -> filter f l = l.
  Proof. induction l as [|x l IH]; intros H; [reflexivity|]. cbn. rewrite (H x (or_introl eq_refl)). f_equal. apply IH. intros. apply H. now right. Qed.
  Lemma nth_error_seq s n k : (k < n)%nat -> nth_error (seq s n) k = Some (s + k)%nat.
  Proof. intros. rewrite nth_error_nth' with (d := 0%nat) by (rewrite seq_length; lia). now rewrite seq_nth by lia. Qed.

  Theorem windows_spec ri len inc st s0 e : st <> [] -> (forall t, In t st -> t_start t = s0) -> ends_at st e -> 0 < len -> 0 < inc ->
    let ws := generate_corr_inc ri len inc st in
    Z.of_nat (length ws) = Z.max 0 (- ((- (e - s0)) / inc)) /\
    forall i s traces, nth_error ws i = Some (s, traces) ->
      s = Some (s0 + Z.of_nat i * inc) /\ NoDup (map fst traces) /\
      forall j w, In (j, w) traces <-> exists t, nth_error st j = Some t /\ is_window (s0 + Z.of_nat i * inc) len t w /\ has_data (s0 + Z.of_nat i * inc) len t.
  Proof.
    intros NE S E L I. destruct st as [|t0 r] eqn:ST; [contradiction|]. rewrite <- ST in *. assert (EE : stream_end st = e).
    { destruct (end_spec st NE) as [(t & T & TE) M]. destruct E as [(u & U & UE) M']. specialize (M u U). specialize (M' t T). lia. }
    assert (W : slide len inc st = map (fun s => slices s len st) (window_starts s0 e inc)).
    { unfold slide. rewrite (start_same _ _ NE S), EE. apply filter_id. intros x X. apply in_map_iff in X. destruct X as (s & <- & X). apply in_map_iff in X. destruct X as (i & <- & X). apply in_seq in X.
      assert (N : slices (s0 + Z.of_nat i * inc) len st <> []).
      { apply slices_some; [|assumption]. destruct E as [(u & U & UE) _]. exists u. split; [assumption|]. rewrite (S u U), UE. nia. }
      destruct (slices _ _ _); [contradiction|reflexivity]. }
    assert (G : generate_corr_inc ri len inc st = map (fun p => let s := s0 + Z.of_nat (fst p) * inc in (Some s, filter valid (map (cut s len) (snd p)))) (enumerate (slide len inc st))).
    { rewrite <- (S t0) by (rewrite ST; now left). rewrite ST. reflexivity. }
    cbv zeta. rewrite G. split.
    - rewrite map_length, enumerate_length, W, map_length. unfold window_starts. rewrite map_length, seq_length. lia.
    - intros i s traces H. rewrite nth_error_map, enumerate_nth, W, nth_error_map in H. unfold window_starts in H. rewrite nth_error_map in H.
      destruct (nth_error (seq 0 (Z.to_nat (- (- (e - s0) / inc)))) i) as [i'|] eqn:N; [|discriminate].
      assert (i' = i).
      { assert (i < Z.to_nat (- (- (e - s0) / inc)))%nat by (rewrite <- (seq_length (Z.to_nat (- (- (e - s0) / inc))) 0); apply nth_error_Some; congruence). rewrite nth_error_seq in N by assumption. cbn in N. congruence. }
      subst i'. cbn [option_map fst snd] in H. rewrite slices_cut in H. assert (HS : s = Some (s0 + Z.of_nat i * inc)) by congruence.
      assert (HT : traces = filter valid (map (cut (s0 + Z.of_nat i * inc) len) (enumerate st))) by congruence. clear H. split; [assumption|]. clear HS N. set (z := s0 + Z.of_nat i * inc) in *. split.
      + subst traces. assert (ND : NoDup (map fst (map (cut z len) (enumerate st)))).
        { rewrite map_map. cbn [cut fst]. replace (map (fun x : nat * trace A => fst x) (enumerate st)) with (seq 0 (length st)); [apply seq_NoDup|].
          unfold enumerate. clear. generalize 0%nat. induction st as [|t st IH]; intros n; [reflexivity|]. cbn [length seq combine map]. f_equal. apply IH. }
        revert ND. generalize (map (cut z len) (enumerate st)). clear. induction l as [|x l IH]; [auto|]. cbn [map filter]. intros ND. inversion ND as [|? ? N1 N2]; subst. destruct (valid x); cbn [map]; [|auto].
        constructor; [|auto]. intros C. apply N1. apply in_map_iff in C. destruct C as (y & Y & C). apply filter_In in C. apply in_map_iff. exists y. tauto.
      + intros j w. subst traces. rewrite filter_In, in_map_iff. split.
        * intros (([j' t] & C & IN) & V). assert (j' = j /\ w = trim_pad z len t) as [-> ->] by (unfold cut in C; cbn [fst snd] in C; split; congruence). apply In_nth_error in IN. destruct IN as [k K].
          rewrite enumerate_nth in K. destruct (nth_error st k) eqn:Q; [|discriminate]. cbn in K. assert (k = j /\ t1 = t) as [-> ->] by (split; congruence). exists t. split; [assumption|].
          split; [apply trim_window; lia|]. apply masked_data. unfold valid in V. cbn [snd] in V. now destruct (masked_all _).
        * intros (t & J & WD & HD). assert (w = trim_pad z len t) as -> by (eapply window_unique; [exact WD|apply trim_window; lia]). split.
          -- exists (j, t). split; [reflexivity|]. apply nth_error_In with j. now rewrite enumerate_nth, J.
          -- unfold valid. cbn [snd]. apply masked_data in HD. now rewrite HD.
  Qed.
  Theorem windows_cover ri len inc st s0 e j t p : (forall t, In t st -> t_start t = s0) -> ends_at st e -> 0 < inc <= len ->
    nth_error st j = Some t -> at_pos t p <> None -> p < e -> 
    exists i traces w, nth_error (generate_corr_inc ri len inc st) i = Some (Some (s0 + Z.of_nat i * inc), traces) /\ In (j, w) traces /\ at_pos w p = at_pos t p.
  Proof.
    intros S E I J D P. assert (NE : st <> []) by (intros ->; destruct j; discriminate). destruct (windows_spec ri len inc st s0 e NE S E ltac:(lia) ltac:(lia)) as [LW V]. cbv zeta in *.
    assert (P0 : s0 <= p).
    { destruct (Z.lt_ge_cases p s0); [|assumption]. exfalso. apply D. apply outside_none. unfold inside. rewrite (S t) by (now apply nth_error_In with j). lia. }
    set (i := Z.to_nat ((p - s0) / inc)). assert (R : s0 + Z.of_nat i * inc <= p < s0 + Z.of_nat i * inc + len) by (unfold i; nia).
    destruct (nth_error (generate_corr_inc ri len inc st) i) as [[s traces]|] eqn:N.
    - destruct (V _ _ _ N) as (-> & ND & IN). exists i, traces, (trim_pad (s0 + Z.of_nat i * inc) len t). split; [exact N|]. split.
      + apply IN. exists t. split; [assumption|]. split; [apply trim_window; lia|]. exists p. auto.
      + rewrite trim_at. destruct (Z.leb_spec (s0 + Z.of_nat i * inc) p); [|lia]. destruct (Z.ltb_spec p (s0 + Z.of_nat i * inc + len)); [reflexivity|lia].
    - exfalso. apply nth_error_None in N. assert (Z.of_nat i * inc < e - s0) by nia. assert (Z.of_nat i < Z.max 0 (- (- (e - s0) / inc))) by (unfold i in *; nia). lia.
  Qed.
End W.
