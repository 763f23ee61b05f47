From Coq Require Import QArith Qround Lia.
From Verif Require Import Lib.Base Model.CorrStream Model.LagMatrix Spec.LagSpec Proofs.LagFacts Model.ClockShift.
Local Open Scope nat_scope.

Lemma trim_app a b h st et : fst (trim (a ++ b) h st et) = fst (trim a h st et) ++ fst (trim b h st et) /\ snd (trim (a ++ b) h st et) = snd (trim a h st et).
Proof. unfold trim. destruct (_ <? 0)%Z; [now split|]. destruct (_ <=? _)%Z; [now split|]. cbn [fst snd]. now rewrite map_app. Qed.
Lemma trim_length a h st et : length (fst (trim a h st et)) = length a.
Proof. unfold trim. destruct (_ <? 0)%Z; [reflexivity|]. destruct (_ <=? _)%Z; [reflexivity|]. apply map_length. Qed.
Lemma trim_starts a h l st et : fst (trim a (with_starts h l) st et) = fst (trim a h st et) /\ snd (trim a (with_starts h l) st et) = with_starts (snd (trim a h st et)) l.
Proof. unfold trim. cbn [with_starts h_lag h_sr h_npts h_end]. destruct (_ <? 0)%Z; [now split|]. destruct (_ <=? _)%Z; now split. Qed.
Lemma trim_h_start a h st et : h_start (snd (trim a h st et)) = h_start h.
Proof. unfold trim. destruct (_ <? 0)%Z; [reflexivity|]. destruct (_ <=? _)%Z; reflexivity. Qed.
Lemma with_own h : with_starts h (h_start h) = h. Proof. now destruct h. Qed.
Lemma with_with h l l' : with_starts (with_starts h l) l' = with_starts h l'. Proof. reflexivity. Qed.

Definition bounds (sd : side) (h : hdr) : Q * Q :=
  match sd with Single | Right => (0%Q, end_lag h) | _ => let dt := qmin (- h_lag h) (end_lag h) in ((- dt)%Q, dt) end.
(** the references have no influence on the data and on the header *)
Lemma shift_closed sd data h refs : let '(st, et) := bounds sd h in let h' := snd (trim data h st et) in
  corr_mat_shift sd data h refs = (match sd with OtherSide => Raise ValueError | _ => Ok (fst (trim data h st et), option_map (fun r => fst (trim r h st et)) refs, h') end, h').
Proof.
  unfold corr_mat_shift, bounds.
  assert (G : forall st et,
    (let '(data1, h1) := match refs with None => (data, h) | Some r => (data ++ r, with_starts h (h_start h ++ repeat ref_time (length r))) end in
     let '(d, h2) := trim data1 h1 st et in
     match refs with None => (d, None, h2) | Some r => let k := length d - length r in (firstn k d, Some (skipn k d), with_starts h2 (firstn (length (h_start h2) - length r) (h_start h2))) end)
    = (fst (trim data h st et), option_map (fun r => fst (trim r h st et)) refs, snd (trim data h st et))).
  { intros st et. destruct refs as [r|]; [|destruct (trim data h st et); reflexivity].
    destruct (trim (data ++ r) (with_starts h (h_start h ++ repeat ref_time (length r))) st et) as [d h2] eqn:E.
    destruct (trim_starts (data ++ r) h (h_start h ++ repeat ref_time (length r)) st et) as [E1 E2]. rewrite E in E1, E2. cbn [fst snd] in E1, E2.
    destruct (trim_app data r h st et) as [A1 A2]. rewrite A1 in E1. rewrite A2 in E2. subst d h2. cbn [h_start with_starts].
    rewrite app_length, !trim_length. replace (length data + length r - length r) with (length data) by lia.
    rewrite <- (trim_length data h st et) at 1 2. rewrite firstn_app, Nat.sub_diag, firstn_all, app_nil_r. rewrite skipn_app, Nat.sub_diag, skipn_all. cbn [skipn app option_map].
    rewrite app_length, repeat_length. replace (length (h_start h) + length r - length r) with (length (h_start h)) by lia. rewrite firstn_app, Nat.sub_diag, firstn_all, app_nil_r.
    f_equal. rewrite with_with. rewrite <- (trim_h_start data h st et). apply with_own. }
  destruct sd; cbn zeta.
  1,4: specialize (G (- qmin (- h_lag h) (end_lag h))%Q (qmin (- h_lag h) (end_lag h))).
  3,4: specialize (G 0%Q (end_lag h)).
  all: destruct refs as [r|]; [|destruct (trim data h _ _); reflexivity].
  all: cbn [option_map] in *; destruct (trim (data ++ r) _ _ _) as [d h2]; cbn zeta in G |- *; injection G as G1 G2 G3; cbv beta iota zeta; now rewrite ?G1, ?G2, ?G3.
Qed.

Lemma pyslice_skip {A} (l : list A) k : k <= length l -> pyslice l (Z.of_nat k) (Z.of_nat (length l)) = skipn k l.
Proof.
  intros K. unfold pyslice, norm_index. destruct (Z.ltb_spec (Z.of_nat k) 0); [lia|]. destruct (Z.ltb_spec (Z.of_nat (length l)) 0); [lia|].
  rewrite !Nat2Z.id, Nat.min_id, Nat.min_l by exact K. rewrite <- skipn_length. apply firstn_all.
Qed.
Lemma pyslice_first {A} (l : list A) k : k <= length l -> pyslice l 0 (Z.of_nat k) = firstn k l.
Proof.
  intros K. unfold pyslice, norm_index. cbn [Z.ltb Z.compare Z.to_nat Nat.min]. destruct (Z.ltb_spec (Z.of_nat k) 0); [lia|].
  rewrite !Nat2Z.id, Nat.min_l by exact K. cbn [skipn]. now rewrite Nat.sub_0_r.
Qed.

(** sides 'right' *)
Lemma right_trim data h k : (0 < h_sr h)%Q -> (forall row, In row data -> length row = h_npts h) -> 0 < k < h_npts h -> (h_lag h * h_sr h == inject_Z (- Z.of_nat k))%Q ->
  trim data h 0 (end_lag h) = (map (skipn k) data, mkH 0 (h_sr h) (h_npts h - k) (h_start h) (h_end h)).
Proof.
  intros S L K E. unfold trim.
  assert (EL : (end_lag h == h_lag h + inject_Z (Z.of_nat (h_npts h - 1)) / h_sr h)%Q) by (unfold end_lag; destruct (Nat.eqb_spec (h_npts h) 0); [lia|reflexivity]).
  assert (NZ : ~ (h_sr h == 0)%Q) by (intros Z; rewrite Z in S; now apply Qlt_irrefl in S).
  assert (F1 : Qfloor ((0 - h_lag h) * h_sr h) = Z.of_nat k).
  { rewrite <- (Qfloor_Z (Z.of_nat k)). apply Qfloor_comp. setoid_replace ((0 - h_lag h) * h_sr h)%Q with (- (h_lag h * h_sr h))%Q by ring. rewrite E, inject_Z_opp. ring. }
  assert (F2 : Qfloor ((end_lag h - h_lag h) * h_sr h) = Z.of_nat (h_npts h - 1)).
  { rewrite <- (Qfloor_Z (Z.of_nat (h_npts h - 1))). apply Qfloor_comp. rewrite EL. field. exact NZ. }
  rewrite F1, F2. destruct (Z.ltb_spec (Z.of_nat k) 0); [lia|]. destruct (Z.leb_spec (Z.of_nat (h_npts h)) (Z.of_nat (h_npts h - 1))); [lia|].
  replace (Z.of_nat (h_npts h - 1) + 1)%Z with (Z.of_nat (h_npts h)) by lia. f_equal.
  - apply map_ext_in. intros row I. rewrite <- (L row I). apply pyslice_skip. rewrite (L row I). lia.
  - f_equal. rewrite <- (repeat_length tt (h_npts h)) at 2. rewrite pyslice_skip by (rewrite repeat_length; lia). now rewrite skipn_length, repeat_length.
Qed.
(** and again *)
Lemma right_again data h n : (0 < h_sr h)%Q -> (forall row, In row data -> n <= length row) -> 0 < n -> h_npts h = n -> h_lag h = 0%Q ->
  fst (trim data h 0 (end_lag h)) = map (firstn n) data.
Proof.
  intros S L N HN E. unfold trim.
  assert (NZ : ~ (h_sr h == 0)%Q) by (intros Z; rewrite Z in S; now apply Qlt_irrefl in S).
  assert (EL : (end_lag h == h_lag h + inject_Z (Z.of_nat (h_npts h - 1)) / h_sr h)%Q) by (unfold end_lag; destruct (Nat.eqb_spec (h_npts h) 0); [lia|reflexivity]).
  assert (F1 : Qfloor ((0 - h_lag h) * h_sr h) = 0%Z).
  { transitivity (Qfloor 0); [|reflexivity]. apply Qfloor_comp. rewrite E. ring. }
  assert (F2 : Qfloor ((end_lag h - h_lag h) * h_sr h) = Z.of_nat (h_npts h - 1)).
  { rewrite <- (Qfloor_Z (Z.of_nat (h_npts h - 1))). apply Qfloor_comp. rewrite EL. field. exact NZ. }
  rewrite F1, F2. cbn [Z.ltb Z.compare]. destruct (Z.leb_spec (Z.of_nat (h_npts h)) (Z.of_nat (h_npts h - 1))); [lia|]. cbn [fst].
  replace (Z.of_nat (h_npts h - 1) + 1)%Z with (Z.of_nat n) by lia. apply map_ext_in. intros row I. apply pyslice_first. now apply L.
Qed.
