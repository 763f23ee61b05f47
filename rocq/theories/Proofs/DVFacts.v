(** Averages of velocity changes and shifting of one curve. *)
From Coq Require Import QArith Qround Lqa.
From Verif Require Import Lib.Base Lib.Str Lib.StrFacts Model.CorrStream Model.LagMatrix Model.DVs Spec.LagSpec Spec.DVSpec.
Local Open Scope nat_scope.

(** ** argmax and maximum do not depend on the representation of the numbers *)
Lemma Qlt_bool_compat a b c d : (a == c)%Q -> (b == d)%Q -> Qlt_bool a b = Qlt_bool c d.
Proof.
  intros E F. unfold Qlt_bool. f_equal. apply eq_true_iff_eq. rewrite !Qle_bool_iff, E, F. reflexivity.
Qed.
Lemma qargmax_from_compat l l' : Forall2 Qeq l l' -> forall i b x y, (x == y)%Q ->
  qargmax_from i b x l = qargmax_from i b y l'.
Proof.
  induction 1 as [|a a' l l' E F IH]; intros i b x y XY; [reflexivity|]. cbn.
  rewrite (Qlt_bool_compat x a y a') by assumption. destruct (Qlt_bool y a'); now apply IH.
Qed.
Lemma qargmax_compat l l' : Forall2 Qeq l l' -> qargmax l = qargmax l'.
Proof. destruct 1; cbn; [reflexivity|]. f_equal. now apply qargmax_from_compat. Qed.
Lemma qmax_from_compat l l' : Forall2 Qeq l l' -> forall x y, (x == y)%Q -> (qmax_from x l == qmax_from y l')%Q.
Proof.
  induction 1 as [|a a' l l' E F IH]; intros x y XY; [exact XY|]. cbn.
  rewrite (Qlt_bool_compat x a y a') by assumption. destruct (Qlt_bool y a'); now apply IH.
Qed.
Lemma defined_compat l l' : Forall2 same_number l l' -> Forall2 Qeq (defined l) (defined l').
Proof.
  induction 1 as [|a a' l l' E F IH]; cbn; [constructor|].
  destruct a, a'; cbn in *; try contradiction; [constructor|]; auto.
Qed.
Lemma nanmax_compat l l' : Forall2 same_number l l' -> same_number (nanmax l) (nanmax l').
Proof.
  intros F. apply defined_compat in F. unfold nanmax. destruct F; cbn; [exact I|]. now apply qmax_from_compat.
Qed.
Lemma val_compat l l' : Forall2 same_number l l' -> Forall2 Qeq (map val l) (map val l').
Proof.
  induction 1 as [|a a' l l' E F IH]; cbn; [constructor|]. constructor; [|exact IH].
  destruct a, a'; cbn in *; try contradiction; [exact E|reflexivity].
Qed.
Definition same_best (x y : result (sample * sample)) : Prop :=
  match x, y with
  | Ok (c, v), Ok (c', v') => same_number c c' /\ v = v'
  | Raise e, Raise e' => e = e'
  | _, _ => False
  end.
Lemma best_compat axis l l' : Forall2 same_number l l' -> same_best (best axis l) (best axis l').
Proof.
  intros F. unfold best. rewrite (qargmax_compat _ _ (val_compat _ _ F)).
  destruct (qargmax _) as [i|]; [|reflexivity]. destruct (nth_error axis i) as [v|]; [|reflexivity].
  pose proof (nanmax_compat _ _ F) as M. cbn. split; [exact M|].
  destruct (nanmax l), (nanmax l'); cbn in M; try contradiction; reflexivity.
Qed.
Lemma mapM_best_compat axis m m' : Forall2 (Forall2 same_number) m m' ->
  match mapM (best axis) m, mapM (best axis) m' with
  | Ok b, Ok b' => Forall2 same_number (map fst b) (map fst b') /\ map snd b = map snd b'
  | Raise e, Raise e' => e = e'
  | _, _ => False
  end.
Proof.
  induction 1 as [|r r' m m' E F IH]; cbn; [split; constructor|].
  pose proof (best_compat axis _ _ E) as B. destruct (best axis r) as [[c v]|e], (best axis r') as [[c' v']|e']; cbn in *; try contradiction; [|exact B].
  destruct (mapM (best axis) m) as [b|e], (mapM (best axis) m') as [b'|e']; cbn in *; try contradiction; [|exact IH].
  destruct B as [B1 ->], IH as [I1 I2]. split; [constructor; assumption|congruence].
Qed.

(** ** the two loops use the same DVs *)
Lemma mem_save_use d0 l : forall a,
  mem_save_loop d0 l a = match use d0 l with Ok us => Ok (fold_left acc_add us a) | Raise e => Raise e end.
Proof.
  induction l as [|d l IH]; intros a; [reflexivity|]. cbn. destruct (negb _); [reflexivity|].
  destruct (left_out d0 d).
  - rewrite IH. destruct (use d0 l); reflexivity.
  - rewrite IH. destruct (use d0 l); reflexivity.
Qed.
Lemma use_in d0 l us : use d0 l = Ok us -> forall d, In d us -> In d l.
Proof.
  revert us. induction l as [|x l IH]; intros us; cbn.
  - intros [= <-] d [].
  - destruct (negb _); [discriminate|]. destruct (use d0 l) as [u|]; [|discriminate]. cbn. intros [= <-] d I.
    destruct (left_out d0 x); [right; now apply (IH u)|]. destruct I as [->|I]; [now left|right; now apply (IH u)].
Qed.
Lemma fold_used us : forall a, c_used (fold_left acc_add us a) = (c_used a ++ us)%list.
Proof. induction us as [|d us IH]; intros a; cbn; [now rewrite app_nil_r|]. rewrite IH. cbn. now rewrite <- app_assoc. Qed.

(** ** the sums *)

Definition qcell (m : list (list Q)) (i j : nat) : Q := nth j (nth i m []) 0%Q.

Lemma nth_map_lt {A B} (f : A -> B) l i d d' : i < length l -> nth i (map f l) d' = f (nth i l d).
Proof. intros H. rewrite (nth_indep _ d' (f d)) by now rewrite map_length. apply map_nth. Qed.

Lemma nth_in_dims {A} rows cols (m : list (list A)) i : dims rows cols m -> i < rows -> length (nth i m []) = cols.
Proof. intros [L H] I. apply H, nth_In. lia. Qed.

Lemma madd_cell rows cols a b i j : dims rows cols a -> dims rows cols b -> i < rows -> j < cols ->
  (qcell (madd a b) i j == qcell a i j + val (cell b i j))%Q.
Proof.
  intros A B I J. unfold qcell, madd. 
  rewrite (nth_map_lt _ _ _ ([], [])) by (rewrite combine_length; destruct A as [-> _], B as [-> _]; lia).
  rewrite combine_nth by (destruct A as [-> _], B as [-> _]; reflexivity). cbn [fst snd].
  pose proof (nth_in_dims _ _ _ _ A I) as LA. pose proof (nth_in_dims _ _ _ _ B I) as LB.
  rewrite (nth_map_lt _ _ _ (0%Q, None)) by (rewrite combine_length, LA, LB; lia).
  rewrite combine_nth by (rewrite LA, LB; reflexivity). reflexivity.
Qed.
Lemma madd_dims rows cols a b : dims rows cols a -> dims rows cols b -> dims rows cols (madd a b).
Proof.
  intros [LA A] [LB B]. unfold madd. split; [rewrite map_length, combine_length; lia|].
  intros r I. apply in_map_iff in I as ([x y] & <- & I). rewrite map_length, combine_length. cbn [fst snd].
  rewrite (A x), (B y); [lia| |]; [eapply in_combine_r|eapply in_combine_l]; eauto.
Qed.
Lemma nadd_nth n v i : length n = length v -> i < length n ->
  nth i (nadd n v) 0 = nth i n 0 + (if is_some (nth i v None) then 1 else 0).
Proof.
  intros L I. unfold nadd. rewrite (nth_map_lt _ _ _ (0, None)) by (rewrite combine_length; lia).
  now rewrite combine_nth.
Qed.

Fixpoint qtotal (l : list sample) : Q := match l with [] => 0%Q | x :: r => (val x + qtotal r)%Q end.
Lemma qtotal_defined l : (qtotal l == qsum (defined l))%Q.
Proof.
  induction l as [|x l IH]; cbn; [reflexivity|]. destruct x as [q|]; cbn.
  - rewrite IH. reflexivity.
  - rewrite IH. unfold qsum, defined. lra.
Qed.

Definition has_value (i : nat) (d : dv) : bool := is_some (nth i (d_value d) None).

Lemma fold_sums rows cols us : (forall d, In d us -> dv_shape rows cols d) -> forall a,
  dims rows cols (c_sum a) -> length (c_n a) = rows ->
  let f := fold_left acc_add us a in
  dims rows cols (c_sum f) /\ length (c_n f) = rows /\
  (forall i j, i < rows -> j < cols -> (qcell (c_sum f) i j == qcell (c_sum a) i j + qtotal (map (fun d => cell (d_sim d) i j) us))%Q) /\
  (forall i, i < rows -> nth i (c_n f) 0 = nth i (c_n a) 0 + length (filter (has_value i) us)).
Proof.
  induction us as [|d us IH]; intros S a D L; cbn [fold_left].
  - cbn. split; [exact D|]. split; [exact L|]. split; [intros; ring|intros; lia].
  - assert (SD := S d (or_introl eq_refl)).
    assert (DD : dims rows cols (d_sim d)) by (split; [apply (ds_sim _ _ _ SD)|apply (ds_row _ _ _ SD)]).
    destruct (IH (fun x I => S x (or_intror I)) (acc_add a d)) as (H1 & H2 & H3 & H4).
    + cbn. now apply madd_dims.
    + cbn. unfold nadd. rewrite map_length, combine_length, L, (ds_value _ _ _ SD). lia.
    + split; [exact H1|]. split; [exact H2|]. split.
      * intros i j I J. rewrite H3 by assumption. cbn [acc_add c_sum map qtotal]. rewrite (madd_cell rows cols) by assumption. ring.
      * intros i I. rewrite H4 by assumption. cbn [acc_add c_n filter].
        rewrite nadd_nth by (rewrite ?L, ?(ds_value _ _ _ SD); lia). unfold has_value at 2.
        destruct (is_some (nth i (d_value d) None)); cbn [length]; lia.
Qed.

(** ** element of the averages *)
Lemma nth_forall2 {A B} (R : A -> B -> Prop) (l : list A) (l' : list B) d d' :
  length l = length l' -> (forall i, i < length l -> R (nth i l d) (nth i l' d')) -> Forall2 R l l'.
Proof.
  revert l'. induction l as [|x l IH]; destruct l' as [|y l']; cbn; intros L H; try discriminate; [constructor|].
  constructor; [apply (H 0); lia|]. apply IH; [lia|]. intros i I. apply (H (S i)). lia.
Qed.

Lemma mem_save_cell rows cols us d0 i j :
  (forall d, In d us -> dv_shape rows cols d) -> dv_shape rows cols d0 -> i < rows -> j < cols ->
  let f := fold_left acc_add us (mkAcc (map (fun r => map (fun _ => 0%Q) r) (d_sim d0)) (map (fun _ => 0) (d_corr d0)) []) in
  let sim := map divide_row (combine (c_sum f) (c_n f)) in
  dims rows cols sim /\
  let n := length (filter (has_value i) us) in
  same_number (cell sim i j)
    (if n =? 0 then None else Some (qsum (defined (map (fun d => cell (d_sim d) i j) us)) / inject_Z (Z.of_nat n))%Q).
Proof.
  intros S S0 I J f sim.
  destruct (fold_sums rows cols us S (mkAcc (map (fun r => map (fun _ => 0%Q) r) (d_sim d0)) (map (fun _ => 0) (d_corr d0)) [])) as (H1 & H2 & H3 & H4).
  { cbn. split; [rewrite map_length; apply (ds_sim _ _ _ S0)|]. intros r R. apply in_map_iff in R as (r0 & <- & R). rewrite map_length.
    now apply (ds_row _ _ _ S0). }
  { cbn. rewrite map_length. apply (ds_corr _ _ _ S0). }
  fold f in H1, H2, H3, H4. cbn [c_sum c_n] in H3, H4.
  assert (DS : dims rows cols sim).
  { split; [unfold sim; rewrite map_length, combine_length, H2; destruct H1 as [-> _]; lia|].
    intros r R. unfold sim in R. apply in_map_iff in R as ([q n] & <- & R). unfold divide_row. rewrite map_length. cbn [fst].
    apply in_combine_l in R. now apply H1. }
  split; [exact DS|]. cbv zeta.
  assert (E : cell sim i j = if nth i (c_n f) 0 =? 0 then None else Some (qcell (c_sum f) i j / inject_Z (Z.of_nat (nth i (c_n f) 0%nat)))%Q).
  { unfold cell, sim. rewrite (nth_map_lt _ _ _ ([], 0)) by (rewrite combine_length, H2; destruct H1 as [-> _]; lia).
    rewrite combine_nth by (rewrite H2; apply H1). unfold divide_row. cbn [fst snd].
    rewrite (nth_map_lt _ _ _ 0%Q) by (now rewrite (nth_in_dims rows cols)). reflexivity. }
  rewrite E. rewrite H4 by exact I.
  assert (Z : nth i (map (fun _ : sample => 0) (d_corr d0)) 0 = 0).
  { rewrite (nth_map_lt _ _ _ None) by (rewrite (ds_corr _ _ _ S0); exact I). reflexivity. }
  rewrite Z, Nat.add_0_l. destruct (length (filter (has_value i) us) =? 0) eqn:N; cbn; [exact Logic.I|].
  rewrite H3 by assumption. rewrite qtotal_defined.
  assert (Z2 : (qcell (map (fun r : list sample => map (fun _ : sample => 0%Q) r) (d_sim d0)) i j == 0)%Q).
  { unfold qcell. rewrite (nth_map_lt _ _ _ []) by (rewrite (ds_sim _ _ _ S0); exact I).
    rewrite (nth_map_lt _ _ _ None); [reflexivity|].
    rewrite (ds_row _ _ _ S0); [exact J|]. apply nth_In. rewrite (ds_sim _ _ _ S0). exact I. }
  rewrite Z2, Qplus_0_l. reflexivity.
Qed.

Lemma defined_length l : length (defined l) = length (filter is_some l).
Proof. unfold defined. induction l as [|x l IH]; cbn; [reflexivity|]. destruct x; cbn; now rewrite IH. Qed.

Lemma nanmean_cases l : let n := length (filter is_some l) in
  same_number (nanmean l) (if n =? 0 then None else Some (qsum (defined l) / inject_Z (Z.of_nat n))%Q).
Proof.
  cbv zeta. unfold nanmean, qdiv. rewrite defined_length. destruct (Nat.eqb_spec (length (filter is_some l)) 0) as [->|N].
  - reflexivity.
  - assert (E : Qeq_bool (inject_Z (Z.of_nat (length (filter is_some l)))) 0 = false).
    { destruct (Qeq_bool _ 0) eqn:E; [|reflexivity]. apply Qeq_bool_iff in E. unfold Qeq in E. cbn in E. lia. }
    rewrite E. cbn. reflexivity.
Qed.

Lemma same_number_trans a b c : same_number a b -> same_number b c -> same_number a c.
Proof. destruct a, b, c; cbn; try tauto. intros -> ->. reflexivity. Qed.
Lemma same_number_sym a b : same_number a b -> same_number b a.
Proof. destruct a, b; cbn; try tauto. intros ->. reflexivity. Qed.

Lemma use_first d0 l us : use d0 (d0 :: l) = Ok us -> left_out d0 d0 = false -> exists r, us = d0 :: r.
Proof.
  cbn. rewrite String.eqb_refl. cbn. destruct (use d0 l) as [u|]; [|discriminate]. cbn. intros [= <-] ->. eauto.
Qed.
Lemma left_out_self d : is_av d = false -> left_out d d = false.
Proof.
  intros A. unfold left_out. rewrite A, !Nat.eqb_refl. cbn. unfold qlist_eqb. rewrite Nat.eqb_refl. cbn.
  assert (H : forall l : list Q, forallb (fun p => Qeq_bool (fst p) (snd p)) (combine l l) = true).
  { induction l as [|x l IH]; cbn; [reflexivity|]. rewrite IH, andb_true_r. apply Qeq_bool_iff. reflexivity. }
  now rewrite H.
Qed.

Lemma shape_eq rows cols d : dv_shape rows cols d -> 0 < rows -> shape d = (rows, cols).
Proof.
  intros S R. unfold shape. rewrite (ds_sim _ _ _ S). f_equal.
  pose proof (ds_sim _ _ _ S) as L. pose proof (ds_row _ _ _ S) as H. destruct (d_sim d) as [|r m]; [cbn in L; lia|].
  apply H. now left.
Qed.

Lemma count_has i us : count (map (fun d => nth i (avail d) false) us) = length (filter (fun d => nth i (avail d) false) us).
Proof.
  unfold count. induction us as [|d us IH]; cbn; [reflexivity|]. destruct (nth i (avail d) false); cbn; now rewrite IH.
Qed.

Lemma filter_length_ext {A} (f g : A -> bool) l : (forall x, In x l -> f x = g x) -> length (filter f l) = length (filter g l).
Proof. intros H. f_equal. now apply filter_ext_in. Qed.

Theorem averages_agree rows cols d0 l : 0 < rows ->
  (forall d, In d (d0 :: l) -> dv_shape rows cols d /\ complete rows cols d) -> is_av d0 = false ->
  same_outcome (average_components (d0 :: l)) (average_mem_save (d0 :: l)).
Proof.
  intros R0 W A. unfold average_components, average_mem_save. rewrite mem_save_use.
  destruct (use d0 (d0 :: l)) as [us|e] eqn:U; cbn [bind]; [|reflexivity].
  destruct (use_first d0 l us U (left_out_self d0 A)) as (r & EU).
  assert (SU : forall d, In d us -> dv_shape rows cols d) by (intros d I; apply W; eapply use_in; eauto).
  assert (CU : forall d, In d us -> complete rows cols d) by (intros d I; apply W; eapply use_in; eauto).
  assert (S0 : dv_shape rows cols d0) by (apply W; now left).
  rewrite EU at 1. rewrite (shape_eq rows cols) by assumption.
  set (f := fold_left acc_add us _).
  set (simA := map _ (seq 0 rows)). set (simB := map divide_row _).
  assert (NV : forall i j, i < rows -> j < cols -> length (filter (has_value i) us) = length (filter is_some (map (fun d => cell (d_sim d) i j) us))).
  { intros i j I J. clear -CU I J. induction us as [|d us IH]; [reflexivity|]. cbn [filter map].
    assert (E : is_some (cell (d_sim d) i j) = has_value i d).
    { unfold has_value. destruct (CU d (or_introl eq_refl) i I) as [(_ & H2 & H3)|(_ & H2 & H3)].
      - specialize (H3 j J). destruct (cell _ i j), (nth i _ None); cbn; congruence.
      - specialize (H3 j J). now rewrite H2, H3. }
    rewrite E. destruct (has_value i d); cbn [length]; rewrite IH; auto; intros; apply CU; now right. }
  assert (SIM : Forall2 (Forall2 same_number) simA simB).
  { assert (DB : dims rows cols simB).
    { destruct cols as [|c].
      - unfold simB. destruct (fold_sums rows 0 us SU (mkAcc (map (fun r => map (fun _ => 0%Q) r) (d_sim d0)) (map (fun _ => 0) (d_corr d0)) [])) as (H1 & H2 & _).
        { cbn. split; [rewrite map_length; apply (ds_sim _ _ _ S0)|]. intros q Q. apply in_map_iff in Q as (r0 & <- & Q). rewrite map_length.
          now apply (ds_row _ _ _ S0). }
        { cbn. rewrite map_length. apply (ds_corr _ _ _ S0). }
        fold f in H1, H2. split; [rewrite map_length, combine_length, H2; destruct H1 as [-> _]; lia|].
        intros q Q. apply in_map_iff in Q as ([x n] & <- & Q). unfold divide_row. rewrite map_length. cbn [fst].
        apply in_combine_l in Q. now apply H1.
      - apply (mem_save_cell rows (S c) us d0 0 0); try assumption; lia. }
    apply (nth_forall2 _ _ _ [] []).
    { unfold simA. rewrite map_length, seq_length. symmetry. apply DB. }
    intros i I. unfold simA in I. rewrite map_length, seq_length in I.
    assert (EA : nth i simA [] = map (fun j => nanmean (map (fun d => nth j (nth i (d_sim d) []) None) us)) (seq 0 cols)).
    { unfold simA. rewrite (nth_map_lt _ _ _ 0) by now rewrite seq_length. now rewrite seq_nth. }
    rewrite EA. apply (nth_forall2 _ _ _ None None).
    { rewrite map_length, seq_length. symmetry. now apply (nth_in_dims rows cols). }
    intros j J. rewrite map_length, seq_length in J.
    rewrite (nth_map_lt _ _ _ 0) by now rewrite seq_length. rewrite seq_nth by exact J. cbn [Nat.add].
    destruct (mem_save_cell rows cols us d0 i j SU S0 I J) as [_ M]. fold f in M. fold simB in M. cbv zeta in M.
    apply same_number_sym in M. rewrite (NV i j I J) in M.
    eapply same_number_trans; [|exact M]. apply nanmean_cases. }
  pose proof (mapM_best_compat (d_axis d0) _ _ SIM) as B.
  destruct (mapM (best (d_axis d0)) simA) as [ba|ea], (mapM (best (d_axis d0)) simB) as [bb|eb]; cbn in B |- *; try contradiction; [|exact B].
  assert (FU : c_used f = us) by (unfold f; rewrite fold_used; reflexivity).
  destruct B as [B1 B2]. split; cbn; try assumption.
  - destruct (fold_sums rows cols us SU (mkAcc (map (fun r => map (fun _ => 0%Q) r) (d_sim d0)) (map (fun _ => 0) (d_corr d0)) [])) as (_ & H2 & _ & H4).
    { cbn. split; [rewrite map_length; apply (ds_sim _ _ _ S0)|]. intros q Q. apply in_map_iff in Q as (r0 & <- & Q). rewrite map_length.
      now apply (ds_row _ _ _ S0). }
    { cbn. rewrite map_length. apply (ds_corr _ _ _ S0). }
    fold f in H2, H4. cbn [c_n] in H4.
    assert (LA : length (avail d0) = rows) by (unfold avail; rewrite map_length; apply (ds_corr _ _ _ S0)).
    rewrite LA. apply (nth_ext _ _ 0 0); [now rewrite map_length, seq_length|].
    intros i I. rewrite map_length, seq_length in I. rewrite (nth_map_lt _ _ _ 0) by now rewrite seq_length.
    rewrite seq_nth by exact I. cbn [Nat.add]. rewrite H4 by exact I. rewrite count_has.
    rewrite (nth_map_lt _ _ _ None) by (rewrite (ds_corr _ _ _ S0); exact I). cbn [Nat.add].
    apply filter_length_ext. intros d D. unfold has_value.
    assert (SD := SU d D). unfold avail. rewrite (nth_map_lt _ _ _ None) by (rewrite (ds_corr _ _ _ SD); exact I).
    destruct (CU d D i I) as [(H & H' & _)|(H & H' & _)].
    + destruct (nth i (d_corr d) None), (nth i (d_value d) None); cbn; congruence.
    + now rewrite H, H'.
  - now rewrite FU.
  - now rewrite FU.
  - now rewrite FU.
Qed.

(** ** rolling *)
#[local] Ltac Zify.zify_post_hook ::= Z.div_mod_to_equations.
Lemma roll_nth {A} r (l : list A) k d : k < length l ->
  nth k (roll r l) d = nth (Z.to_nat ((Z.of_nat k - r) mod Z.of_nat (length l))) l d.
Proof.
  intros K. unfold roll. set (n := length l) in *. set (q := Z.to_nat (r mod Z.of_nat n)).
  assert (Q : q < n) by (unfold q; lia).
  assert (LS : length (skipn (n - q) l) = q) by (rewrite skipn_length; fold n; lia).
  assert (E : ((Z.of_nat k - r) mod Z.of_nat n = if (k <? q)%nat then Z.of_nat k + Z.of_nat n - Z.of_nat q else Z.of_nat k - Z.of_nat q)%Z).
  { unfold q. rewrite Z2Nat.id by lia. rewrite <- Zminus_mod_idemp_r.
    pose proof (Z.mod_pos_bound r (Z.of_nat n)) as B. set (s := (r mod Z.of_nat n)%Z) in *.
    destruct (k <? Z.to_nat s)%nat eqn:C; [apply Nat.ltb_lt in C|apply Nat.ltb_ge in C].
    - rewrite <- (Z.mod_add _ 1) by lia. rewrite Z.mod_small by lia. lia.
    - apply Z.mod_small. lia. }
  rewrite E. destruct (Nat.ltb_spec k q) as [C|C].
  - rewrite app_nth1 by lia. rewrite <- (firstn_skipn (n - q) l) at 2. rewrite app_nth2; rewrite firstn_length; fold n; [f_equal; lia|lia].
  - rewrite app_nth2 by lia. rewrite LS. rewrite <- (firstn_skipn (n - q) l) at 2. rewrite app_nth1; [f_equal; lia|rewrite firstn_length; fold n; lia].
Qed.
Lemma roll_length {A} r (l : list A) : length (roll r l) = length l.
Proof.
  unfold roll. rewrite app_length, skipn_length, firstn_length. destruct l as [|x l]; [reflexivity|].
  set (n := length (x :: l)). assert (0 < n) by (unfold n; cbn; lia). lia.
Qed.
Lemma reshape_cell w rows : forall (l : list sample) i j, length l = rows * w -> i < rows -> j < w ->
  cell (reshape rows w l) i j = nth (i * w + j) l None.
Proof.
  unfold cell. induction rows as [|rows IH]; intros l i j L I J; [lia|]. cbn [reshape]. destruct i as [|i].
  - cbn [nth]. rewrite Nat.mul_0_l, Nat.add_0_l. rewrite <- (firstn_skipn w l) at 2. rewrite app_nth1; [reflexivity|]. rewrite firstn_length. lia.
  - cbn [nth]. rewrite IH; [|rewrite skipn_length; lia|lia|exact J].
    rewrite <- (firstn_skipn w l) at 2. rewrite app_nth2; rewrite firstn_length; [f_equal; lia|lia].
Qed.
Lemma reshape_dims w rows : forall (l : list sample), length l = rows * w -> dims rows w (reshape rows w l).
Proof.
  induction rows as [|rows IH]; intros l L; cbn [reshape]; [split; [reflexivity|intros ? []]|].
  destruct (IH (skipn w l)) as [D1 D2]; [rewrite skipn_length; lia|]. split; [cbn; lia|].
  intros r [<-|I]; [rewrite firstn_length; lia|auto].
Qed.
Lemma concat_cell rows w (m : list (list sample)) : dims rows w m -> length (concat m) = rows * w /\
  forall i j, i < rows -> j < w -> nth (i * w + j) (concat m) None = cell m i j.
Proof.
  unfold cell. revert rows. induction m as [|r m IH]; intros rows [L H]; cbn in L; subst rows.
  - split; [reflexivity|]. intros; lia.
  - destruct (IH (length m)) as [L IHm]; [split; [reflexivity|intros; apply H; now right]|].
    assert (LR : length r = w) by (apply H; now left). cbn [concat]. split; [rewrite app_length; lia|].
    intros i j I J. destruct i as [|i].
    + cbn [nth]. rewrite app_nth1 by lia. f_equal.
    + cbn [nth]. rewrite app_nth2 by lia. rewrite <- IHm by lia. f_equal. lia.
Qed.

(** where each similarity comes from *)
Lemma roll_matrix_cell rows cols r m i j : dims rows cols m -> i < rows -> j < cols ->
  let q := Z.to_nat ((Z.of_nat (i * cols + j) - r) mod Z.of_nat (rows * cols)) in
  cell (roll_matrix r m) i j = cell m (q / cols) (q mod cols).
Proof.
  intros D I J q. pose proof D as [L H]. unfold roll_matrix.
  assert (W : match m with row :: _ => length row | [] => 0 end = cols).
  { destruct m as [|row m]; [cbn in L; lia|]. apply H. now left. }
  rewrite W, L. destruct (concat_cell rows cols m D) as [LC CC].
  rewrite reshape_cell; [|now rewrite roll_length|exact I|exact J].
  assert (K : i * cols + j < rows * cols) by nia.
  rewrite roll_nth by (rewrite LC; exact K). rewrite LC. fold q.
  assert (Q : q < rows * cols) by (unfold q; clear -K; set (n := rows * cols) in *; lia).
  rewrite <- CC.
  - f_equal. rewrite (Nat.div_mod q cols) at 1 by lia. lia.
  - apply Nat.div_lt_upper_bound; lia.
  - apply Nat.mod_upper_bound. lia.
Qed.
Lemma roll_matrix_dims rows cols r m : 0 < rows -> dims rows cols m -> dims rows cols (roll_matrix r m).
Proof.
  intros R D. pose proof D as [L H]. unfold roll_matrix.
  assert (W : match m with row :: _ => length row | [] => 0 end = cols).
  { destruct m as [|row m]; [cbn in L; lia|]. apply H. now left. }
  rewrite W, L. apply reshape_dims. rewrite roll_length. apply concat_cell, D.
Qed.

(** within the row *)
Lemma roll_matrix_within rows cols r m : dims rows cols m -> shifted_rows r rows cols m (roll_matrix r m).
Proof.
  intros D i j I J B. rewrite (roll_matrix_cell rows cols) by assumption.
  assert (E : ((Z.of_nat (i * cols + j) - r) mod Z.of_nat (rows * cols) = Z.of_nat (i * cols) + (Z.of_nat j - r))%Z).
  { rewrite Z.mod_small; [lia|]. nia. }
  rewrite E. set (k := Z.to_nat (Z.of_nat j - r)).
  replace (Z.to_nat (Z.of_nat (i * cols) + (Z.of_nat j - r))) with (k + i * cols) by (unfold k; lia).
  assert (K : k < cols) by (unfold k; lia).
  rewrite Nat.div_add, Nat.mod_add, Nat.div_small, Nat.mod_small by lia. f_equal.
Qed.
(** what is shifted in comes from the neighbouring time steps (a roll smaller than the axis) *)
Lemma roll_matrix_spill rows cols r m i j : dims rows cols m -> S i < rows -> j < cols ->
  ((Z.of_nat j < r <= Z.of_nat cols)%Z -> cell (roll_matrix r m) (S i) j = cell m i (Z.to_nat (Z.of_nat (cols + j) - r))) /\
  ((- Z.of_nat cols <= r < 0 /\ Z.of_nat cols <= Z.of_nat j - r)%Z ->
     cell (roll_matrix r m) i j = cell m (S i) (Z.to_nat (Z.of_nat j - r - Z.of_nat cols))).
Proof.
  intros D I J. split; intros B; rewrite (roll_matrix_cell rows cols) by (try exact D; lia).
  - assert (E : ((Z.of_nat (S i * cols + j) - r) mod Z.of_nat (rows * cols) = Z.of_nat (i * cols) + (Z.of_nat (cols + j) - r))%Z).
    { rewrite Z.mod_small; [lia|]. nia. }
    rewrite E. set (k := Z.to_nat (Z.of_nat (cols + j) - r)).
    replace (Z.to_nat (Z.of_nat (i * cols) + (Z.of_nat (cols + j) - r))) with (k + i * cols) by (unfold k; lia).
    assert (K : k < cols) by (unfold k; lia).
    rewrite Nat.div_add, Nat.mod_add, Nat.div_small, Nat.mod_small by lia. f_equal.
  - assert (E : ((Z.of_nat (i * cols + j) - r) mod Z.of_nat (rows * cols) = Z.of_nat (S i * cols) + (Z.of_nat j - r - Z.of_nat cols))%Z).
    { rewrite Z.mod_small; [lia|]. nia. }
    rewrite E. set (k := Z.to_nat (Z.of_nat j - r - Z.of_nat cols)).
    replace (Z.to_nat (Z.of_nat (S i * cols) + (Z.of_nat j - r - Z.of_nat cols))) with (k + S i * cols) by (unfold k; lia).
    assert (K : k < cols) by (unfold k; lia).
    rewrite Nat.div_add, Nat.mod_add, Nat.div_small, Nat.mod_small by lia. f_equal.
Qed.

(** the roll is the measured shift, rounded to whole stretch increments *)
Lemma round_half_even_near x : (- (1 # 2) <= inject_Z (round_half_even x) - x <= 1 # 2)%Q.
Proof.
  unfold round_half_even. pose proof (Qfloor_le x) as F. pose proof (Qlt_floor x) as G.
  rewrite inject_Z_plus in G. change (inject_Z 1) with 1%Q in G.
  destruct (Qcompare (x - inject_Z (Qfloor x)) (1 # 2)) eqn:C.
  - apply Qeq_alt in C. destruct (Z.even (Qfloor x)); [lra|]. rewrite inject_Z_plus. change (inject_Z 1) with 1%Q. lra.
  - apply Qlt_alt in C. lra.
  - apply Qgt_alt in C. rewrite inject_Z_plus. change (inject_Z 1) with 1%Q. lra.
Qed.

Lemma mapM_nth {A B} (f : A -> result B) l l' : mapM f l = Ok l' -> length l' = length l /\
  forall i x, nth_error l i = Some x -> exists y, f x = Ok y /\ nth_error l' i = Some y.
Proof.
  revert l'. induction l as [|a l IH]; intros l'; cbn.
  - intros [= <-]. split; [reflexivity|]. intros [|i] x; discriminate.
  - destruct (f a) as [y|] eqn:E; [|discriminate]. cbn. destruct (mapM f l) as [ys|]; [|discriminate]. cbn. intros [= <-].
    destruct (IH ys eq_refl) as [L H]. split; [cbn; lia|]. intros [|i] x; cbn.
    + intros [= <-]. eauto.
    + apply H.
Qed.

Lemma qargmax_from_max l : forall i b x, i <= i ->
  let k := qargmax_from i b x l in
  (k = b /\ (forall y, In y l -> (y <= x)%Q)) \/
  (i <= k < i + length l /\ (x < nth (k - i) l 0)%Q /\ forall y, In y l -> (y <= nth (k - i) l 0)%Q).
Proof.
  induction l as [|y l IH]; intros i b x _; cbn [qargmax_from]; cbv zeta.
  - left. split; [reflexivity|intros ? []].
  - destruct (Qlt_bool x y) eqn:C; unfold Qlt_bool in C.
    + apply negb_true_iff in C. assert (XY : (x < y)%Q).
      { apply Qnot_le_lt. intros H. apply Qle_bool_iff in H. congruence. }
      destruct (IH (S i) i y (le_n _)) as [[E M]|(B & L & M)]; cbv zeta in *.
      * rewrite E. right. rewrite Nat.sub_diag. cbn [nth length]. split; [lia|]. split; [exact XY|].
        intros z [<-|Z]; [lra|auto].
      * right. set (k := qargmax_from (S i) i y l) in *. cbn [length]. split; [lia|].
        replace (k - i) with (S (k - S i)) by lia. cbn [nth]. split; [lra|]. intros z [<-|Z]; [lra|auto].
    + apply negb_false_iff, Qle_bool_iff in C.
      destruct (IH (S i) b x (le_n _)) as [[E M]|(B & L & M)]; cbv zeta in *.
      * rewrite E. left. split; [reflexivity|]. intros z [<-|Z]; auto.
      * right. set (k := qargmax_from (S i) b x l) in *. cbn [length]. split; [lia|].
        replace (k - i) with (S (k - S i)) by lia. cbn [nth]. split; [lra|]. intros z [<-|Z]; [lra|auto].
Qed.
Lemma qargmax_max l k : qargmax l = Some k -> k < length l /\ forall y, In y l -> (y <= nth k l 0)%Q.
Proof.
  destruct l as [|x l]; cbn [qargmax]; [discriminate|]. intros [= <-].
  destruct (qargmax_from_max l 1 0 x (le_n _)) as [[E M]|(B & L & M)]; cbv zeta in *.
  - rewrite E. cbn [length nth]. split; [lia|]. intros y [<-|I]; [lra|auto].
  - set (k := qargmax_from 1 0 x l) in *. cbn [length]. split; [lia|]. replace k with (S (k - 1)) by lia. cbn [nth].
    replace (S (k - 1) - 1) with (k - 1) in * by lia. intros y [<-|I]; [|auto]. lra.
Qed.

Lemma shift_spec rows cols d0 d1 m n d : 0 < rows -> dv_shape rows cols d0 ->
  correct_dv_shift d0 d1 m n = Ok d ->
  exists r, roll_of d0 d1 m n = Ok r /\ d_sim d = roll_matrix r (d_sim d0) /\
    shifted_rows r rows cols (d_sim d0) (d_sim d) /\ dims rows cols (d_sim d) /\
    d_corr d = d_corr d0 /\ length (d_value d) = rows /\
    forall i, i < rows -> exists k v, nth i (d_value d) None = Some v /\ nth_error (d_axis d0) k = Some v /\
      forall j, j < cols -> (val (cell (d_sim d) i j) <= val (cell (d_sim d) i k))%Q.
Proof.
  intros R S E. unfold correct_dv_shift in E. destruct (roll_of d0 d1 m n) as [r|] eqn:RO; [|discriminate]. cbn [bind] in E.
  destruct (mapM _ _) as [v|] eqn:M; [|discriminate]. cbn [bind] in E. injection E as <-. exists r. cbn [d_sim d_corr d_value].
  assert (D : dims rows cols (d_sim d0)) by (split; [apply (ds_sim _ _ _ S)|apply (ds_row _ _ _ S)]).
  pose proof (roll_matrix_dims rows cols r (d_sim d0) R D) as DR.
  split; [reflexivity|]. split; [reflexivity|]. split; [now apply roll_matrix_within|]. split; [exact DR|]. split; [reflexivity|].
  apply mapM_nth in M as [LM M]. split; [rewrite LM; apply DR|]. intros i I.
  set (sim := roll_matrix r (d_sim d0)) in *.
  assert (NE : nth_error sim i = Some (nth i sim [])) by (apply nth_error_nth'; destruct DR as [-> _]; exact I).
  destruct (M i _ NE) as (y & V & NY). unfold value_at in V.
  destruct (qargmax (map val (nth i sim []))) as [k|] eqn:QA; [|discriminate]. destruct (nth_error (d_axis d0) k) as [x|] eqn:AX; [|discriminate].
  injection V as <-. exists k, x. split; [now apply nth_error_nth|]. split; [exact AX|]. intros j J.
  apply qargmax_max in QA as [KL KM]. rewrite map_length in KL. unfold cell.
  rewrite (nth_map_lt _ _ _ None) in KM by exact KL. apply KM. apply in_map, nth_In. rewrite (nth_in_dims rows cols); assumption.
Qed.

(** one common time step and no additional overlap: nothing to compare *)
Lemma where_true_bound l i : In i (where_true l) -> i < length l.
Proof.
  unfold where_true. intros I. apply in_map_iff in I as ([a b] & E & I). cbn in E. subst a. apply filter_In in I as [I _].
  apply in_combine_l in I. apply in_seq in I. lia.
Qed.
Lemma pyslice_empty {A} (l : list A) a : (0 <= a)%Z -> pyslice l a a = [].
Proof. intros H. unfold pyslice. rewrite Nat.sub_diag. reflexivity. Qed.
Lemma shift_single_overlap rows cols d0 d1 m i :
  dv_shape rows cols d0 -> dv_shape rows cols d1 -> 2 <= cols ->
  where_true (map (fun p => fst p && snd p) (combine (avail d0) (avail d1))) = [i] ->
  correct_dv_shift d0 d1 m 0 = Raise ValueError.
Proof.
  intros S0 S1 C W. unfold correct_dv_shift, roll_of, overlap.
  assert (L : length (avail d0) = length (avail d1)) by (unfold avail; rewrite !map_length, (ds_corr _ _ _ S0), (ds_corr _ _ _ S1); reflexivity).
  rewrite L, Nat.eqb_refl. cbn [negb]. rewrite W. cbn [bind last].
  change (0 <? 0)%Z with false. cbv iota.
  assert (I : i < rows).
  { assert (H : In i [i]) by now left. rewrite <- W in H. apply where_true_bound in H. rewrite map_length, combine_length in H.
    unfold avail in H. rewrite !map_length, (ds_corr _ _ _ S0) in H. lia. }
  replace (Z.of_nat i - 0)%Z with (Z.of_nat i) by lia. replace (Z.of_nat i + 0)%Z with (Z.of_nat i) by lia.
  rewrite (ds_value _ _ _ S0).
  destruct (Z.leb_spec (Z.of_nat rows) (Z.of_nat i)) as [H|H]; [lia|]. destruct (Z.ltb_spec (Z.of_nat i) 0) as [H'|H']; [lia|].
  rewrite !pyslice_empty by lia.
  pose proof (ds_axis _ _ _ S0) as LA. destruct (d_axis d0) as [|a0 [|a1 ax]]; [cbn in LA; lia..|].
  destruct m; reflexivity.
Qed.
