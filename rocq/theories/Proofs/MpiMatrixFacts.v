From Verif Require Import Lib.Base Model.Partition Model.MpiMatrix Spec.RowwiseSpec Proofs.PartitionFacts.

Lemma mask_select_map {A B} (g : A -> B) idx l : mask_select idx (map g l) = map g (mask_select idx l).
Proof.
  unfold mask_select. revert idx; induction l as [|x l IH]; intros [|b idx]; simpl; auto.
  destruct b; simpl; now rewrite IH.
Qed.

(** rows selected by idx are mapped with g, others kept *)
Definition map_if {R} (g : R -> R) (idx : list bool) (l : list R) : list R :=
  map (fun q : bool * R => if fst q then g (snd q) else snd q) (combine idx l).

Lemma mask_assign_map {R} (g : R -> R) idx l : length idx = length l ->
  mask_assign idx (map g (mask_select idx l)) l = map_if g idx l.
Proof.
  unfold map_if, mask_select. revert idx; induction l as [|x l IH]; intros [|b idx]; simpl; intros H; try discriminate; auto.
  destruct b; simpl; rewrite IH; auto.
Qed.

Lemma mask_assign_const {R S} (g : R -> S) (z : S) idx l : length idx = length l ->
  mask_assign idx (map g (mask_select idx l)) (repeat z (length l)) =
  map (fun q : bool * R => if fst q then g (snd q) else z) (combine idx l).
Proof.
  unfold mask_select. revert idx; induction l as [|x l IH]; intros [|b idx]; simpl; intros H; try discriminate; auto.
  destruct b; simpl; rewrite IH; auto.
Qed.

Lemma mask_select_map_if {R} (g : R -> R) idx l :
  mask_select idx (map_if g idx l) = map g (mask_select idx l).
Proof.
  unfold map_if, mask_select. revert idx; induction l as [|x l IH]; intros [|b idx]; simpl; auto.
  destruct b; simpl; now rewrite IH.
Qed.

Lemma map_if_length {R} (g : R -> R) idx l : length idx = length l -> length (map_if g idx l) = length l.
Proof. unfold map_if. intros H. rewrite map_length, combine_length. lia. Qed.

Lemma map_if_map_if {R} (g h : R -> R) idx l : length idx = length l ->
  map_if h idx (map_if g idx l) = map_if (fun x => h (g x)) idx l.
Proof.
  unfold map_if. revert idx; induction l as [|x l IH]; intros [|b idx]; simpl; intros H; try discriminate; auto.
  rewrite IH by auto. destruct b; reflexivity.
Qed.

Lemma run_procs_rowwise {R} (P : R -> Prop) ps g idx A :
  rowwise_chain P ps g -> length idx = length A -> Forall P (mask_select idx A) ->
  run_procs ps idx A = Ok (map_if g idx A).
Proof.
  intros H. revert A. induction H as [P|P Q f g fs h Hf Hpq Hc IH]; intros A HL HP; simpl.
  - f_equal. unfold map_if. clear HP. revert idx HL; induction A as [|x A IH]; intros [|b idx]; simpl; intros H; try discriminate; auto.
    rewrite <- IH by auto. destruct b; reflexivity.
  - rewrite Hf by auto. simpl. rewrite mask_assign_map by auto. rewrite IH.
    + rewrite map_if_map_if by auto. reflexivity.
    + now rewrite map_if_length.
    + rewrite mask_select_map_if. apply Forall_map. eapply Forall_impl; [|exact HP]. auto.
Qed.

Lemma zip_add_length {R} (add : R -> R -> R) a b : length a = length b -> length (zip_add add a b) = length a.
Proof. revert b; induction a; intros [|y b]; simpl; intros H; try discriminate; auto. Qed.

(** A sum over ranks in which row i is nonzero only on rank [own i] *)
Section Collapse.
  Context {R : Type} (add : R -> R -> R) (zero : R).
  Hypothesis add_0_l : forall x, add zero x = x.
  Hypothesis add_0_r : forall x, add x zero = x.

  Definition contrib (r : nat) (q : nat * R) : R := if fst q =? r then snd q else zero.

  Lemma allreduce_collapse_seq (l : list (nat * R)) lo n :
    allreduce add zero (length l) (map (fun r => map (contrib r) l) (seq lo n)) =
    map (fun q => if (lo <=? fst q) && (fst q <? lo + n) then snd q else zero) l.
  Proof.
    revert lo. induction n as [|n IH]; intros lo.
    - unfold allreduce; simpl. induction l as [|q l IHl]; simpl; auto. f_equal; auto.
      destruct (Nat.leb_spec lo (fst q)), (Nat.ltb_spec (fst q) (lo + 0)); simpl; auto; lia.
    - cbn [seq map]. unfold allreduce in *. cbn [fold_right]. rewrite IH. clear IH.
      induction l as [|q l IHl]; [reflexivity|]. cbn [map zip_add]. f_equal; [|exact IHl]. unfold contrib.
      destruct (Nat.eqb_spec (fst q) lo), (Nat.leb_spec lo (fst q)), (Nat.leb_spec (S lo) (fst q)),
        (Nat.ltb_spec (fst q) (S lo + n)), (Nat.ltb_spec (fst q) (lo + S n)); simpl;
        try lia; rewrite ?add_0_l, ?add_0_r; auto.
  Qed.

  Lemma allreduce_collapse (l : list (nat * R)) p :
    Forall (fun q => fst q < p) l ->
    allreduce add zero (length l) (map (fun r => map (contrib r) l) (seq 0 p)) = map snd l.
  Proof.
    intros HF. rewrite allreduce_collapse_seq. apply map_ext_in. intros q Hq.
    rewrite Forall_forall in HF. apply HF in Hq. destruct (Nat.ltb_spec (fst q) (0 + p)); simpl; auto. lia.
  Qed.
End Collapse.

Lemma mapM_ok {A B} (f : A -> result B) (g : A -> B) l :
  (forall x, In x l -> f x = Ok (g x)) -> mapM f l = Ok (map g l).
Proof.
  induction l as [|x l IH]; simpl; auto. intros H. rewrite H by auto. simpl. rewrite IH by auto. reflexivity.
Qed.

Lemma mask_select_incl {A} idx (l : list A) (P : A -> Prop) : Forall P l -> Forall P (mask_select idx l).
Proof.
  intros H. unfold mask_select. revert idx; induction H; intros [|b idx]; simpl; auto.
  destruct b; simpl; auto.
Qed.

Section MatrixFacts.
  Context {Row Spec Corr : Type}.
  Variables (sadd : Spec -> Spec -> Spec) (szero : Spec).
  Variables (cadd : Corr -> Corr -> Corr) (czero : Corr).
  Variable rfft_pad : Row -> Spec.
  Variable correlate : nat * nat -> Spec -> Spec -> Corr.
  Variables (td : list (proc Row)) (fd : list (proc Spec)).
  Hypothesis sadd_0_l : forall x, sadd szero x = x.
  Hypothesis sadd_0_r : forall x, sadd x szero = x.
  Hypothesis cadd_0_l : forall x, cadd czero x = x.
  Hypothesis cadd_0_r : forall x, cadd x czero = x.
  Variables (PT : Row -> Prop) (PF : Spec -> Prop) (gT : Row -> Row) (gF : Spec -> Spec).
  Hypothesis HT : rowwise_chain PT td gT.
  Hypothesis HF : rowwise_chain PF fd gF.

  Definition spectrum (x : Row) : Spec := gF (rfft_pad (gT x)).

  Lemma ind_length p r n : length (ind p r n) = n.
  Proof. unfold ind. now rewrite map_length, pmap_length. Qed.

  Lemma rank_spectra_eq p r A :
    Forall PT A -> Forall (fun x => PF (rfft_pad (gT x))) A ->
    rank_spectra szero rfft_pad td fd p r A =
    Ok (map (fun q : bool * Row => if fst q then spectrum (snd q) else szero) (combine (ind p r (length A)) A)).
  Proof.
    intros H1 H2. unfold rank_spectra.
    rewrite (run_procs_rowwise PT td gT) by (auto; try apply ind_length; now apply mask_select_incl).
    cbn [bind]. rewrite mask_select_map_if, map_map.
    rewrite mask_assign_const by apply ind_length.
    set (idx := ind p r (length A)).
    assert (HL : length idx = length A) by apply ind_length.
    rewrite (run_procs_rowwise PF fd gF).
    - f_equal. unfold map_if. clearbody idx. clear - HL. revert idx HL.
      induction A as [|x A IH]; intros [|b idx]; simpl; intros H; try discriminate; auto.
      rewrite IH by auto. destruct b; reflexivity.
    - auto.
    - rewrite map_length, combine_length. lia.
    - clearbody idx. clear - HL H2. revert idx HL. induction A as [|x A IH]; intros [|b idx]; simpl; intros H; try discriminate; auto.
      + constructor.
      + inversion H2; subst. unfold mask_select in *. simpl. destruct b; simpl; auto.
  Qed.

  Lemma pxcorr_matrix_eq p A combis : 0 < p ->
    Forall PT A -> Forall (fun x => PF (rfft_pad (gT x))) A ->
    pxcorr_matrix sadd szero cadd czero rfft_pad correlate td fd p A combis =
    Ok (map (fun c => correlate c (nth (fst c) (map spectrum A) szero) (nth (snd c) (map spectrum A) szero)) combis).
  Proof.
    intros Hp H1 H2. unfold pxcorr_matrix.
    rewrite (mapM_ok _ (fun r => map (fun q : bool * Row => if fst q then spectrum (snd q) else szero) (combine (ind p r (length A)) A)))
      by (intros r _; now apply rank_spectra_eq).
    cbn [bind]. f_equal.
    assert (EB : allreduce sadd szero (length A)
                   (map (fun r => map (fun q : bool * Row => if fst q then spectrum (snd q) else szero)
                                      (combine (ind p r (length A)) A)) (seq 0 p)) = map spectrum A).
    { set (l := combine (pmap p (length A)) (map spectrum A)).
      assert (EL : length l = length A) by (unfold l; rewrite combine_length, pmap_length, map_length; lia).
      rewrite <- EL at 1.
      transitivity (allreduce sadd szero (length l) (map (fun r => map (contrib szero r) l) (seq 0 p))).
      - f_equal. apply map_ext. intros r. unfold l, ind. generalize (pmap p (length A)). clear.
        induction A as [|x A IH]; intros [|a m]; simpl; auto. rewrite IH. unfold contrib at 2. reflexivity.
      - rewrite allreduce_collapse; auto.
        + unfold l. apply map_snd_combine. now rewrite pmap_length, map_length.
        + eapply Forall_impl; [|unfold l; rewrite <- (map_length spectrum A); apply combine_pmap_range; auto].
          simpl; lia. }
    rewrite EB.
    set (res := map (fun c => correlate c (nth (fst c) (map spectrum A) szero) (nth (snd c) (map spectrum A) szero)) combis).
    set (l := combine (pmap p (length combis)) res).
    assert (EL : length l = length combis)
      by (unfold l, res; rewrite combine_length, pmap_length, map_length; lia).
    rewrite <- EL at 1.
    transitivity (allreduce cadd czero (length l) (map (fun r => map (contrib czero r) l) (seq 0 p))).
    - f_equal. apply map_ext. intros r. unfold rank_corr, l, res. generalize (pmap p (length combis)).
      generalize (map spectrum A). clear. intros B. induction combis as [|c cs IH]; intros [|a m]; simpl; auto.
      rewrite IH. reflexivity.
    - rewrite allreduce_collapse; auto.
      + unfold l. apply map_snd_combine. unfold res. now rewrite pmap_length, map_length.
      + eapply Forall_impl; [|unfold l; replace (length combis) with (length res) by (unfold res; apply map_length);
                              apply combine_pmap_range; auto].
        simpl; lia.
  Qed.
End MatrixFacts.

(** whitening is row-wise on matrices without a zero sample *)
Section WhitenFacts.
  Context {C : Type} (div_abs : C -> option C) (c0 : C).
  Definition nonzero_row (row : list C) : Prop := Forall (fun c => div_abs c <> None) row.
  Lemma all_some_some {X Y} (f : X -> option Y) l : Forall (fun c => f c <> None) l ->
    exists r, all_some (map f l) = Some r.
  Proof.
    induction 1 as [|x l Hx HF [r IH]]; simpl; eauto. destruct (f x); [|congruence]. rewrite IH. eauto.
  Qed.

  Lemma whiten_rowwise B : Forall nonzero_row B ->
    spectral_whitening div_abs c0 B = Ok (map (whiten_row div_abs c0) B).
  Proof.
    intros H. unfold spectral_whitening, whiten_rows.
    assert (G : exists B', all_some (map (fun row => all_some (map div_abs row)) B) = Some B' /\
                map (zero_dc c0) B' = map (whiten_row div_abs c0) B).
    { induction H as [|row B Hr HF (B' & E1 & E2)]; simpl; [exists []; auto|].
      destruct (all_some_some div_abs row Hr) as [r Er].
      exists (r :: B'). rewrite Er, E1. split; auto. simpl. rewrite E2. f_equal.
      destruct row as [|x row]; cbn [map all_some] in Er; [injection Er as <-; reflexivity|].
      destruct (div_abs x); [|discriminate]. destruct (all_some (map div_abs row)) as [xs|] eqn:Ex; [|discriminate].
      injection Er as <-. cbn [zero_dc whiten_row]. f_equal. clear -Ex. revert xs Ex.
      induction row as [|z row IH]; intros xs; cbn [map all_some]; [intros [= <-]; reflexivity|].
      destruct (div_abs z); [|discriminate]. destruct (all_some (map div_abs row)) as [ys|]; [|discriminate].
      intros [= <-]. f_equal. now apply IH. }
    destruct G as (B' & E1 & E2). rewrite E1, E2. reflexivity.
  Qed.
End WhitenFacts.
