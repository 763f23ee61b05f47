From mathcomp Require Import all_ssreflect all_algebra.
From Verif Require Import Model.Inversion Spec.InversionSpec.
Set Implicit Arguments.
Unset Strict Implicit.
Import Order.TTheory GRing.Theory Num.Theory.
Local Open Scope ring_scope.

Section Facts.
  Variable F : realFieldType.
  Implicit Types (n m k : nat).

  Lemma form_add k (A B : 'M[F]_k) x : form (A + B) x = form A x + form B x.
  Proof. by rewrite /form mulmxDr mulmxDl mxE. Qed.
  Lemma form_conj k l (A : 'M[F]_k) (G : 'M[F]_(l, k)) (x : 'cV[F]_l) : form (G *m A *m G^T) x = form A (G^T *m x).
  Proof. by rewrite /form trmx_mul trmxK !mulmxA. Qed.
  Lemma form_diag n (v : 'rV[F]_n) (x : 'cV[F]_n) : form (diag_mx v) x = \sum_i x i 0 ^+ 2 * v 0 i.
  Proof.
    rewrite /form mxE. apply: eq_bigr => i _. rewrite mul_mx_diag !mxE expr2. by rewrite mulrAC.
  Qed.
  Lemma positive_unit k (A : 'M[F]_k) : positive A -> A \in unitmx.
  Proof.
    move=> [S P]. rewrite -row_free_unit -kermx_eq0. apply/eqP/row_matrixP => i. rewrite row0.
    set r := row i (kermx A). have Z : r *m A = 0 by apply/sub_kermxP; apply: row_sub.
    apply/eqP. apply/negPn/negP => N. have := P r^T. rewrite trmx_eq0 N /form trmxK Z mul0mx mxE ltxx. by move=> /(_ isT).
  Qed.
  Lemma positive_nonnegative k (A : 'M[F]_k) : positive A -> nonnegative A.
  Proof.
    move=> [S P]. split=> // x. case: (eqVneq x 0) => [->|N]; last exact: ltW (P _ N). by rewrite /form mulmx0 mxE.
  Qed.
  Lemma diag_positive n (v : 'rV[F]_n) : all_positive v -> positive (diag_mx v).
  Proof.
    move=> V. split; first exact: tr_diag_mx. move=> x N. rewrite form_diag. case/matrix0Pn: N => i [j]. rewrite (ord1 j) => Nij.
    rewrite (bigD1 i) //=. apply: ltr_spaddl; first by rewrite mulr_gt0 // exprn_even_gt0.
    apply: sumr_ge0 => l _. by rewrite mulr_ge0 ?sqr_ge0 // ltW.
  Qed.
  Lemma sum_positive k (A B : 'M[F]_k) : nonnegative A -> positive B -> positive (A + B).
  Proof.
    move=> [SA PA] [SB PB]. split; first by rewrite /symmetric linearD /= SA SB. move=> x N. rewrite form_add. apply: ltr_paddl; [exact: PA|exact: PB].
  Qed.
  Lemma conj_nonnegative k l (A : 'M[F]_k) (G : 'M[F]_(l, k)) : nonnegative A -> nonnegative (G *m A *m G^T).
  Proof. move=> [S P]. split; first by rewrite /symmetric !trmx_mul trmxK S mulmxA. move=> x. by rewrite form_conj. Qed.
  Lemma inv_positive k (A : 'M[F]_k) : positive A -> positive (invmx A).
  Proof.
    move=> PA. have U := positive_unit PA. case: PA => S P. split; first by rewrite /symmetric trmx_inv S. move=> x N.
    have -> : form (invmx A) x = form A (invmx A *m x).
    { by rewrite /form trmx_mul trmx_inv S -!mulmxA (mulmxA A) mulmxV // mul1mx. }
    apply: P. apply/eqP => Z. move/eqP: N. apply. by rewrite -(mul1mx x) -(mulmxV U) -mulmxA Z mulmx0.
  Qed.
  Lemma linv_unit k (A : 'M[F]_k) : A \in unitmx -> linv A = Some (invmx A).
  Proof. by rewrite /linv => ->. Qed.
  Lemma inverse_unique k (A B : 'M[F]_k) : A *m B = 1%:M -> A \in unitmx /\ B = invmx A.
  Proof. move=> E. case: (mulmx1_unit E) => U _. split=> //. by rewrite -(mul1mx B) -(mulVmx U) -mulmxA E mulmx1. Qed.

  Section Inv.
    Variables (n m : nat) (G : 'M[F]_(n, m)) (cm : 'M[F]_m) (v : 'rV[F]_n).
    Hypothesis CM : nonnegative cm.
    Hypothesis V : all_positive v.
    Let S := G *m cm *m G^T + diag_mx v.
    Lemma S_positive : positive S.
    Proof. apply: sum_positive; [exact: conj_nonnegative|exact: diag_positive]. Qed.
    Lemma grid_is d : compute_dv_grid G cm v d = Some (cm *m G^T *m invmx S *m d).
    Proof. by rewrite /compute_dv_grid /factor_b /data_covariance linv_unit // positive_unit //; exact: S_positive. Qed.
    Lemma resolution_is : compute_resolution G cm v = Some (cm *m G^T *m invmx S *m G *m const_mx 1).
    Proof.
      rewrite /compute_resolution /factor_b /data_covariance linv_unit ?positive_unit //; last exact: S_positive. congr Some. apply/matrixP => i j. rewrite !mxE.
      apply: eq_bigr => l _. by rewrite [X in _ = _ * X]mxE mulr1.
    Qed.
  End Inv.

  Section Min.
    Variables (n m : nat) (G : 'M[F]_(n, m)) (cm : 'M[F]_m) (v : 'rV[F]_n).
    Hypothesis CM : positive cm.
    Hypothesis V : all_positive v.
    Let S := G *m cm *m G^T + diag_mx v.
    Let icd := invmx (diag_mx v).
    Let icm := invmx cm.
    Let H := G^T *m icd *m G + icm.
    Let CM' := positive_nonnegative CM.
    Let Ucm := positive_unit CM.
    Let Ucd := positive_unit (diag_positive V).
    Let US := positive_unit (S_positive G CM' V).
    Lemma H_positive : positive H.
    Proof.
      apply: sum_positive; last exact: inv_positive. rewrite -{2}(trmxK G). apply: conj_nonnegative. apply: positive_nonnegative. exact/inv_positive/diag_positive.
    Qed.
    Lemma normal_equation k (d : 'M[F]_(n, k)) : H *m (cm *m G^T *m invmx S *m d) = G^T *m icd *m d.
    Proof.
      rewrite /H mulmxDl. rewrite [icm *m _]mulmxA. rewrite !(mulmxA icm) (mulVmx Ucm) mul1mx.
      have -> : G^T *m invmx S *m d = G^T *m icd *m (diag_mx v) *m invmx S *m d by rewrite -(mulmxA _ icd) (mulVmx Ucd) mulmx1.
      rewrite -!mulmxA -!mulmxDr. do 2 congr (_ *m _). rewrite !mulmxA -!mulmxDl. by rewrite -/S (mulmxV US) mul1mx.
    Qed.
    Lemma icd_is : icd = diag_mx (\row_i (v 0 i)^-1).
    Proof.
      symmetry. suff E : diag_mx v *m diag_mx (\row_i (v 0 i)^-1) = 1%:M by case: (inverse_unique E).
      apply/matrixP => i j. rewrite mul_diag_mx !mxE. case: eqP => [->|_]; rewrite ?mulr1n ?mulr0n ?mulr0 //. by rewrite divff // lt0r_neq0.
    Qed.
    Lemma objective_form d x : objective G icm v d x = form icd (d - G *m x) + form icm x.
    Proof.
      rewrite /objective /misfit icd_is form_diag. congr (_ + _). apply: eq_bigr => i _. rewrite !mxE. by [].
    Qed.
    Lemma scalar_tr (a : 'M[F]_1) : a^T = a.
    Proof. by apply/matrixP => i j; rewrite mxE !ord1. Qed.
    Lemma form_sub k (A : 'M[F]_k) x y : symmetric A -> form A (x - y) = form A x - 2%:R * (y^T *m A *m x) 0 0 + form A y.
    Proof.
      move=> SA. have E0 : (x - y)^T = x^T - y^T by apply/matrixP => i j; rewrite !mxE. rewrite /form E0 !mulmxBl !mulmxBr. have E : x^T *m A *m y = y^T *m A *m x by rewrite -[LHS]scalar_tr !trmx_mul trmxK SA mulmxA.
      rewrite E. move: (x^T *m A *m x) (y^T *m A *m x) (y^T *m A *m y) => p q r. rewrite !mxE mulr_natl mulr2n opprB opprD !addrA. by rewrite [LHS]addrAC.
    Qed.
    Lemma square_alg (a b c e : F) : e - (a + a) + c = e - (b + b) + b + (c - (a + a) + b).
    Proof.
      have -> : e - (b + b) + b = e - b by rewrite -addrA opprD -addrA addNr addr0.
      by rewrite addrACA addNr addr0 addrA addrAC.
    Qed.
    (** completing the square *)
    Lemma objective_square d x : let w := cm *m G^T *m invmx S *m d in objective G icm v d x = objective G icm v d w + form H (x - w).
    Proof.
      cbv zeta. move: (normal_equation d). set w := _ *m d. move: w => w NE. have Sicd : symmetric icd by case: (inv_positive (diag_positive V)). have Sicm : symmetric icm by case: (inv_positive CM). have SH : symmetric H by case: H_positive.
      have J y : objective G icm v d y = form icd d - 2%:R * (y^T *m (G^T *m icd *m d)) 0 0 + form H y.
      { rewrite objective_form form_sub // /H form_add. have -> : form (G^T *m icd *m G) y = form icd (G *m y) by rewrite /form trmx_mul !mulmxA.
        by rewrite trmx_mul -!mulmxA addrA. }
      rewrite !J -NE form_sub //. rewrite /form -!mulmxA.
      have -> : (w^T *m (H *m x)) 0 0 = (x^T *m (H *m w)) 0 0 :> F.
      { rewrite -[in LHS](scalar_tr (w^T *m _)) trmx_mul trmxK trmx_mul SH. by rewrite -mulmxA. }
      set a := (x^T *m (H *m w)) 0 0. set b := (w^T *m (H *m w)) 0 0. set c := (x^T *m (H *m x)) 0 0. set e := (d^T *m (icd *m d)) 0 0.
      rewrite !mulr_natl !mulr2n. exact: square_alg.
    Qed.
    Theorem minimum d icm' : inverse_of cm icm' ->
      exists w, compute_dv_grid G cm v d = Some w /\ forall x, x != w -> objective G icm' v d w < objective G icm' v d x.
    Proof.
      move=> [E _]. case: (inverse_unique E) => _ ->. exists (cm *m G^T *m invmx S *m d). split; first exact: grid_is. move=> x N. rewrite (objective_square d x) ltr_addl.
      case: H_positive => _. apply. by rewrite subr_eq0.
    Qed.
    Lemma posterior_is : posterior_covariance G cm v = Some (cm - cm *m G^T *m invmx S *m G *m cm).
    Proof.
      rewrite /posterior_covariance /data_covariance !linv_unit //; last exact: positive_unit H_positive. congr Some. symmetry.
      suff E : H *m (cm - cm *m G^T *m invmx S *m G *m cm) = 1%:M by case: (inverse_unique E).
      rewrite mulmxBr -(mulmxA _ G cm) normal_equation. rewrite {1}/H mulmxDl (mulVmx Ucm) -!mulmxA. by rewrite addrAC subrr add0r.
    Qed.
    Theorem posterior : exists P, posterior_covariance G cm v = Some P /\ positive P /\ forall x, form P x <= form cm x.
    Proof.
      exists (cm - cm *m G^T *m invmx S *m G *m cm). split; first exact: posterior_is. split.
      - have <- : invmx H = cm - cm *m G^T *m invmx S *m G *m cm.
        { have := posterior_is. rewrite /posterior_covariance /data_covariance !linv_unit //; last exact: positive_unit H_positive. by case. }
        exact: inv_positive H_positive.
      - move=> x. rewrite form_add ger_addl.
        have -> : form (- (cm *m G^T *m invmx S *m G *m cm)) x = - form (invmx S) (G *m cm *m x).
        { rewrite /form mulmxN mulNmx mxE. congr (- _). case: CM => SC _. rewrite !trmx_mul SC. by rewrite !mulmxA. }
        rewrite oppr_le0. case: (positive_nonnegative (inv_positive (S_positive G CM' V))) => _. exact.
    Qed.
  End Min.

  Section More.
    Variables (n m : nat) (G : 'M[F]_(n, m)) (cm : 'M[F]_m) (v : 'rV[F]_n).
    Hypothesis CM : nonnegative cm.
    Hypothesis V : all_positive v.
    Theorem silent_row i (d d' : 'cV[F]_n) : row i G = 0 -> (forall j, j != i -> d j 0 = d' j 0) -> compute_dv_grid G cm v d = compute_dv_grid G cm v d'.
    Proof.
      move=> R D. rewrite !grid_is //. congr Some. apply/eqP. rewrite -subr_eq0 -mulmxBr. apply/eqP. set u := d - d'. set S := _ + diag_mx v.
      have US : S \in unitmx by exact: positive_unit (S_positive G CM V).
      have U j : j != i -> u j 0 = 0 by move=> N; rewrite /u !mxE D // subrr.
      have GU : G^T *m u = 0.
      { apply/matrixP => a b. rewrite mxE [in RHS]mxE big1 // => j _. rewrite mxE. case: (eqVneq j i) => [->|N]; last by rewrite ord1 (U _ N) mulr0.
        move/matrixP: R => /(_ 0 a). rewrite !mxE => ->. by rewrite mul0r. }
      have SU : S *m u = v 0 i *: u.
      { rewrite /S mulmxDl -mulmxA GU mulmx0 add0r. apply/matrixP => a b. rewrite mul_diag_mx !mxE ord1. case: (eqVneq a i) => [->|N] //.
        have := U _ N. rewrite /u !mxE => ->. by rewrite !mulr0. }
      have E : invmx S *m u = (v 0 i)^-1 *: u.
      { rewrite -[in LHS](scale1r u) -(mulVf (lt0r_neq0 (V i))) -scalerA -SU -scalemxAr mulmxA (mulVmx US). by rewrite mul1mx. }
      by rewrite -mulmxA E -scalemxAr -mulmxA GU mulmx0 scaler0.
    Qed.
    Theorem noise_free x : exists w r, compute_dv_grid G cm v (forward G x) = Some w /\ compute_resolution G cm v = Some r /\
      (x = const_mx 1 -> w = r) /\ (forall c, x = const_mx c -> w = c *: r).
    Proof.
      exists (cm *m G^T *m invmx (G *m cm *m G^T + diag_mx v) *m (forward G x)), (cm *m G^T *m invmx (G *m cm *m G^T + diag_mx v) *m G *m const_mx 1).
      split; first exact: grid_is. split; first exact: resolution_is. have C c : x = const_mx c -> cm *m G^T *m invmx (G *m cm *m G^T + diag_mx v) *m (forward G x) = c *: (cm *m G^T *m invmx (G *m cm *m G^T + diag_mx v) *m G *m const_mx 1).
      { move=> ->. have -> : const_mx c = c *: const_mx 1 :> 'cV[F]_m by apply/matrixP => i j; rewrite !mxE mulr1. by rewrite /forward -!scalemxAr !mulmxA. }
      split; last exact: C. move=> E. by rewrite (C 1 E) scale1r.
    Qed.
    Theorem common_scale c d : 0 < c -> compute_dv_grid G (c *: cm) (c *: v) d = compute_dv_grid G cm v d.
    Proof.
      move=> C. have CM2 : nonnegative (c *: cm).
      { case: CM => SC P. split; first by rewrite /symmetric linearZ /= SC. move=> x. have -> : form (c *: cm) x = c * form cm x by rewrite /form -scalemxAr -scalemxAl mxE. by rewrite mulr_ge0 // ltW. }
      have V2 : all_positive (c *: v) by move=> i; rewrite mxE mulr_gt0.
      rewrite !grid_is //. congr Some. have -> : diag_mx (c *: v) = c *: diag_mx v by rewrite linearZ.
      have -> : G *m (c *: cm) *m G^T + c *: diag_mx v = c *: (G *m cm *m G^T + diag_mx v) by rewrite scalerDr -scalemxAr -scalemxAl.
      set S := _ + diag_mx v. have US : S \in unitmx by exact: positive_unit (S_positive G CM V).
      have C0 : c != 0 by exact: lt0r_neq0. have -> : invmx (c *: S) = c^-1 *: invmx S.
      { symmetry. suff E : c *: S *m (c^-1 *: invmx S) = 1%:M by case: (inverse_unique E). by rewrite -scalemxAl -scalemxAr (mulmxV US) scalerA divff // scale1r. }
      have -> : c *: cm *m G^T *m (c^-1 *: invmx S) = c *: (c^-1 *: (cm *m G^T *m invmx S)) by rewrite -!scalemxAl -scalemxAr. by rewrite scalerA divff // scale1r.
    Qed.
  End More.
End Facts.
