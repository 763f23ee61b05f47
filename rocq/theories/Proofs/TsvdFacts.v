From mathcomp Require Import all_ssreflect all_algebra.
From Verif Require Import Model.Tsvd Spec.TsvdSpec.
Set Implicit Arguments.
Unset Strict Implicit.
Import Order.TTheory GRing.Theory Num.Theory.
Local Open Scope ring_scope.

Section Facts.
  Variable F : realFieldType.

  Lemma square_dot n (x : 'cV[F]_n) : square x = (x^T *m x) 0 0.
  Proof. rewrite /square mxE. apply: eq_bigr => i _. by rewrite mxE expr2. Qed.
  Lemma square0 n : square (0 : 'cV[F]_n) = 0.
  Proof. rewrite /square big1 // => i _. by rewrite mxE expr0n. Qed.
  Lemma square_ge0 n (x : 'cV[F]_n) : 0 <= square x.
  Proof. apply: sumr_ge0 => i _. exact: sqr_ge0. Qed.
  Lemma square_gt0 n (x : 'cV[F]_n) : x != 0 -> 0 < square x.
  Proof.
    case/matrix0Pn => i [j]. rewrite (ord1 j) => N. rewrite /square (bigD1 i) //=. apply: ltr_spaddl; first by rewrite exprn_even_gt0.
    apply: sumr_ge0 => k _. exact: sqr_ge0.
  Qed.
  Lemma square_eq0 n (x : 'cV[F]_n) : square x = 0 -> x = 0.
  Proof. move=> E. apply/eqP. apply/negPn/negP => /square_gt0. by rewrite E ltxx. Qed.
  Lemma square_add n (x y : 'cV[F]_n) : (x^T *m y) 0 0 = 0 -> square (x + y) = square x + square y.
  Proof.
    move=> E. rewrite /square. have S : \sum_i x i 0 * y i 0 = 0 by rewrite -[RHS]E mxE; apply: eq_bigr => i _; rewrite mxE.
    transitivity (\sum_i (x i 0 ^+ 2 + y i 0 ^+ 2 + 2%:R * (x i 0 * y i 0))).
    { apply: eq_bigr => i _. rewrite mxE sqrrD addrAC. by rewrite mulr_natl. }
    by rewrite !big_split /= -mulr_sumr S mulr0 addr0.
  Qed.

  Lemma largest_ge r (s : 'rV[F]_r) i : s 0 i <= largest s.
  Proof.
    rewrite /largest. have : i \in index_enum _ by rewrite mem_index_enum. elim: (index_enum _) => //= j l IH. rewrite in_cons big_cons le_maxr => /orP [/eqP <-|/IH ->]; by rewrite ?lexx ?orbT.
  Qed.
  Lemma largest_is r (s : 'rV[F]_r) : (forall i, 0 <= s 0 i) -> largest s = 0 \/ exists j, largest s = s 0 j.
  Proof.
    move=> P. rewrite /largest. elim/big_ind: _ => [|x y [->|[j ->]] [->|[k ->]]|i _]; rewrite ?maxxx; auto; last by right; exists i.
    - right. exists k. apply/max_idPr. exact: P.
    - right. exists j. apply/max_idPl. exact: P.
    - right. case: (leP (s 0 j) (s 0 k)) => H; [exists k|exists j]; by [].
  Qed.

  Section Svd.
    Variables (n m r : nat) (u : 'M[F]_(n, r)) (s : 'rV[F]_r) (vt : 'M[F]_(r, m)) (rcond : F).
    Hypothesis U : u^T *m u = 1%:M.
    Hypothesis V : vt *m vt^T = 1%:M.
    Hypothesis P : forall i, 0 <= s 0 i.
    Hypothesis C : 0 <= rcond.
    Let k i := kept rcond s i.
    Let si : 'rV[F]_r := \row_i (if k i then (s 0 i)^-1 else 0).
    Let s' : 'rV[F]_r := \row_i (if k i then s 0 i else 0).
    Let T := u *m diag_mx s' *m vt.
    Lemma kept_pos i : k i -> 0 < s 0 i.
    Proof. move=> K. apply: le_lt_trans K. rewrite mulr_ge0 //. exact: le_trans (largest_ge s i). Qed.
    Lemma kept_iff i : (k i -> forall j, rcond * s 0 j < s 0 i) /\ (~~ k i -> exists j, s 0 i <= rcond * s 0 j).
    Proof.
      split=> [K j|]; first by apply: le_lt_trans K; rewrite ler_wpmul2l // largest_ge.
      rewrite /k /kept -leNgt => K. case: (largest_is P) => [E|[j E]]; last by exists j; rewrite -E.
      exists i. move: K. rewrite E mulr0 => K. have -> : s 0 i = 0 by apply/eqP; rewrite eq_le K P. by rewrite mulr0.
    Qed.
    Lemma truncated_is T' : truncated rcond u s vt T' <-> T' = T.
    Proof.
      split.
      - move=> [t [-> H]]. rewrite /T. congr (u *m diag_mx _ *m vt). apply/rowP => i. rewrite mxE. case: (H i) => H1 H2. case: (kept_iff i) => K1 K2.
        case: ifP => K; [by apply: H2; apply: K1|by apply: H1; apply: K2; rewrite K].
      - move=> ->. exists s'. split=> // i. rewrite mxE. case: (kept_iff i) => K1 K2. split.
        + move=> [j J]. case: ifP => // K. move: (K1 K j). by rewrite ltNge J.
        + move=> J. case: ifP => // /negbT/K2 [j]. by rewrite leNgt J.
    Qed.
    Lemma diag_ss : diag_mx s' *m diag_mx si = diag_mx (\row_i (k i)%:R) :> 'M[F]_r.
    Proof.
      apply/matrixP => i j. rewrite mul_diag_mx !mxE. case: eqP => [_|_]; last by rewrite !mulr0n mulr0. rewrite !mulr1n. case K: (k i); last by rewrite mul0r.
      by rewrite divff // gt_eqF // kept_pos.
    Qed.
    Lemma diag_sk : diag_mx s' *m diag_mx (\row_i (k i)%:R) = diag_mx s' :> 'M[F]_r.
    Proof. apply/matrixP => i j. rewrite mul_diag_mx !mxE. case: eqP => [_|_]; last by rewrite !mulr0n mulr0. rewrite !mulr1n. case K: (k i); by rewrite ?mulr1 ?mul0r. Qed.
    Lemma diag_sis : diag_mx si *m diag_mx si *m diag_mx s' = diag_mx si :> 'M[F]_r.
    Proof.
      apply/matrixP => i j. rewrite -mulmxA !mul_diag_mx !mxE. case: eqP => [_|_]; last by rewrite !mulr0n !mulr0. rewrite !mulr1n.
      case K: (k i); last by rewrite mul0r. by rewrite mulVf ?mulr1 // gt_eqF // kept_pos.
    Qed.
    Lemma T_w d : T *m tsvd rcond u s vt d = u *m (diag_mx (\row_i (k i)%:R) *m (u^T *m d)).
    Proof. rewrite /T /tsvd /pinv -/si. rewrite -!mulmxA (mulmxA vt) V mul1mx (mulmxA (diag_mx s')) diag_ss. by []. Qed.
    Lemma residual d (y : 'cV[F]_m) : ((T *m y)^T *m (T *m tsvd rcond u s vt d - d)) 0 0 = 0.
    Proof.
      suff -> : (T *m y)^T *m (T *m tsvd rcond u s vt d - d) = 0 by rewrite mxE.
      rewrite T_w /T !trmx_mul tr_diag_mx mulmxBr -!mulmxA. rewrite (mulmxA u^T u) U mul1mx. rewrite (mulmxA (diag_mx s') (diag_mx _)) diag_sk. by rewrite subrr.
    Qed.
    Lemma null_orth d (z : 'cV[F]_m) : T *m z = 0 -> ((tsvd rcond u s vt d)^T *m z) 0 0 = 0.
    Proof.
      move=> Z. have E : diag_mx si *m (vt *m z) = 0.
      { rewrite -diag_sis -!mulmxA. have -> : diag_mx s' *m (vt *m z) = u^T *m (T *m z) by rewrite /T -!mulmxA (mulmxA u^T) U mul1mx. by rewrite Z !mulmx0. }
      suff -> : (tsvd rcond u s vt d)^T *m z = 0 by rewrite mxE.
      rewrite /tsvd /pinv -/si !trmx_mul !trmxK tr_diag_mx -!mulmxA E. by rewrite !mulmx0.
    Qed.
    Lemma tsvd_best d : best T d (tsvd rcond u s vt d).
    Proof.
      move=> x N. set w := tsvd rcond u s vt d in N *.
      have D : square (T *m x - d) = square (T *m (x - w)) + square (T *m w - d).
      { rewrite -square_add; last exact: residual. by rewrite mulmxBr addrA subrK. }
      case: (eqVneq (T *m (x - w)) 0) => [Z|Z].
      - right. split; first by rewrite D Z square0 add0r.
        have -> : x = w + (x - w) by rewrite addrC subrK. rewrite square_add; last exact: null_orth.
        rewrite ltr_addl. apply: square_gt0. by rewrite subr_eq0.
      - left. rewrite D ltr_addr. exact: square_gt0.
    Qed.
    (** noise-free data: the part of the model the kept singular vectors see *)
    Lemma tsvd_shrinks (x0 : 'cV[F]_m) : square (tsvd rcond u s vt (T *m x0)) <= square x0 /\ T *m tsvd rcond u s vt (T *m x0) = T *m x0.
    Proof.
      have E : T *m tsvd rcond u s vt (T *m x0) = T *m x0.
      { rewrite T_w {1}/T -!mulmxA (mulmxA u^T) U mul1mx (mulmxA (diag_mx (\row_i _))). rewrite diag_mxC diag_sk. by rewrite /T !mulmxA. }
      split=> //. set w := tsvd _ _ _ _ _ in E *. have -> : x0 = w + (x0 - w) by rewrite addrC subrK. rewrite square_add; first by rewrite ler_addl square_ge0.
      apply: null_orth. by rewrite mulmxBr E subrr.
    Qed.
    Lemma none_kept d : (forall i, ~~ k i) -> tsvd rcond u s vt d = 0.
    Proof.
      move=> N. rewrite /tsvd /pinv. have -> : (\row_i (if kept rcond s i then (s 0 i)^-1 else 0)) = 0 :> 'rV[F]_r.
      { apply/rowP => i. rewrite !mxE. move: (N i). by rewrite /k => /negbTE ->. }
      by rewrite (_ : diag_mx 0 = 0) ?mul0mx ?mulmx0 ?mul0mx //; apply/matrixP => i j; rewrite !mxE mul0rn.
    Qed.
  End Svd.

  Lemma best_unique n m (G : 'M[F]_(n, m)) d w w' : best G d w -> best G d w' -> w = w'.
  Proof.
    move=> B B'. apply/eqP/negPn/negP => N. have N' : w' != w by rewrite eq_sym.
    case: (B _ N') => [H|[E H]]; case: (B' _ N) => [H'|[E' H']].
    - by move: (lt_trans H H'); rewrite ltxx.
    - by move: H; rewrite E' ltxx.
    - by move: H'; rewrite E ltxx.
    - by move: (lt_trans H H'); rewrite ltxx.
  Qed.

  Lemma left_diag a b (e : 'rV[F]_a) (X : 'M[F]_(a, b)) i j : (diag_mx e *m diag_mx e *m X) i j = e 0 i * e 0 i * X i j.
  Proof. by rewrite -mulmxA mul_diag_mx mxE mul_diag_mx mxE mulrA. Qed.
  Lemma right_diag a b (e : 'rV[F]_b) (X : 'M[F]_(a, b)) i j : (X *m diag_mx e *m diag_mx e) i j = X i j * (e 0 j * e 0 j).
  Proof. by rewrite mul_mx_diag mxE mul_mx_diag mxE mulrA. Qed.
  (** two decompositions of one matrix *)
  Section Two.
    Variables (n m r r' : nat) (G : 'M[F]_(n, m)).
    Variables (u : 'M[F]_(n, r)) (s : 'rV[F]_r) (vt : 'M[F]_(r, m)) (u' : 'M[F]_(n, r')) (t : 'rV[F]_r') (vt' : 'M[F]_(r', m)).
    Hypothesis S : is_svd G u s vt.
    Hypothesis S' : is_svd G u' t vt'.
    Let B : 'M[F]_(r', r) := vt' *m vt^T.
    Lemma gram k (a : 'M[F]_(n, k)) (e : 'rV[F]_k) (b : 'M[F]_(k, m)) : is_svd G a e b -> G^T *m G = b^T *m diag_mx e *m diag_mx e *m b.
    Proof. move=> [-> [A _]]. by rewrite !trmx_mul tr_diag_mx -!mulmxA (mulmxA a^T) A mul1mx. Qed.
    Lemma two_commute : diag_mx t *m diag_mx t *m B = B *m diag_mx s *m diag_mx s.
    Proof.
      have [_ [_ [V _]]] := S. have [_ [_ [V' _]]] := S'. have E := gram S. rewrite (gram S') in E. move/(congr1 (fun X => vt' *m X *m vt^T)): E.
      rewrite /B -!mulmxA V mulmx1. by rewrite !mulmxA V' mul1mx.
    Qed.
    Lemma two_values i j : B j i != 0 -> t 0 j = s 0 i.
    Proof.
      move=> N. have [_ [_ [_ P]]] := S. have [_ [_ [_ P']]] := S'. move/matrixP: two_commute => /(_ j i). rewrite left_diag right_diag => E.
      have {}E : B j i * (t 0 j * t 0 j) = B j i * (s 0 i * s 0 i) by rewrite mulrC E.
      move: (mulfI N E). rewrite -!expr2 => E2. apply/eqP. by rewrite -(@eqr_expn2 _ 2) // E2.
    Qed.

    (** the second basis contains the vectors of positive singular values *)
    Lemma two_span : vt'^T *m vt' *m (vt^T *m diag_mx s *m diag_mx s) = vt^T *m diag_mx s *m diag_mx s.
    Proof.
      have [_ [_ [V _]]] := S. have [_ [_ [V' _]]] := S'.
      have E : G^T *m G *m vt^T = vt^T *m diag_mx s *m diag_mx s by rewrite (gram S) -!mulmxA V mulmx1.
      rewrite -E mulmxA (gram S') -!mulmxA. by rewrite (mulmxA vt') V' mul1mx.
    Qed.
    Lemma two_present i : s 0 i != 0 -> exists j, t 0 j = s 0 i.
    Proof.
      move=> N. have [_ [_ [V _]]] := S. have E : vt *m (vt'^T *m vt' *m (vt^T *m diag_mx s *m diag_mx s)) = diag_mx s *m diag_mx s by rewrite two_span !mulmxA V mul1mx.
      have E2 : B^T *m B *m diag_mx s *m diag_mx s = diag_mx s *m diag_mx s by rewrite -[RHS]E /B trmx_mul trmxK !mulmxA.
      have [j J] : exists j, B j i != 0.
      { apply/existsP. apply: contraR N. rewrite negb_exists => /forallP Z. move/matrixP: E2 => /(_ i i). rewrite right_diag.
        have -> : (B^T *m B) i i = 0. { rewrite mxE big1 // => j _. move: (Z j). rewrite negbK => /eqP ->. by rewrite mulr0. }
        rewrite mul0r mul_diag_mx !mxE eqxx mulr1n => /esym/eqP. by rewrite mulf_eq0 orbb. }
      exists j. exact: two_values J.
    Qed.
    (** functions of the singular values that vanish at zero *)
    Definition at_values k (f : F -> F) (e : 'rV[F]_k) : 'M[F]_k := diag_mx (\row_i f (e 0 i)).
    Lemma at_values_square k (f : F -> F) (e : 'rV[F]_k) : f 0 = 0 -> at_values f e = diag_mx e *m diag_mx e *m at_values (fun x => f x / (x * x)) e.
    Proof.
      move=> Z. apply/matrixP => i j. rewrite left_diag /at_values !mxE. case: eqP => [_|_]; last by rewrite !mulr0n mulr0. rewrite !mulr1n.
      case: (eqVneq (e 0 i) 0) => [->|N]; first by rewrite Z !mul0r. by rewrite mulrCA divff ?mulr1 // mulf_neq0.
    Qed.
  End Two.

  Lemma left1 a b (e : 'rV[F]_a) (X : 'M[F]_(a, b)) i j : (diag_mx e *m X) i j = e 0 i * X i j.
  Proof. by rewrite mul_diag_mx mxE. Qed.
  Lemma right1 a b (e : 'rV[F]_b) (X : 'M[F]_(a, b)) i j : (X *m diag_mx e) i j = X i j * e 0 j.
  Proof. by rewrite mul_mx_diag mxE. Qed.
  Lemma span_functions n m r r' (G : 'M[F]_(n, m)) (u : 'M[F]_(n, r)) s (vt : 'M[F]_(r, m)) (u' : 'M[F]_(n, r')) t (vt' : 'M[F]_(r', m)) (f : F -> F) :
    is_svd G u s vt -> is_svd G u' t vt' -> f 0 = 0 -> vt'^T *m vt' *m (vt^T *m at_values f s) = vt^T *m at_values f s.
  Proof.
    move=> S S' Z. rewrite (at_values_square s Z). set D := at_values _ s.
    have -> : vt^T *m (diag_mx s *m diag_mx s *m D) = vt^T *m diag_mx s *m diag_mx s *m D by rewrite !mulmxA. by rewrite mulmxA (two_span S S').
  Qed.
  Lemma two_functions n m r r' (G : 'M[F]_(n, m)) (u : 'M[F]_(n, r)) s (vt : 'M[F]_(r, m)) (u' : 'M[F]_(n, r')) t (vt' : 'M[F]_(r', m)) (f : F -> F) :
    is_svd G u s vt -> is_svd G u' t vt' -> f 0 = 0 -> vt^T *m at_values f s *m vt = vt'^T *m at_values f t *m vt'.
  Proof.
    move=> S S' Z. rewrite -(span_functions S S' Z).
    have E : vt' *m (vt^T *m at_values f s) = at_values f t *m (vt' *m vt^T).
    { rewrite mulmxA. apply/matrixP => j i. rewrite /at_values right1 left1.
      case: (eqVneq ((vt' *m vt^T) j i) 0) => [->|N]; first by rewrite mul0r mulr0. by rewrite ![(\row__ _) _ _]mxE (two_values S S' N) mulrC. }
    rewrite -(mulmxA vt'^T) E.
    have E2 : at_values f t *m (vt' *m vt^T) *m vt = at_values f t *m vt'.
    { move/(congr1 trmx): (span_functions S' S Z). rewrite !trmx_mul !trmxK /at_values tr_diag_mx !mulmxA. by []. }
    by rewrite -mulmxA E2 mulmxA.
  Qed.
  Lemma two_largest n m r r' (G : 'M[F]_(n, m)) (u : 'M[F]_(n, r)) s (vt : 'M[F]_(r, m)) (u' : 'M[F]_(n, r')) t (vt' : 'M[F]_(r', m)) :
    is_svd G u s vt -> is_svd G u' t vt' -> largest s <= largest t.
  Proof.
    move=> S S'. have P : forall i, 0 <= s 0 i by case: S => _ [_ [_ P]]. have G0 : 0 <= largest t. { rewrite /largest. elim/big_ind: _ => // [x y X Y|i _]; [by rewrite le_maxr X|by case: S' => _ [_ [_ P']]]. }
    case: (largest_is P) => [->|[i E]] //. case: (eqVneq (s 0 i) 0) => [Z|N]; first by rewrite E Z. have [j J] := two_present S S' N. by rewrite E -J largest_ge.
  Qed.
  Lemma pinv_gram n m r (G : 'M[F]_(n, m)) (u : 'M[F]_(n, r)) s (vt : 'M[F]_(r, m)) rcond : is_svd G u s vt -> 0 <= rcond ->
    pinv rcond u s vt = vt^T *m at_values (fun x => if rcond * largest s < x then x^-1 * x^-1 else 0) s *m vt *m G^T.
  Proof.
    move=> [E [U [V P]]] C. rewrite /pinv {1}E !trmx_mul tr_diag_mx -!mulmxA. rewrite (mulmxA vt vt^T) V mul1mx. congr (_ *m _). rewrite mulmxA. congr (_ *m _).
    apply/matrixP => i j. rewrite /at_values mul_mx_diag !mxE /kept. case: eqP => [<-|_]; last by rewrite !mulr0n mul0r. rewrite !mulr1n. case: ifP => K; last by rewrite mul0r.
    rewrite -mulrA mulVf ?mulr1 // gt_eqF //. exact: (kept_pos P C K).
  Qed.
  Lemma tsvd_unique n m r r' (G : 'M[F]_(n, m)) (u : 'M[F]_(n, r)) s (vt : 'M[F]_(r, m)) (u' : 'M[F]_(n, r')) t (vt' : 'M[F]_(r', m)) rcond d :
    is_svd G u s vt -> is_svd G u' t vt' -> 0 <= rcond -> tsvd rcond u s vt d = tsvd rcond u' t vt' d.
  Proof.
    move=> S S' C. rewrite /tsvd (pinv_gram S C) (pinv_gram S' C). have -> : largest s = largest t by apply/eqP; rewrite eq_le (two_largest S S') (two_largest S' S).
    congr (_ *m _ *m _). apply: two_functions S S' _. by rewrite invr0 mul0r if_same.
  Qed.
End Facts.
