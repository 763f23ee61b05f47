From Verif Require Import Lib.Base Model.Partition.
From Coq Require Import Reals Lra.
From Flocq Require Import Core Relative.
Local Open Scope R_scope.

Lemma rnd64_int (k : Z) : (Z.abs k <= 2 ^ 53)%Z -> rnd64 (IZR k) = IZR k.
Proof.
  intros H. unfold rnd64. apply round_generic; [apply valid_rnd_N|].
  destruct (Z_lt_le_dec (Z.abs k) (2 ^ 53)) as [Hl|Hl].
  - apply generic_format_FLT. exists (Float radix2 k 0); simpl.
    + unfold F2R; simpl. ring.
    + exact Hl.
    + lia.
  - assert (E : (Z.abs k = 2 ^ 53)%Z) by lia.
    assert (k = 2 ^ 53 \/ k = - 2 ^ 53)%Z as [->| ->] by lia.
    + change (2 ^ 53)%Z with (radix2 ^ 53)%Z. rewrite IZR_Zpower by lia. apply generic_format_bpow. unfold FLT_exp. lia.
    + rewrite opp_IZR. apply generic_format_opp. change (2 ^ 53)%Z with (radix2 ^ 53)%Z.
      rewrite IZR_Zpower by lia. apply generic_format_bpow. unfold FLT_exp. lia.
Qed.

Lemma pmap_float_exact (p n i : Z) :
  (0 <= i < n)%Z -> (0 < p)%Z -> (n * p <= 2 ^ 53)%Z ->
  pmap_float_entry p n i = (i * p / n)%Z.
Proof.
  intros Hi Hp Hb. unfold pmap_float_entry.
  rewrite (rnd64_int (i * p)) by nia. rewrite (rnd64_int n) by nia.
  set (x := IZR (i * p) / IZR n). set (q := (i * p / n)%Z).
  assert (Hn : (0 < n)%Z) by lia. pose proof (IZR_lt _ _ Hn) as Hn'. pose proof (IZR_lt _ _ Hp) as Hp'.
  pose proof (Z.div_mod (i * p) n ltac:(lia)) as D. pose proof (Z.mod_pos_bound (i * p) n Hn) as M.
  fold q in D. set (m := ((i * p) mod n)%Z) in *.
  assert (Hx : x * IZR n = IZR (i * p)) by (unfold x; field; lra).
  assert (D' : IZR (i * p) = IZR n * IZR q + IZR m) by (rewrite <- mult_IZR, <- plus_IZR; f_equal; exact D).
  assert (M0 : 0 <= IZR m) by (apply IZR_le; lia).
  assert (M1 : IZR m <= IZR n - 1) by (rewrite <- minus_IZR; apply IZR_le; lia).
  assert (Hq0 : (0 <= q)%Z) by (apply Z.div_pos; nia).
  assert (Hqx : IZR q <= x) by nra.
  assert (Hxq : IZR n * x <= IZR n * (IZR q + 1) - 1) by nra.
  assert (Hxp : x < IZR p).
  { apply Rmult_lt_reg_r with (IZR n); auto. rewrite Hx, <- mult_IZR. apply IZR_lt. nia. }
  assert (Hqp : (q < p)%Z) by (apply Z.div_lt_upper_bound; nia).
  assert (Hx0 : 0 <= x) by (apply Rle_trans with (IZR q); auto; apply IZR_le; lia).
  assert (L : IZR q <= rnd64 x).
  { rewrite <- (rnd64_int q) by nia. unfold rnd64. apply round_le; auto; [apply FLT_exp_valid; unfold Prec_gt_0; lia | apply valid_rnd_N]. }
  assert (U : rnd64 x < IZR q + 1).
  { destruct (Req_dec x 0) as [Z0|NZ].
    - unfold rnd64. rewrite Z0, round_0; [|apply valid_rnd_N]. assert (0 <= IZR q) by (apply IZR_le; lia). lra.
    - assert (Hxpos : 0 < x) by lra.
      assert (Hxlow : / IZR n <= x).
      { apply Rmult_le_reg_r with (IZR n); auto. rewrite Rinv_l, Hx by lra. apply IZR_le.
        assert (i * p <> 0)%Z. { intros E0. apply NZ. unfold x. rewrite E0. unfold Rdiv. ring. } nia. }
      pose proof (relative_error_N_FLT radix2 (-1074) 53 ltac:(unfold Prec_gt_0; lia) (fun x => negb (Z.even x)) x) as R.
      assert (Hmag : bpow radix2 (-1074 + 53 - 1) <= Rabs x).
      { rewrite Rabs_pos_eq by lra. apply Rle_trans with (/ IZR n); auto.
        apply Rle_trans with (bpow radix2 (-53)). apply bpow_le; lia.
        change (-53)%Z with (Z.opp 53). rewrite bpow_opp. apply Rinv_le; auto.
        change (bpow radix2 53) with (IZR (2 ^ 53)). apply IZR_le. nia. }
      specialize (R Hmag). fold (rnd64 x) in R.
      assert (B : bpow radix2 (Z.opp 53 + 1) = 2 / IZR (2 ^ 53)).
      { change (Z.opp 53 + 1)%Z with (Z.opp 52). rewrite bpow_opp. change (bpow radix2 52) with (IZR (2 ^ 52)).
        change (2 ^ 53)%Z with (2 * 2 ^ 52)%Z. rewrite mult_IZR. field. apply not_0_IZR. lia. }
      rewrite B in R. rewrite (Rabs_pos_eq x) in R by lra.
      assert (E53 : 0 < IZR (2 ^ 53)) by (apply IZR_lt; lia).
      assert (R' : Rabs (rnd64 x - x) <= x / IZR (2 ^ 53)) by (eapply Rle_trans; [exact R|]; apply Req_le; field; lra).
      assert (S : x / IZR (2 ^ 53) < / IZR n).
      { apply Rmult_lt_reg_r with (IZR n * IZR (2 ^ 53)); [nra|].
        replace (x / IZR (2 ^ 53) * (IZR n * IZR (2 ^ 53))) with (x * IZR n) by (field; lra).
        replace (/ IZR n * (IZR n * IZR (2 ^ 53))) with (IZR (2 ^ 53)) by (field; lra).
        apply Rlt_le_trans with (IZR n * IZR p); [nra|]. rewrite <- mult_IZR. apply IZR_le. lia. }
      assert (T : x <= IZR q + 1 - / IZR n).
      { apply Rmult_le_reg_r with (IZR n); auto. rewrite Rmult_minus_distr_r, Rinv_l by lra. nra. }
      pose proof (Rle_abs (rnd64 x - x)). lra. }
  rewrite Ztrunc_floor.
  - apply Zfloor_imp. rewrite plus_IZR. lra.
  - apply Rle_trans with (IZR q); auto. apply IZR_le; lia.
Qed.
