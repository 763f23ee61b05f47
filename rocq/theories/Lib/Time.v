(** Times as integer nanoseconds since 1970-01-01 (obspy UTCDateTime._ns), the proleptic Gregorian
    calendar (CPython datetime._ord2ymd restricted to year and day of year) and
    [UTCDateTime.format_fissures]: "%04d%03dT%02d%02d%02d.%04dZ" % (year, julday, hour, minute,
    second, microsecond // 100). *)
From Verif Require Import Lib.Base Lib.Str Lib.StrFacts.
Local Open Scope Z_scope.

Definition sec : Z := 1000000000.
Definition day : Z := 86400 * sec.

(** year and day of year (1..366) of the n-th day after 0001-01-01 *)
Definition year_doy (n : Z) : Z * Z :=
  let n400 := n / 146097 in let a := n mod 146097 in
  let n100 := a / 36524 in let b := a mod 36524 in
  let n4 := b / 1461 in let c := b mod 1461 in
  let ny := c / 365 in let d := c mod 365 in
  let y := 400 * n400 + 100 * n100 + 4 * n4 + ny in
  if (n100 =? 4) || (ny =? 4) then (y, 366) else (y + 1, d + 1).

Definition days_before_year (y : Z) : Z :=
  (y - 1) * 365 + (y - 1) / 4 - (y - 1) / 100 + (y - 1) / 400.

(** number of days from 0001-01-01 to 1970-01-01 *)
Definition epoch_day : Z := 719162.
Definition daynum (t : Z) : Z := t / day + epoch_day.

Definition year_of (t : Z) : Z := fst (year_doy (daynum t)).
Definition doy_of (t : Z) : Z := snd (year_doy (daynum t)).

(** zero-padded decimal of fixed width *)
Definition digit (d : Z) : ascii := ascii_of_N (Z.to_N (48 + d)).
Fixpoint dec (w : nat) (n : Z) : string :=
  match w with
  | O => EmptyString
  | S w' => (dec w' (n / 10) ++ String (digit (n mod 10)) "")%string
  end.

Definition format_fissures (t : Z) : string :=
  let tod := t mod day in
  (dec 4 (year_of t) ++ dec 3 (doy_of t) ++ "T" ++
   dec 2 (tod / (3600 * sec)) ++ dec 2 (tod / (60 * sec) mod 60) ++ dec 2 (tod / sec mod 60) ++
   "." ++ dec 4 (tod mod sec / 100000) ++ "Z")%string.

(** resolution of the format: 100 microseconds *)
Definition tick (t : Z) : Z := t / 100000.

(** representable times: years 1 to 9999 *)
Definition time_ok (t : Z) : Prop := - epoch_day * day <= t < (days_before_year 10000 - epoch_day) * day.

#[local] Ltac Zify.zify_post_hook ::= Z.div_mod_to_equations.

Lemma year_doy_correct n : 0 <= n ->
  let '(y, d) := year_doy n in
  n = days_before_year y + d - 1 /\ 1 <= y /\ 1 <= d <= 366.
Proof.
  intros Hn. unfold year_doy, days_before_year.
  set (n400 := n / 146097). set (a := n mod 146097).
  assert (Ha : n = 146097 * n400 + a /\ 0 <= a < 146097 /\ 0 <= n400) by (subst n400 a; lia).
  clearbody n400 a. destruct Ha as (-> & Ha & H400).
  set (n100 := a / 36524). set (b := a mod 36524).
  assert (Hb : a = 36524 * n100 + b /\ 0 <= b < 36524 /\ 0 <= n100 <= 4) by (subst n100 b; lia).
  clearbody n100 b. destruct Hb as (-> & Hb & H100).
  set (n4 := b / 1461). set (c := b mod 1461).
  assert (Hc : b = 1461 * n4 + c /\ 0 <= c < 1461 /\ 0 <= n4 <= 24) by (subst n4 c; lia).
  clearbody n4 c. destruct Hc as (-> & Hc & H4).
  set (ny := c / 365). set (d := c mod 365).
  assert (Hd : c = 365 * ny + d /\ 0 <= d < 365 /\ 0 <= ny <= 4) by (subst ny d; lia).
  clearbody ny d. destruct Hd as (-> & Hd & Hny).
  destruct (Z.eqb_spec n100 4), (Z.eqb_spec ny 4); simpl orb; cbv iota; split; lia.
Qed.

(** the day-of-year never reaches into the next year *)
Lemma year_doy_lt n : 0 <= n ->
  let '(y, d) := year_doy n in n < days_before_year (y + 1).
Proof.
  intros Hn. unfold year_doy, days_before_year.
  set (n400 := n / 146097). set (a := n mod 146097).
  assert (Ha : n = 146097 * n400 + a /\ 0 <= a < 146097 /\ 0 <= n400) by (subst n400 a; lia).
  clearbody n400 a. destruct Ha as (-> & Ha & H400).
  set (n100 := a / 36524). set (b := a mod 36524).
  assert (Hb : a = 36524 * n100 + b /\ 0 <= b < 36524 /\ 0 <= n100 <= 4) by (subst n100 b; lia).
  clearbody n100 b. destruct Hb as (-> & Hb & H100).
  set (n4 := b / 1461). set (c := b mod 1461).
  assert (Hc : b = 1461 * n4 + c /\ 0 <= c < 1461 /\ 0 <= n4 <= 24) by (subst n4 c; lia).
  clearbody n4 c. destruct Hc as (-> & Hc & H4).
  set (ny := c / 365). set (d := c mod 365).
  assert (Hd : c = 365 * ny + d /\ 0 <= d < 365 /\ 0 <= ny <= 4) by (subst ny d; lia).
  clearbody ny d. destruct Hd as (-> & Hd & Hny).
  destruct (Z.eqb_spec n100 4), (Z.eqb_spec ny 4); simpl orb; cbv iota; lia.
Qed.

Lemma days_before_year_mono y z : y <= z -> days_before_year y <= days_before_year z.
Proof. unfold days_before_year. intros. lia. Qed.

Lemma year_doy_bounds n : 0 <= n < days_before_year 10000 -> 1 <= fst (year_doy n) <= 9999.
Proof.
  intros [H0 H1]. pose proof (year_doy_correct n H0) as C. destruct (year_doy n) as [y d]. simpl.
  destruct C as (E & Hy & Hd). split; auto.
  destruct (Z_le_gt_dec y 9999); auto. exfalso.
  pose proof (days_before_year_mono 10000 y ltac:(lia)). lia.
Qed.

(** ** digits *)
Lemma digit_compare a b : 0 <= a < 10 -> 0 <= b < 10 -> Ascii.compare (digit a) (digit b) = Z.compare a b.
Proof.
  intros Ha Hb. unfold digit, Ascii.compare.
  rewrite !N_ascii_embedding by lia.
  destruct (Z.compare_spec a b).
  - subst. apply N.compare_refl.
  - apply N.compare_lt_iff. lia.
  - apply N.compare_gt_iff. lia.
Qed.

Lemma dec_length w n : String.length (dec w n) = w.
Proof. revert n; induction w; intros n; simpl; auto. rewrite length_append, IHw. simpl. lia. Qed.

Definition lex (a b : comparison) : comparison := match a with Eq => b | _ => a end.

Lemma compare_app a b c d : String.length a = String.length c ->
  String.compare (a ++ b) (c ++ d) = lex (String.compare a c) (String.compare b d).
Proof.
  revert c. induction a as [|x a IH]; intros [|y c]; simpl; intros H; try discriminate; auto.
  destruct (Ascii.compare x y); simpl; auto.
Qed.

Lemma dec_compare w : forall m n, 0 <= m < 10 ^ Z.of_nat w -> 0 <= n < 10 ^ Z.of_nat w ->
  String.compare (dec w m) (dec w n) = Z.compare m n.
Proof.
  induction w as [|w IH]; intros m n Hm Hn.
  - simpl in *. replace m with 0 by lia. replace n with 0 by lia. reflexivity.
  - rewrite Nat2Z.inj_succ, Z.pow_succ_r in Hm, Hn by lia.
    cbn [dec]. rewrite compare_app by now rewrite !dec_length.
    rewrite IH by lia.
    replace (String.compare (String (digit (m mod 10)) "") (String (digit (n mod 10)) ""))
      with (Z.compare (m mod 10) (n mod 10))
      by (simpl; rewrite digit_compare by lia; destruct (m mod 10 ?= n mod 10); reflexivity).
    destruct (Z.compare_spec (m / 10) (n / 10)); simpl.
    + destruct (Z.compare_spec (m mod 10) (n mod 10)); symmetry;
        [apply Z.compare_eq_iff|apply Z.compare_lt_iff|apply Z.compare_gt_iff]; lia.
    + symmetry. apply Z.compare_lt_iff. lia.
    + symmetry. apply Z.compare_gt_iff. lia.
Qed.

Lemma compare_const_app s a b : String.compare (s ++ a) (s ++ b) = String.compare a b.
Proof. rewrite compare_app by auto. now rewrite compare_refl. Qed.

Lemma lex_compare a b c d : (a = c -> True) ->
  lex (Z.compare a c) (Z.compare b d) = Eq <-> a = c /\ b = d.
Proof.
  intros _. destruct (Z.compare_spec a c); simpl; [rewrite Z.compare_eq_iff; tauto|..]; split; try discriminate; lia.
Qed.

(** mixed radix comparison: (hi, lo) pairs with lo in [0, k) *)
Lemma lex_radix k h1 l1 h2 l2 : 0 <= l1 < k -> 0 <= l2 < k ->
  lex (Z.compare h1 h2) (Z.compare l1 l2) = Z.compare (h1 * k + l1) (h2 * k + l2).
Proof.
  intros H1 H2. destruct (Z.compare_spec h1 h2); simpl.
  - subst. destruct (Z.compare_spec l1 l2); symmetry;
      [apply Z.compare_eq_iff|apply Z.compare_lt_iff|apply Z.compare_gt_iff]; lia.
  - symmetry. apply Z.compare_lt_iff. nia.
  - symmetry. apply Z.compare_gt_iff. nia.
Qed.

Lemma lex_assoc a b c : lex (lex a b) c = lex a (lex b c).
Proof. destruct a; reflexivity. Qed.

(** comparing (year, doy) is comparing day numbers *)
Lemma lex_year_doy m n : 0 <= m -> 0 <= n ->
  lex (Z.compare (fst (year_doy m)) (fst (year_doy n))) (Z.compare (snd (year_doy m)) (snd (year_doy n)))
  = Z.compare m n.
Proof.
  intros Hm Hn.
  pose proof (year_doy_correct m Hm) as Cm. pose proof (year_doy_lt m Hm) as Lm.
  pose proof (year_doy_correct n Hn) as Cn. pose proof (year_doy_lt n Hn) as Ln.
  destruct (year_doy m) as [y d], (year_doy n) as [y' d']. simpl.
  destruct Cm as (Em & _ & Dm), Cn as (En & _ & Dn).
  destruct (Z.compare_spec y y'); simpl.
  - subst y'. destruct (Z.compare_spec d d'); symmetry;
      [apply Z.compare_eq_iff|apply Z.compare_lt_iff|apply Z.compare_gt_iff]; lia.
  - pose proof (days_before_year_mono (y + 1) y' ltac:(lia)). symmetry. apply Z.compare_lt_iff. lia.
  - pose proof (days_before_year_mono (y' + 1) y ltac:(lia)). symmetry. apply Z.compare_gt_iff. lia.
Qed.

Lemma daynum_range t : time_ok t -> 0 <= daynum t < days_before_year 10000.
Proof. unfold time_ok, daynum. change day with 86400000000000. change (days_before_year 10000) with 3652059. unfold epoch_day. lia. Qed.

(** The textual order of formatted times is the order of times at 0.1 ms resolution. *)
Theorem format_compare a b : time_ok a -> time_ok b ->
  String.compare (format_fissures a) (format_fissures b) = Z.compare (tick a) (tick b).
Proof.
  intros Ha Hb. pose proof (daynum_range a Ha) as Ra. pose proof (daynum_range b Hb) as Rb.
  unfold format_fissures.
  assert (Da : 1 <= doy_of a <= 366).
  { unfold doy_of. pose proof (year_doy_correct (daynum a) ltac:(lia)). destruct (year_doy (daynum a)). simpl. tauto. }
  assert (Db : 1 <= doy_of b <= 366).
  { unfold doy_of. pose proof (year_doy_correct (daynum b) ltac:(lia)). destruct (year_doy (daynum b)). simpl. tauto. }
  pose proof (year_doy_bounds (daynum a) Ra) as Ya. pose proof (year_doy_bounds (daynum b) Rb) as Yb.
  fold (year_of a) in Ya. fold (year_of b) in Yb.
  assert (Ta : 0 <= a mod day < day) by (apply Z.mod_pos_bound; reflexivity).
  assert (Tb : 0 <= b mod day < day) by (apply Z.mod_pos_bound; reflexivity).
  change day with 86400000000000 in Ta, Tb.
  rewrite compare_app by now rewrite !dec_length. rewrite dec_compare by (change (10 ^ Z.of_nat 4) with 10000; lia).
  rewrite compare_app by now rewrite !dec_length. rewrite dec_compare by (change (10 ^ Z.of_nat 3) with 1000; lia).
  rewrite compare_const_app.
  change (3600 * sec) with 3600000000000. change (60 * sec) with 60000000000. change sec with 1000000000.
  change day with 86400000000000.
  rewrite compare_app by now rewrite !dec_length. rewrite dec_compare by (change (10 ^ Z.of_nat 2) with 100; lia).
  rewrite compare_app by now rewrite !dec_length. rewrite dec_compare by (change (10 ^ Z.of_nat 2) with 100; lia).
  rewrite compare_app by now rewrite !dec_length. rewrite dec_compare by (change (10 ^ Z.of_nat 2) with 100; lia).
  rewrite compare_const_app.
  rewrite compare_app by now rewrite !dec_length. rewrite dec_compare by (change (10 ^ Z.of_nat 4) with 10000; lia).
  rewrite compare_refl.
  rewrite <- lex_assoc. unfold year_of, doy_of. rewrite lex_year_doy by lia.
  set (ta := a mod 86400000000000) in *. set (tb := b mod 86400000000000) in *.
  replace (lex (ta mod 1000000000 / 100000 ?= tb mod 1000000000 / 100000) Eq)
    with (ta mod 1000000000 / 100000 ?= tb mod 1000000000 / 100000)
    by (now destruct (ta mod 1000000000 / 100000 ?= tb mod 1000000000 / 100000)).
  rewrite (lex_radix 10000) by lia. rewrite (lex_radix (60 * 10000)) by lia.
  rewrite (lex_radix (3600 * 10000)) by lia. rewrite (lex_radix (86400 * 10000)) by lia.
  unfold tick, daynum. change day with 86400000000000.
  assert (forall t, let x := t mod 86400000000000 in
    (t / 86400000000000 + epoch_day) * (86400 * 10000) + (x / 3600000000000 * (3600 * 10000) +
      (x / 60000000000 mod 60 * (60 * 10000) + (x / 1000000000 mod 60 * 10000 + x mod 1000000000 / 100000)))
    = t / 100000 + epoch_day * 864000000) as Hsum.
  { intros t x. subst x. unfold epoch_day. lia. }
  cbv zeta in Hsum. unfold ta, tb. rewrite !Hsum.
  destruct (Z.compare_spec (a / 100000) (b / 100000));
    [apply Z.compare_eq_iff|apply Z.compare_lt_iff|apply Z.compare_gt_iff]; lia.
Qed.

Corollary format_inj a b : time_ok a -> time_ok b ->
  (format_fissures a = format_fissures b <-> tick a = tick b).
Proof.
  intros Ha Hb. rewrite <- compare_eq, format_compare by auto. apply Z.compare_eq_iff.
Qed.

Lemma format_length t : String.length (format_fissures t) = 20%nat.
Proof. unfold format_fissures. rewrite !length_append, !dec_length. reflexivity. Qed.
