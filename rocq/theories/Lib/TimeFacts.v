(** Characters of formatted times, and reading them back. *)
From Verif Require Import Lib.Base Lib.Str Lib.StrFacts Lib.Time.
Local Open Scope string_scope.

Fixpoint all_chars (p : ascii -> bool) (s : string) : bool :=
  match s with EmptyString => true | String c r => p c && all_chars p r end.

Lemma all_chars_app p a b : all_chars p (a ++ b) = all_chars p a && all_chars p b.
Proof. induction a; simpl; auto. now rewrite IHa, andb_assoc. Qed.

Lemma all_chars_has p s c : all_chars p s = true -> p c = false -> has_char c s = false.
Proof.
  induction s as [|a s IH]; simpl; auto. intros H Hc. apply andb_true_iff in H as [H1 H2].
  rewrite IH by auto. destruct (Ascii.eqb_spec a c); [congruence|reflexivity].
Qed.

Lemma all_chars_plain p s : all_chars p s = true -> p "*"%char = false -> p "?"%char = false -> p "["%char = false ->
  plain s = true.
Proof.
  intros H H1 H2 H3. induction s as [|a s IH]; simpl in *; auto. apply andb_true_iff in H as [Ha Hs].
  rewrite IH by auto. destruct (Ascii.eqb_spec a "*"); [congruence|]. destruct (Ascii.eqb_spec a "?"); [congruence|].
  destruct (Ascii.eqb_spec a "["); [congruence|reflexivity].
Qed.

Definition is_digit (c : ascii) : bool := ((48 <=? N_of_ascii c)%N && (N_of_ascii c <=? 57)%N).
Definition time_char (c : ascii) : bool :=
  is_digit c || Ascii.eqb c "T" || Ascii.eqb c "." || Ascii.eqb c "Z".

#[local] Ltac Zify.zify_post_hook ::= Z.div_mod_to_equations.

Lemma digit_is_digit n : is_digit (digit (n mod 10)) = true.
Proof.
  unfold is_digit, digit. rewrite N_ascii_embedding by lia.
  apply andb_true_iff. split; apply N.leb_le; lia.
Qed.

Lemma dec_digits w n : all_chars is_digit (dec w n) = true.
Proof.
  revert n; induction w; intros n; simpl; auto. rewrite all_chars_app, IHw. simpl. now rewrite digit_is_digit.
Qed.

Lemma all_chars_impl (p q : ascii -> bool) s : (forall c, p c = true -> q c = true) ->
  all_chars p s = true -> all_chars q s = true.
Proof.
  intros H. induction s as [|a s IH]; simpl; auto. intros E. apply andb_true_iff in E as [E1 E2].
  rewrite H, IH; auto.
Qed.

Lemma format_chars t : all_chars time_char (format_fissures t) = true.
Proof.
  assert (D : forall w n, all_chars time_char (dec w n) = true).
  { intros w n. apply (all_chars_impl is_digit); [|apply dec_digits]. intros c Hc. unfold time_char. now rewrite Hc. }
  unfold format_fissures. rewrite !all_chars_app, !D. reflexivity.
Qed.

Lemma format_no_char t c : time_char c = false -> has_char c (format_fissures t) = false.
Proof. apply all_chars_has, format_chars. Qed.
Lemma format_plain t : plain (format_fissures t) = true.
Proof. eapply all_chars_plain; [apply format_chars|..]; reflexivity. Qed.
Lemma format_nonempty t : format_fissures t <> "".
Proof. intros E. pose proof (format_length t) as L. rewrite E in L. discriminate. Qed.

(** ** reading a formatted time: [UTCDateTime(str)] on a fissures string *)
Definition undigit (c : ascii) : Z := Z.of_N (N_of_ascii c) - 48.
Fixpoint undec_acc (acc : Z) (s : string) : Z :=
  match s with EmptyString => acc | String c r => undec_acc (acc * 10 + undigit c) r end.
Definition undec (s : string) : Z := undec_acc 0 s.

Definition parse_fissures (s : string) : Z :=
  let y := undec (substring 0 4 s) in let d := undec (substring 4 3 s) in
  let hh := undec (substring 8 2 s) in let mm := undec (substring 10 2 s) in
  let ss := undec (substring 12 2 s) in let f := undec (substring 15 4 s) in
  (((days_before_year y + d - 1 - epoch_day) * 86400 + hh * 3600 + mm * 60 + ss) * sec + f * 100000)%Z.

Lemma undec_acc_app a s c : undec_acc a (s ++ String c "") = (undec_acc a s * 10 + undigit c)%Z.
Proof. revert a; induction s; intros a0; simpl; auto. Qed.

Lemma undec_dec w : forall n, (0 <= n < 10 ^ Z.of_nat w)%Z -> undec (dec w n) = n.
Proof.
  induction w as [|w IH]; intros n Hn.
  - simpl in *. unfold undec; simpl. lia.
  - rewrite Nat2Z.inj_succ, Z.pow_succ_r in Hn by lia. cbn [dec]. unfold undec in *. rewrite undec_acc_app, IH by lia.
    unfold undigit, digit. rewrite N_ascii_embedding by lia. lia.
Qed.

Lemma substring_app_skip a b n m : n = String.length a -> substring n m (a ++ b) = substring 0 m b.
Proof. intros ->. induction a as [|c a IH]; simpl; auto. Qed.
Lemma substring_app_take a b m : m = String.length a -> substring 0 m (a ++ b) = a.
Proof.
  intros ->. induction a as [|c a IH]; simpl; [destruct b; reflexivity|]. now rewrite IH.
Qed.
Lemma substring_skip_app a b n m : substring (String.length a + n) m (a ++ b) = substring n m b.
Proof. induction a as [|c a IH]; simpl; auto. Qed.

Lemma parse_format t : time_ok t -> parse_fissures (format_fissures t) = (tick t * 100000)%Z.
Proof.
  intros Ht. pose proof (daynum_range t Ht) as R.
  pose proof (year_doy_correct (daynum t) ltac:(lia)) as C. pose proof (year_doy_bounds (daynum t) R) as Y.
  assert (T : (0 <= t mod day < day)%Z) by (apply Z.mod_pos_bound; reflexivity).
  unfold parse_fissures. unfold format_fissures. fold (year_of t) in Y.
  assert (C' : daynum t = (days_before_year (year_of t) + doy_of t - 1)%Z /\ (1 <= doy_of t <= 366)%Z).
  { unfold year_of, doy_of. destruct (year_doy (daynum t)); simpl in *. tauto. }
  clear C. destruct C' as [C D]. unfold daynum in C.
  set (Dy := dec 4 (year_of t)). set (Dd := dec 3 (doy_of t)).
  set (Dh := dec 2 (t mod day / (3600 * sec))). set (Dm := dec 2 (t mod day / (60 * sec) mod 60)).
  set (Ds := dec 2 (t mod day / sec mod 60)). set (Df := dec 4 (t mod day mod sec / 100000)).
  assert (L1 : String.length Dy = 4) by apply dec_length. assert (L2 : String.length Dd = 3) by apply dec_length.
  assert (L3 : String.length Dh = 2) by apply dec_length. assert (L4 : String.length Dm = 2) by apply dec_length.
  assert (L5 : String.length Ds = 2) by apply dec_length. assert (L6 : String.length Df = 4) by apply dec_length.
  set (F := Dy ++ _).
  assert (SA : forall a b c n m, F = a ++ (b ++ c) -> n = String.length a -> m = String.length b -> substring n m F = b).
  { intros a b c n m E -> ->. rewrite E, <- (Nat.add_0_r (String.length a)), substring_skip_app. now apply substring_app_take. }
  rewrite (SA "" Dy (Dd ++ "T" ++ Dh ++ Dm ++ Ds ++ "." ++ Df ++ "Z")) by (auto; reflexivity).
  rewrite (SA Dy Dd ("T" ++ Dh ++ Dm ++ Ds ++ "." ++ Df ++ "Z")) by (auto; reflexivity).
  rewrite (SA (Dy ++ Dd ++ "T") Dh (Dm ++ Ds ++ "." ++ Df ++ "Z"))
    by (rewrite ?length_append, ?L1, ?L2, ?append_assoc; auto).
  rewrite (SA (Dy ++ Dd ++ "T" ++ Dh) Dm (Ds ++ "." ++ Df ++ "Z"))
    by (rewrite ?length_append, ?L1, ?L2, ?L3, ?append_assoc; auto).
  rewrite (SA (Dy ++ Dd ++ "T" ++ Dh ++ Dm) Ds ("." ++ Df ++ "Z"))
    by (rewrite ?length_append, ?L1, ?L2, ?L3, ?L4, ?append_assoc; auto).
  rewrite (SA (Dy ++ Dd ++ "T" ++ Dh ++ Dm ++ Ds ++ ".") Df "Z")
    by (rewrite ?length_append, ?L1, ?L2, ?L3, ?L4, ?L5, ?append_assoc; auto).
  unfold Dy, Dd, Dh, Dm, Ds, Df. change day with 86400000000000%Z in *.
  change (3600 * sec)%Z with 3600000000000%Z. change (60 * sec)%Z with 60000000000%Z. change sec with 1000000000%Z.
  set (x := (t mod 86400000000000)%Z) in *.
  rewrite !undec_dec by (cbn [Z.of_nat Pos.of_succ_nat Pos.succ]; change (10 ^ 4)%Z with 10000%Z; change (10 ^ 3)%Z with 1000%Z; change (10 ^ 2)%Z with 100%Z; lia).
  unfold tick, epoch_day in *. subst x. lia.
Qed.
