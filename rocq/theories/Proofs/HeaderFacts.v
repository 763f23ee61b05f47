(** Headers written to a file and read again. *)
From Coq Require Import QArith.
From Verif Require Import Lib.Base Lib.Str Lib.Time Lib.TimeFacts Model.HeaderIO Spec.HeaderIOSpec.
Local Open Scope Z_scope.
#[local] Ltac Zify.zify_post_hook ::= Z.div_mod_to_equations.

Lemma undigit_digit n : undigit (digit (n mod 10)) = Some (n mod 10).
Proof.
  assert (H : 0 <= n mod 10 < 10) by lia. set (d := n mod 10) in *. clearbody d.
  assert (C : d = 0 \/ d = 1 \/ d = 2 \/ d = 3 \/ d = 4 \/ d = 5 \/ d = 6 \/ d = 7 \/ d = 8 \/ d = 9) by lia.
  repeat (destruct C as [->|C]; [reflexivity|]). subst. reflexivity.
Qed.
Lemma app_assoc_s a b c : ((a ++ b) ++ c = a ++ (b ++ c))%string.
Proof. induction a as [|x a IH]; simpl; [reflexivity|now rewrite IH]. Qed.
Lemma take_dec_S w acc s : take_dec (S w) acc s = match take_dec w acc s with Some (a, String c r) => match undigit c with Some d => Some (10 * a + d, r) | None => None end | _ => None end.
Proof.
  revert acc s. induction w as [|w IH]; intros acc s.
  - destruct s as [|c r]; simpl; [reflexivity|]. destruct (undigit c); reflexivity.
  - change (take_dec (S (S w)) acc s) with (match s with String c r => match undigit c with Some d => take_dec (S w) (10 * acc + d) r | None => None end | EmptyString => None end).
    destruct s as [|c r]; simpl; [reflexivity|]. destruct (undigit c) as [d|]; [|reflexivity]. rewrite <- IH. reflexivity.
Qed.
Lemma take_dec_dec w n r : 0 <= n -> take_dec w 0 (dec w n ++ r)%string = Some (n mod 10 ^ Z.of_nat w, r).
Proof.
  revert n r. induction w as [|w IH]; intros n r N; [change (10 ^ Z.of_nat 0) with 1; now rewrite Z.mod_1_r|].
  rewrite take_dec_S. simpl dec. rewrite app_assoc_s. rewrite IH by (apply Z.div_pos; lia). cbn [append]. rewrite undigit_digit. do 2 f_equal.
  replace (10 ^ Z.of_nat (S w)) with (10 * 10 ^ Z.of_nat w) by (rewrite <- Z.pow_succ_r by lia; f_equal; lia).
  rewrite (Z.rem_mul_r n 10 (10 ^ Z.of_nat w)); [apply Z.add_comm|lia|apply Z.pow_pos_nonneg; lia].
Qed.
Lemma fields_of (y d h m s f : Z) : 0 <= y < 10000 -> 0 <= d < 1000 -> 0 <= h < 100 -> 0 <= m < 100 -> 0 <= s < 100 -> 0 <= f < 10000 ->
  fissures_fields (dec 4 y ++ dec 3 d ++ "T" ++ dec 2 h ++ dec 2 m ++ dec 2 s ++ "." ++ dec 4 f ++ "Z")%string
  = Some (y, d, ((h * 60 + m) * 60 + s) * sec + f * 100000).
Proof.
  intros Y D H M S F. unfold fissures_fields.
  rewrite take_dec_dec by lia. change (10 ^ Z.of_nat 4) with 10000. rewrite Z.mod_small by lia.
  rewrite take_dec_dec by lia. change (10 ^ Z.of_nat 3) with 1000. rewrite Z.mod_small by lia.
  cbn [append expect Ascii.eqb Bool.eqb].
  rewrite take_dec_dec by lia. change (10 ^ Z.of_nat 2) with 100. rewrite Z.mod_small by lia.
  rewrite take_dec_dec by lia. change (10 ^ Z.of_nat 2) with 100. rewrite Z.mod_small by lia.
  rewrite take_dec_dec by lia. change (10 ^ Z.of_nat 2) with 100. rewrite Z.mod_small by lia.
  cbn [append expect Ascii.eqb Bool.eqb].
  rewrite take_dec_dec by lia. change (10 ^ Z.of_nat 4) with 10000. rewrite Z.mod_small by lia.
  cbn [append expect Ascii.eqb Bool.eqb String.eqb]. reflexivity.
Qed.
Lemma time_parts t : time_ok t ->
  1 <= year_of t <= 9999 /\ 1 <= doy_of t <= 366 /\ daynum t = days_before_year (year_of t) + doy_of t - 1.
Proof.
  intros [A B]. unfold year_of, doy_of.
  assert (N0 : 0 <= daynum t) by (unfold daynum, day, sec, epoch_day in *; lia).
  assert (N1 : daynum t < days_before_year 10000).
  { unfold daynum. assert (t / day < days_before_year 10000 - epoch_day); [|lia].
    apply Z.div_lt_upper_bound; [unfold day, sec; lia|]. rewrite Z.mul_comm. exact B. }
  pose proof (year_doy_correct _ N0) as C. pose proof (year_doy_bounds _ (conj N0 N1)) as D.
  destruct (year_doy (daynum t)) as [y d]. simpl in *. lia.
Qed.
Lemma tod_parts x : 0 <= x < day ->
  0 <= x / (3600 * sec) < 24 /\ 0 <= x / (60 * sec) mod 60 < 60 /\ 0 <= x / sec mod 60 < 60 /\ 0 <= x mod sec / 100000 < 10000 /\
  ((x / (3600 * sec) * 60 + x / (60 * sec) mod 60) * 60 + x / sec mod 60) * sec + x mod sec / 100000 * 100000 = x / 100000 * 100000.
Proof. unfold day, sec. intros H. repeat split; lia. Qed.
Lemma day_tick t : t / 100000 * 100000 = t / day * day + t mod day / 100000 * 100000.
Proof. unfold day, sec. lia. Qed.

Lemma utc_format old t : time_ok t -> old && (doy_of t =? 360) = false -> utc old (format_fissures t) = Ok (tick t * 100000).
Proof.
  intros T O. destruct (time_parts t T) as (Y & D & N). assert (X : 0 <= t mod day < day) by (apply Z.mod_pos_bound; unfold day, sec; lia).
  destruct (tod_parts _ X) as (A1 & A2 & A3 & A4 & A5).
  unfold utc, format_fissures. rewrite fields_of by lia. rewrite O, A5. f_equal. unfold tick. rewrite (day_tick t). unfold daynum in N. f_equal. f_equal. lia.
Qed.
Lemma doy360 t : doy_of t = 360 -> substring 4 4 (format_fissures t) = "360T"%string.
Proof. intros E. unfold format_fissures. rewrite E. reflexivity. Qed.
Lemma set361 t : doy_of t = 360 -> set_char 6 "1" (format_fissures t) =
  (let tod := (t mod day)%Z in dec 4 (year_of t) ++ dec 3 361 ++ "T" ++
   dec 2 (tod / (3600 * sec))%Z ++ dec 2 (tod / (60 * sec) mod 60)%Z ++ dec 2 (tod / sec mod 60)%Z ++
   "." ++ dec 4 (tod mod sec / 100000)%Z ++ "Z")%string.
Proof. intros E. unfold format_fissures. rewrite E. reflexivity. Qed.
Lemma read_format old t : time_ok t -> read_time old (format_fissures t) = Ok (tick t * 100000).
Proof.
  intros T. unfold read_time. destruct (old && (doy_of t =? 360)) eqn:O; [|now rewrite utc_format].
  apply andb_prop in O as [-> E]. apply Z.eqb_eq in E.
  destruct (time_parts t T) as (Y & D & N). assert (X : 0 <= t mod day < day) by (apply Z.mod_pos_bound; unfold day, sec; lia).
  destruct (tod_parts _ X) as (A1 & A2 & A3 & A4 & A5).
  assert (U : utc true (format_fissures t) = Raise ValueError).
  { unfold utc, format_fissures. rewrite fields_of by lia. rewrite E. reflexivity. }
  rewrite U, (doy360 _ E). cbn [String.eqb Ascii.eqb Bool.eqb]. rewrite (set361 _ E). cbv zeta.
  unfold utc. rewrite fields_of by lia. cbn [andb Z.eqb Pos.eqb bind]. rewrite A5. f_equal. unfold tick. rewrite (day_tick t). unfold daynum in N. rewrite E in N.
  replace (days_before_year (year_of t) + 361 - 1 - epoch_day) with (t / day + 1) by (clear A1 A2 A3 A4 A5 X; set (q := t / day) in *; clearbody q; lia).
  clear. set (q := t / day). set (r := t mod day / 100000). clearbody q r. ring.
Qed.

(** ** whole headers *)
Lemma back_ok old e v : (forall t, snd e = HTime t -> time_ok t) ->
  back e = Some v -> exists a, to_attr (snd e) = Some a /\ from_attr old (fst e) a = Ok v.
Proof.
  destruct e as [k x]. unfold back, from_attr. cbn [fst snd]. change (existsb (String.eqb k) time_keys) with (is_time_key k). intros T H.
  destruct x as [t|s|q|l|l|]; cbn [to_attr]; destruct (is_time_key k) eqn:K; try discriminate H;
    try (injection H as <-; eexists; split; reflexivity).
  injection H as <-. exists (AText (format_fissures t)). split; [reflexivity|]. rewrite read_format by (now apply T). reflexivity.
Qed.
Lemma header_back old h : Forall well_typed h ->
  read_header old (convert_header h) = Ok (flat_map (fun e => match back e with Some v => [(fst e, v)] | None => [] end) h).
Proof.
  unfold read_header, convert_header. induction h as [|[k x] h IH]; intros W; [reflexivity|].
  inversion W as [|? ? W1 W2]; subst. specialize (IH W2). simpl flat_map.
  destruct W1 as [T K]. destruct (back (k, x)) as [v|] eqn:B.
  - destruct (back_ok old _ _ T B) as (a & A1 & A2). simpl in A1, A2. rewrite A1. simpl. rewrite A2. simpl.
    rewrite IH. reflexivity.
  - assert (X : x = HOther).
    { unfold back in B. simpl in *. destruct x; try reflexivity; destruct (is_time_key k) eqn:E; try discriminate B; exfalso; destruct (K eq_refl) as [C|[? C]]; discriminate C. }
    subst x. simpl. exact IH.
Qed.

Lemma plain_back h : Forall plain h ->
  flat_map (fun e => match back e with Some v => [(fst e, v)] | None => [] end) h = h.
Proof.
  induction 1 as [|[k x] h P _ IH]; [reflexivity|]. simpl. rewrite IH. unfold back. simpl.
  unfold plain in P. simpl in P. destruct x as [t|s|q|l|l|]; try (rewrite P; reflexivity); [|destruct P].
  destruct P as (K & T & M). rewrite K. simpl. do 3 f_equal. unfold tick. lia.
Qed.
Lemma plain_typed h : Forall plain h -> Forall well_typed h.
Proof.
  apply Forall_impl. intros [k x] P. unfold plain in P. split; simpl in *.
  - intros t ->. apply P.
  - intros K. destruct x; try congruence; [right; eauto|now left].
Qed.
Lemma header_plain old h : Forall plain h -> read_header old (convert_header h) = Ok h.
Proof. intros P. rewrite header_back by now apply plain_typed. now rewrite plain_back. Qed.
