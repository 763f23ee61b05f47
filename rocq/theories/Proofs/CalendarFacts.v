(** The calendar of Model.Archive and the adjacent file. *)
From Verif Require Import Lib.Base Lib.Str Lib.StrFacts Lib.Sorting Lib.Time Lib.TimeFacts Model.Archive Spec.ArchiveSpec.
Local Open Scope Z_scope.
#[local] Ltac Zify.zify_post_hook ::= Z.div_mod_to_equations.

Lemma year_length y : days_before_year (y + 1) - days_before_year y = if leap y then 366 else 365.
Proof.
  unfold days_before_year, leap.
  destruct (Z.eqb_spec (y mod 4) 0), (Z.eqb_spec (y mod 100) 0), (Z.eqb_spec (y mod 400) 0); cbn [andb orb negb]; lia.
Qed.
Lemma year_doy_unique y k : 1 <= y -> 0 <= k < days_before_year (y + 1) - days_before_year y ->
  year_doy (days_before_year y + k) = (y, k + 1).
Proof.
  intros Y K. assert (P : 0 <= days_before_year y) by (unfold days_before_year; lia).
  pose proof (year_doy_correct (days_before_year y + k) ltac:(lia)) as C.
  pose proof (year_doy_lt (days_before_year y + k) ltac:(lia)) as L.
  destruct (year_doy (days_before_year y + k)) as [y' d]. destruct C as (E & Y' & D).
  assert (y' = y).
  { destruct (Z_lt_le_dec y' y).
    - pose proof (days_before_year_mono (y' + 1) y ltac:(lia)). lia.
    - destruct (Z_lt_le_dec y y'); [|lia]. pose proof (days_before_year_mono (y + 1) y' ltac:(lia)). lia. }
  subst y'. f_equal. lia.
Qed.

(** finite checks of the month table *)
Definition month_ok (lp : bool) (k : nat) : bool :=
  let doy := Z.of_nat k in
  let '(m, d) := month_day_from 1 (month_lengths lp) doy in
  (1 <=? m) && (m <=? 12) && (1 <=? d) && (d <=? nth (Z.to_nat (m - 1)) (month_lengths lp) 0) &&
  (fold_right Z.add 0 (firstn (Z.to_nat (m - 1)) (month_lengths lp)) + d =? doy).
Lemma months_ok : forallb (month_ok true) (seq 1 366) = true /\ forallb (month_ok false) (seq 1 365) = true.
Proof. split; vm_compute; reflexivity. Qed.
Definition month_rt (lp : bool) (mk : nat) : bool :=
  let m := Z.of_nat mk in
  forallb (fun dk => let d := Z.of_nat dk in
    let '(m', d') := month_day_from 1 (month_lengths lp) (fold_right Z.add 0 (firstn (Z.to_nat (m - 1)) (month_lengths lp)) + d) in
    (m' =? m) && (d' =? d) &&
    (fold_right Z.add 0 (firstn (Z.to_nat (m - 1)) (month_lengths lp)) + d <=? if lp then 366 else 365))
    (seq 1 (Z.to_nat (nth (Z.to_nat (m - 1)) (month_lengths lp) 0))).
Lemma months_rt : forallb (month_rt true) (seq 1 12) = true /\ forallb (month_rt false) (seq 1 12) = true.
Proof. split; vm_compute; reflexivity. Qed.

Lemma month_day_spec (lp : bool) (doy m d : Z) : 1 <= doy <= (if lp then 366 else 365) ->
  month_day_from 1 (month_lengths lp) doy = (m, d) ->
  1 <= m <= 12 /\ 1 <= d <= nth (Z.to_nat (m - 1)) (month_lengths lp) 0 /\
  fold_right Z.add 0 (firstn (Z.to_nat (m - 1)) (month_lengths lp)) + d = doy.
Proof.
  intros H E. assert (O : month_ok lp (Z.to_nat doy) = true).
  { destruct months_ok as [A B]. rewrite forallb_forall in A, B. destruct lp; [apply A|apply B]; apply in_seq; lia. }
  unfold month_ok in O. rewrite Z2Nat.id in O by lia. rewrite E in O. cbv iota beta in O.
  rewrite !andb_true_iff, !Z.leb_le, Z.eqb_eq in O. lia.
Qed.
Lemma month_day_rt (lp : bool) (m d : Z) : 1 <= m <= 12 -> 1 <= d <= nth (Z.to_nat (m - 1)) (month_lengths lp) 0 ->
  let doy := fold_right Z.add 0 (firstn (Z.to_nat (m - 1)) (month_lengths lp)) + d in
  month_day_from 1 (month_lengths lp) doy = (m, d) /\ doy <= if lp then 366 else 365.
Proof.
  intros M D doy. assert (O : month_rt lp (Z.to_nat m) = true).
  { destruct months_rt as [A B]. rewrite forallb_forall in A, B. destruct lp; [apply A|apply B]; apply in_seq; lia. }
  unfold month_rt in O. rewrite Z2Nat.id in O by lia. rewrite forallb_forall in O.
  specialize (O (Z.to_nat d)). rewrite Z2Nat.id in O by lia. fold doy in O.
  assert (I : In (Z.to_nat d) (seq 1 (Z.to_nat (nth (Z.to_nat (m - 1)) (month_lengths lp) 0)))) by (apply in_seq; lia).
  specialize (O I). destruct (month_day_from 1 (month_lengths lp) doy) as [m' d'].
  rewrite !andb_true_iff, !Z.eqb_eq, Z.leb_le in O. destruct O as [[-> ->] L]. auto.
Qed.
Lemma before_nonneg lp n : 0 <= fold_right Z.add 0 (firstn n (month_lengths lp)).
Proof.
  unfold month_lengths. destruct lp; do 13 (destruct n as [|n]; [cbn; lia|]); cbn; lia.
Qed.

Lemma year_of_range t : time_ok t -> 1 <= year_of t <= 9999.
Proof. intros H. apply year_doy_bounds. now apply daynum_range. Qed.
Lemma doy_range t : time_ok t -> 1 <= doy_of t <= if leap (year_of t) then 366 else 365.
Proof.
  intros H. pose proof (daynum_range t H) as R. unfold doy_of, year_of.
  pose proof (year_doy_correct (daynum t) ltac:(lia)) as C. pose proof (year_doy_lt (daynum t) ltac:(lia)) as L.
  destruct (year_doy (daynum t)) as [y d]. cbn [fst snd]. destruct C as (E & Y & D). rewrite <- year_length. lia.
Qed.
Lemma month_day_range t : time_ok t -> 1 <= month_of t <= 12 /\ 1 <= dom_of t <= days_in_month (year_of t) (month_of t).
Proof.
  intros H. pose proof (doy_range t H) as D. unfold month_of, dom_of, days_in_month, month_day.
  destruct (month_day_from 1 (month_lengths (leap (year_of t))) (doy_of t)) as [m d] eqn:E. cbn [fst snd].
  apply month_day_spec in E; [tauto|exact D].
Qed.

Lemma at_date_ok y m d t : 1 <= m <= 12 -> forall t', at_date y m d t = Ok t' ->
  year_of t' = y /\ month_of t' = m /\ dom_of t' = d /\ t' mod day = t mod day.
Proof.
  intros M t' E. unfold at_date in E.
  destruct ((1 <=? d) && (d <=? days_in_month y m) && (1 <=? y) && (y <=? 9999)) eqn:C; [|discriminate].
  rewrite !andb_true_iff, !Z.leb_le in C. destruct C as [[[C1 C2] C3] C4]. injection E as <-.
  destruct (month_day_rt (leap y) m d M ltac:(split; [lia|exact C2])) as [R L].
  fold (days_before_month y m) in R, L.
  pose proof (before_nonneg (leap y) (Z.to_nat (m - 1))) as N. fold (days_before_month y m) in N.
  set (t' := (days_before_year y + days_before_month y m + d - 1 - epoch_day) * day + t mod day).
  assert (T : 0 <= t mod day < day) by (apply Z.mod_pos_bound; reflexivity).
  assert (DN : daynum t' = days_before_year y + (days_before_month y m + d - 1)).
  { unfold daynum, t'. rewrite Z.div_add_l by discriminate. rewrite Z.div_small by exact T. lia. }
  assert (YD : year_doy (daynum t') = (y, days_before_month y m + d)).
  { rewrite DN, year_doy_unique; [f_equal; lia|lia|]. rewrite year_length. lia. }
  assert (Y : year_of t' = y) by (unfold year_of; rewrite YD; reflexivity).
  assert (D : doy_of t' = days_before_month y m + d) by (unfold doy_of; rewrite YD; reflexivity).
  split; [exact Y|]. unfold month_of, dom_of, month_day. rewrite Y, D, R. cbn. repeat split.
  unfold t'. rewrite Z.add_comm, Z.mod_add by discriminate. apply Z.mod_mod. discriminate.
Qed.
Lemma at_date_raise y m d t e : at_date y m d t = Raise e -> e = ValueError.
Proof. unfold at_date. destruct (_ && _); congruence. Qed.
Lemma at_date_iff y m d t : (exists t', at_date y m d t = Ok t') <-> 1 <= d <= days_in_month y m /\ 1 <= y <= 9999.
Proof.
  unfold at_date. destruct ((1 <=? d) && (d <=? days_in_month y m) && (1 <=? y) && (y <=? 9999)) eqn:C.
  - rewrite !andb_true_iff, !Z.leb_le in C. split; [lia|eauto].
  - split; [intros [? ?]; discriminate|]. intros H.
    assert ((1 <=? d) && (d <=? days_in_month y m) && (1 <=? y) && (y <=? 9999) = true) by (rewrite !andb_true_iff, !Z.leb_le; lia).
    congruence.
Qed.

Lemma adj_month fs t inc p : time_ok t -> inc = 1 \/ inc = -1 -> last_indicator fs = Some p -> is_month_ind p = true ->
  adjacent_time fs t inc = at_date ((month_index t + inc - 1) / 12) ((month_index t + inc - 1) mod 12 + 1) (dom_of t) t.
Proof.
  intros T I L M. pose proof (month_day_range t T) as [MR _]. unfold adjacent_time.
  replace ((inc =? 1) || (inc =? -1)) with true by (destruct I; subst; reflexivity). cbn [negb]. rewrite L.
  unfold is_month_ind, mem_s in M. cbn [existsb] in M. rewrite !orb_true_iff, !String.eqb_eq in M.
  assert (E : forall A (x : result A) y1 y2 y3 y4 y5, (if mem_s p ["%H"; "%I"]%string then y1 else if mem_s p ["%p"]%string then y2
    else if mem_s p ["%a"; "%A"; "%w"; "%d"; "%j"; "%-j"]%string then y3 else if mem_s p ["%U"; "%W"]%string then y4
    else if mem_s p ["%b"; "%B"; "%m"]%string then x else y5) = x).
  { intros. destruct M as [->|[->|[->|M]]]; try reflexivity. discriminate. }
  rewrite E. unfold month_index.
  destruct (Z.eqb_spec (month_of t + inc) 0); [|destruct (Z.eqb_spec (month_of t + inc) 13)].
  - f_equal; lia.
  - f_equal; lia.
  - f_equal; lia.
Qed.

Lemma mem_in p l : mem_s p l = true <-> In p l.
Proof.
  unfold mem_s. rewrite existsb_exists. split.
  - intros (x & X & E). apply String.eqb_eq in E. congruence.
  - intros H. exists p. split; [exact H|apply String.eqb_refl].
Qed.

Lemma adjacent_period fs p t inc : time_ok t -> inc = 1 \/ inc = -1 -> last_indicator fs = Some p ->
  is_year_ind p = false -> forall k, period p t = Some k ->
  (forall t', adjacent_time fs t inc = Ok t' -> period p t' = Some (k + inc)) /\
  ((exists t', adjacent_time fs t inc = Ok t') <->
     (is_month_ind p = true -> month_has_day (month_index t + inc) (dom_of t) /\ 1 <= (month_index t + inc - 1) / 12 <= 9999)) /\
  (forall e, adjacent_time fs t inc = Raise e -> e = ValueError).
Proof.
  intros T I L Y k K. destruct (is_month_ind p) eqn:M.
  - rewrite (adj_month fs t inc p T I L M). split; [|split].
    + intros t' E. apply at_date_ok in E as (Ey & Em & _ & _); [|lia].
      assert (P : forall u, period p u = Some (month_index u)).
      { intros u. unfold is_month_ind in M. apply mem_in in M. destruct M as [<-|[<-|[<-|[]]]]; reflexivity. }
      rewrite P in *. injection K as <-. f_equal. unfold month_index at 1. rewrite Ey, Em. lia.
    + rewrite at_date_iff. unfold month_has_day. split; intros H; [intros _|specialize (H eq_refl)]; tauto.
    + intros e. apply at_date_raise.
  - unfold adjacent_time. replace ((inc =? 1) || (inc =? -1)) with true by (destruct I; subst; reflexivity). cbn [negb]. rewrite L.
    unfold period in K |- *. unfold is_month_ind in M. rewrite M in K |- *. unfold is_year_ind in Y. rewrite Y in K |- *.
    change (mem_s p ["%U"; "%W"]%string) with (String.eqb p "%U" || (String.eqb p "%W" || false)).
    change (mem_s p ["%U"]%string) with (String.eqb p "%U" || false) in *.
    change (mem_s p ["%W"]%string) with (String.eqb p "%W" || false) in *.
    change (3600 * sec) with 3600000000000 in *. change (12 * 3600 * sec) with 43200000000000 in *.
    change (7 * day) with 604800000000000 in *. change day with 86400000000000 in *.
    destruct (mem_s p ["%H"; "%I"]%string); [|destruct (mem_s p ["%p"]%string);
      [|destruct (mem_s p ["%a"; "%A"; "%w"; "%d"; "%j"; "%-j"]%string);
        [|destruct (String.eqb p "%U"); [|destruct (String.eqb p "%W"); [|discriminate]]]]];
      cbn [orb] in *; injection K as <-; (split; [intros t' E; injection E as <-; f_equal; destruct I; subst inc; lia|split; [split; [intros _ ?; discriminate|eauto]|intros; discriminate]]).
Qed.

Lemma adjacent_year fs p t inc : inc = 1 \/ inc = -1 -> last_indicator fs = Some p -> time_ok t ->
  is_year_ind p = true -> forall t', adjacent_time fs t inc = Ok t' -> year_of t' = year_of t - inc.
Proof.
  intros I L T Y t' E. unfold is_year_ind in Y. apply mem_in in Y.
  unfold adjacent_time in E. replace ((inc =? 1) || (inc =? -1)) with true in E by (destruct I; subst; reflexivity). cbn [negb] in E. rewrite L in E.
  pose proof (month_day_range t T) as [MR _].
  destruct Y as [<-|[<-|[]]]; cbn -[at_date] in E; apply at_date_ok in E; tauto.
Qed.
Lemma adjacent_unknown fs t inc : inc = 1 \/ inc = -1 ->
  (forall p, last_indicator fs = Some p -> forall u, period p u = None) -> adjacent_time fs t inc = Raise UnboundLocalError.
Proof.
  intros I H. unfold adjacent_time. replace ((inc =? 1) || (inc =? -1)) with true by (destruct I; subst; reflexivity). cbn [negb].
  destruct (last_indicator fs) as [p|]; [|reflexivity]. specialize (H p eq_refl t). unfold period in H.
  change (mem_s p ["%U"; "%W"]%string) with (String.eqb p "%U" || (String.eqb p "%W" || false)).
  change (mem_s p ["%U"]%string) with (String.eqb p "%U" || false) in *.
  change (mem_s p ["%W"]%string) with (String.eqb p "%W" || false) in *.
  destruct (mem_s p ["%H"; "%I"]%string); [discriminate|]. destruct (mem_s p ["%p"]%string); [discriminate|].
  destruct (mem_s p ["%a"; "%A"; "%w"; "%d"; "%j"; "%-j"]%string); [discriminate|].
  destruct (String.eqb p "%U"); [discriminate|]. destruct (String.eqb p "%W"); [discriminate|]. cbn [orb] in *.
  destruct (mem_s p ["%b"; "%B"; "%m"]%string); [discriminate|]. destruct (mem_s p ["%y"; "%Y"]%string); [discriminate|]. reflexivity.
Qed.
