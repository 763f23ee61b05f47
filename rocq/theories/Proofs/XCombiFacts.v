From Verif Require Import Lib.Base Lib.Str Lib.StrFacts Lib.Sorting Model.Combos Model.Rerun Spec.ComboSpec Spec.DBSpec Spec.XCombiSpec
  Proofs.ComboFacts Proofs.CorrDBFacts.
From Coq Require Import Permutation.
Local Open Scope nat_scope.
Local Open Scope string_scope.

Definition tcombi (a b : trace) : string :=
  t_net a ++ "-" ++ t_net b ++ "." ++ t_sta a ++ "-" ++ t_sta b ++ "." ++ t_cha a ++ "-" ++ t_cha b.

Lemma prefix_refl_app p r : is_prefix p (p ++ r) = true.
Proof. apply is_prefix_iff. eauto. Qed.
Lemma prefix_app_same p a b : is_prefix (p ++ a) (p ++ b) = is_prefix a b.
Proof. induction p as [|c p IH]; simpl; auto. rewrite Ascii.eqb_refl. exact IH. Qed.

(** codes before a separator *)
Lemma prefix_sep c x y x' y' : has_char c x = false -> has_char c x' = false ->
  is_prefix (x ++ String c y) (x' ++ String c y') = String.eqb x x' && is_prefix y y'.
Proof.
  revert x'. induction x as [|a x IH]; intros [|b x'] H H'; cbn [append is_prefix String.eqb andb] in *.
  - now rewrite Ascii.eqb_refl.
  - cbn [has_char] in H'. apply orb_false_iff in H' as [H' _]. destruct (Ascii.eqb_spec c b) as [->|]; auto. rewrite Ascii.eqb_refl in H'. discriminate.
  - cbn [has_char] in H. apply orb_false_iff in H as [H _]. destruct (Ascii.eqb_spec a c) as [->|]; auto. discriminate.
  - cbn [has_char] in H, H'. apply orb_false_iff in H as [_ H]. apply orb_false_iff in H' as [_ H'].
    rewrite IH by auto. destruct (Ascii.eqb a b); auto.
Qed.
Lemma prefix_same_len x y r : String.length x = String.length y -> is_prefix x (y ++ r) = String.eqb x y.
Proof.
  revert y. induction x as [|a x IH]; intros [|b y] H; try discriminate; [reflexivity|]. cbn [append is_prefix String.eqb].
  injection H as H. rewrite IH by auto. destruct (Ascii.eqb a b); auto.
Qed.

Lemma seed_plain s : seed s -> plain s = true.
Proof. intros ((_ & _ & H) & _). exact H. Qed.
Lemma seed_dash s : seed s -> has_char "-" s = false.
Proof. intros (_ & _ & H). exact H. Qed.
Lemma seed_dot s : seed s -> has_char "." s = false.
Proof. intros (_ & H & _). exact H. Qed.

Lemma entry_plain e : seed_entry e -> plain (entry_text e) = true.
Proof.
  intros (H1 & H2 & H3 & H4 & H5). unfold entry_text. rewrite !plain_app, !(seed_plain (_ : string)) by assumption.
  rewrite (seed_plain (e_n2 e)), (seed_plain (e_s1 e)), (seed_plain (e_s2 e)) by assumption.
  destruct (e_cha e) as [[c1 c2]|]; [|reflexivity]. destruct H5. rewrite !plain_app, (seed_plain c1), (seed_plain c2) by assumption. reflexivity.
Qed.

(** "-" ++ x etc. in the shape expected by [prefix_sep] *)
Lemma dash x : "-" ++ x = String "-" x. Proof. reflexivity. Qed.
Lemma dot x : "." ++ x = String "." x. Proof. reflexivity. Qed.

(** the entry is a prefix of the name of the pair *)
Lemma entry_prefix e a b : seed_entry e -> seed_trace a -> seed_trace b ->
  is_prefix (entry_text e) (tcombi a b) =
  String.eqb (e_n1 e) (t_net a) && (String.eqb (e_n2 e) (t_net b) && (String.eqb (e_s1 e) (t_sta a) &&
  match e_cha e with
  | Some (c1, c2) => String.eqb (e_s2 e) (t_sta b) && (String.eqb c1 (t_cha a) && is_prefix c2 (t_cha b))
  | None => is_prefix (e_s2 e) (t_sta b ++ "." ++ t_cha a ++ "-" ++ t_cha b)
  end)).
Proof.
  intros (H1 & H2 & H3 & H4 & H5) (A1 & A2 & A3) (B1 & B2 & B3). unfold entry_text, tcombi.
  rewrite !dash, !dot. rewrite !prefix_sep by (auto using seed_dash, seed_dot).
  f_equal. f_equal. f_equal. destruct (e_cha e) as [[c1 c2]|]; [|now rewrite append_nil_r].
  destruct H5 as [H5 H6]. rewrite !dash, !dot, !prefix_sep by (auto using seed_dash, seed_dot). reflexivity.
Qed.

Lemma in_xcombis_iff es a b : Forall seed_entry es -> 
  (is_in_xcombis a b (map entry_text es) = true <->
   exists e, In e es /\ (is_prefix (entry_text e) (tcombi a b) = true \/ is_prefix (entry_text e) (tcombi b a) = true)).
Proof.
  intros HE. unfold is_in_xcombis. fold (tcombi a b). fold (tcombi b a). rewrite existsb_exists. split.
  - intros (x & Hx & H). apply in_map_iff in Hx as (e & <- & He). exists e. split; auto.
    rewrite Forall_forall in HE. rewrite !fnmatch_prefix_star in H by (apply entry_plain; auto). now apply orb_true_iff.
  - intros (e & He & H). exists (entry_text e). split; [now apply in_map|]. rewrite Forall_forall in HE.
    rewrite !fnmatch_prefix_star by (apply entry_plain; auto). now apply orb_true_iff.
Qed.

Lemma named_prefix e a b : seed_entry e -> seed_trace a -> seed_trace b -> names_in_order e a b -> is_prefix (entry_text e) (tcombi a b) = true.
Proof.
  intros HE HA HB (N1 & N2 & N3 & N4 & N5). rewrite entry_prefix by auto. rewrite N1, N2, N3, N4, !String.eqb_refl. cbn [andb].
  destruct (e_cha e) as [[c1 c2]|].
  - destruct N5 as [-> ->]. rewrite String.eqb_refl. cbn [andb]. rewrite <- (append_nil_r c2) at 2. apply prefix_refl_app.
  - apply prefix_refl_app.
Qed.
Lemma requested_in es e a b : Forall seed_entry es -> In e es -> seed_trace a -> seed_trace b -> names e a b ->
  is_in_xcombis a b (map entry_text es) = true.
Proof.
  intros HE He HA HB HN. apply in_xcombis_iff; auto. exists e. split; auto. rewrite Forall_forall in HE.
  destruct HN as [HN|HN]; [left|right]; apply named_prefix; auto.
Qed.
Lemma prefix_named e a b : seed_entry e -> seed_trace a -> seed_trace b -> same_length e b ->
  is_prefix (entry_text e) (tcombi a b) = true -> names_in_order e a b.
Proof.
  intros HE HA HB HL. rewrite entry_prefix by auto. rewrite !andb_true_iff, !String.eqb_eq.
  intros (N1 & N2 & N3 & N4). unfold names_in_order, same_length in *. rewrite <- N1, <- N2, <- N3.
  destruct (e_cha e) as [[c1 c2]|].
  - rewrite !andb_true_iff, !String.eqb_eq in N4. destruct N4 as (N4 & N5 & N6).
    rewrite <- (append_nil_r (t_cha b)), prefix_same_len, String.eqb_eq in N6 by auto. intuition congruence.
  - rewrite prefix_same_len, String.eqb_eq in N4 by auto. intuition congruence.
Qed.
Lemma in_xcombis_exact es a b : Forall seed_entry es -> seed_trace a -> seed_trace b ->
  Forall (fun e => same_length e a /\ same_length e b) es ->
  (is_in_xcombis a b (map entry_text es) = true <-> exists e, In e es /\ names e a b).
Proof.
  intros HE HA HB HL. split.
  - intros H. apply in_xcombis_iff in H as (e & He & H); auto. exists e. split; auto.
    rewrite Forall_forall in HE, HL. destruct (HL e He) as [La Lb].
    destruct H as [H|H]; [left|right]; apply prefix_named; auto.
  - intros (e & He & HN). eapply requested_in; eauto.
Qed.

(** ** the stations that are read *)
Lemma any_match_iff l p : any_match l p = true <-> exists x, In x l /\ fnmatch x p = true.
Proof.
  unfold any_match. split.
  - destruct (fnfilter l p) as [|x r] eqn:E; [discriminate|]. intros _. exists x.
    assert (H : In x (fnfilter l p)) by (rewrite E; now left). unfold fnfilter in H. now apply filter_In in H.
  - intros (x & Hx & H). assert (I : In x (fnfilter l p)) by (unfold fnfilter; now apply filter_In).
    destruct (fnfilter l p); [contradiction|reflexivity].
Qed.
Lemma fn_lit_star p q a r : plain p = true -> fnmatch r q = true -> fnmatch (p ++ a ++ r) (p ++ String "*" q) = true.
Proof.
  intros H1 H2. apply fnmatch_prefix; auto. exists (a ++ r). split; auto. apply fnmatch_star. eauto.
Qed.
Lemma first_kept es e : Forall seed_entry es -> In e es -> keep_station (map entry_text es) (e_n1 e, e_s1 e) = true.
Proof.
  intros HE He. unfold keep_station. cbn [fst snd]. apply orb_true_iff. left. apply any_match_iff. exists (entry_text e).
  split; [now apply in_map|]. rewrite Forall_forall in HE. destruct (HE e He) as (H1 & H2 & H3 & H4 & _). unfold entry_text.
  rewrite dash. change (e_n1 e ++ "-*." ++ e_s1 e ++ "-*") with (e_n1 e ++ "-" ++ String "*" ("." ++ e_s1 e ++ "-*")).
  rewrite <- (append_assoc (e_n1 e) "-"). change (String "-" ?x) with ("-" ++ x). rewrite <- (append_assoc (e_n1 e) "-").
  apply fn_lit_star; [rewrite plain_app, (seed_plain (e_n1 e)) by auto; reflexivity|].
  change ("-*") with ("-" ++ "*"). rewrite <- !append_assoc. 
  assert (P : plain (("." ++ e_s1 e) ++ "-") = true) by (rewrite !plain_app, (seed_plain (e_s1 e)) by auto; reflexivity).
  rewrite (append_assoc (("." ++ e_s1 e) ++ "-") (e_s2 e)).
  rewrite fnmatch_prefix_star by auto. apply prefix_refl_app.
Qed.
Lemma second_kept es e : Forall seed_entry es -> In e es -> e_cha e = None -> keep_station (map entry_text es) (e_n2 e, e_s2 e) = true.
Proof.
  intros HE He HC. unfold keep_station. cbn [fst snd]. apply orb_true_iff. right. apply any_match_iff. exists (entry_text e).
  split; [now apply in_map|]. rewrite Forall_forall in HE. destruct (HE e He) as (H1 & H2 & H3 & H4 & _). unfold entry_text. rewrite HC, append_nil_r.
  change ("*-" ++ e_n2 e ++ ".*-" ++ e_s2 e) with ("" ++ String "*" (("-" ++ e_n2 e ++ "." ++ String "*" ("-" ++ e_s2 e)))).
  change (e_n1 e ++ "-" ++ e_n2 e ++ "." ++ e_s1 e ++ "-" ++ e_s2 e) with ("" ++ e_n1 e ++ ("-" ++ e_n2 e ++ "." ++ e_s1 e ++ "-" ++ e_s2 e)).
  apply fn_lit_star; auto.
  rewrite <- !(append_assoc "-"), <- !(append_assoc ("-" ++ e_n2 e)).
  apply fn_lit_star; [rewrite !plain_app, (seed_plain (e_n2 e)) by auto; reflexivity|].
  rewrite fnmatch_plain by (rewrite plain_app, (seed_plain (e_s2 e)) by auto; reflexivity). apply String.eqb_refl.
Qed.

(** ** end to end *)
Lemma named_kept es a b : Forall seed_entry es -> Forall (fun e => e_cha e = None) es ->
  (exists e, In e es /\ names e a b) ->
  keep_station (map entry_text es) (t_net a, t_sta a) = true /\ keep_station (map entry_text es) (t_net b, t_sta b) = true.
Proof.
  intros HE HC (e & He & HN). rewrite Forall_forall in HC. specialize (HC e He).
  destruct HN as [(-> & -> & -> & -> & _)|(-> & -> & -> & -> & _)]; split;
    first [now apply first_kept | now apply second_kept].
Qed.

Lemma compare_nothing a b : compare_existing_data [] a b = false.
Proof. unfold compare_existing_data. destruct (sort_comb _ _ _ _ _ _) as [[nn ss] cc]. reflexivity. Qed.

Lemma pair_correlated_iff st es w c :
  Forall seed_trace st -> Forall seed_entry es -> Forall (fun e => e_cha e = None) es ->
  (forall e a, In e es -> In a st -> same_length e a) ->
  calc_cross_combis (read_stations (Some (map entry_text es)) st) [] "betweenStations" (Some (map entry_text es)) = Ok (w, c) ->
  forall a b, In a st -> In b st -> ~ same_station a b ->
  ((exists i j, In (i, j) c /\ ((nth_error w i = Some a /\ nth_error w j = Some b) \/ (nth_error w i = Some b /\ nth_error w j = Some a)))
   <-> exists e, In e es /\ names e a b).
Proof.
  intros HS HE HC HL H a b Ha Hb Hne. apply calc_exact in H as (HP & _ & _ & HX).
  rewrite Forall_forall in HS.
  assert (EX : forall x y, In x st -> In y st -> (is_in_xcombis x y (map entry_text es) = true <-> exists e, In e es /\ names e x y)).
  { intros x y Hx Hy. apply in_xcombis_exact; auto. apply Forall_forall. intros e He. split; apply HL; auto. }
  split.
  - intros (i & j & Hij & HN). apply HX in Hij as (x & y & Ex & Ey & _ & _ & Hal).
    specialize (Hal eq_refl _ eq_refl). destruct HN as [[E1 E2]|[E1 E2]]; rewrite Ex in E1; rewrite Ey in E2; injection E1 as ->; injection E2 as ->.
    + now apply EX.
    + apply EX in Hal as (e & He & HN); auto. exists e. split; auto. unfold names in *. tauto.
  - intros HR. destruct (named_kept es a b HE HC HR) as [Ka Kb].
    assert (Ia : In a w). { apply (Permutation_in _ (Permutation_sym HP)). unfold read_stations. apply filter_In. auto. }
    assert (Ib : In b w). { apply (Permutation_in _ (Permutation_sym HP)). unfold read_stations. apply filter_In. auto. }
    apply In_nth_error in Ia as [i Ei]. apply In_nth_error in Ib as [j Ej].
    assert (Hij : i <> j). { intros ->. rewrite Ei in Ej. injection Ej as ->. apply Hne. split; reflexivity. }
    destruct (Nat.lt_total i j) as [L|[L|L]]; [|contradiction|].
    + exists i, j. split; [|now left]. apply HX. exists a, b. split; auto. split; auto. split; [left; auto|].
      split; [apply compare_nothing|]. intros _ l [= <-]. now apply EX.
    + exists j, i. split; [|now right]. apply HX. exists b, a. split; auto. split; auto.
      split; [left; split; auto; split; auto; intros [X Y]; apply Hne; split; auto|].
      split; [apply compare_nothing|]. intros _ l [= <-]. apply EX; auto. destruct HR as (e & He & HN). exists e. split; auto. unfold names in *. tauto.
Qed.
