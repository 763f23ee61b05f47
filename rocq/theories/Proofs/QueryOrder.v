(** The order in which a query names the two stations. *)
From Verif Require Import Lib.Base Lib.Str Lib.StrFacts Lib.Sorting Lib.Time Lib.TimeFacts Model.H5 Model.CorrTrace Model.CorrDB Model.Combos
  Spec.DBSpec Proofs.H5Facts Proofs.CorrDBFacts.
Local Open Scope nat_scope.
Local Open Scope string_scope.
#[local] Opaque format_fissures tick_text time_ok.

(** a network, station or channel code: no '.', no '-' *)
Definition code_ok (s : string) : Prop := name_ok s /\ has_char "." s = false /\ has_char "-" s = false.
Definition pair_name (a b : string) : string := a ++ "-" ++ b.

Definition dotted (n s c : string) : string := n ++ "." ++ s ++ "." ++ c.

Lemma split_pair a b : code_ok a -> code_ok b -> split_on "-" (pair_name a b) = [a; b].
Proof.
  intros (_ & _ & Ha) (_ & _ & Hb). unfold pair_name. change ("-" ++ b) with (String "-" b).
  rewrite split_on_app, split_on_no; auto.
Qed.
Lemma split_dotted n s c : code_ok n -> code_ok s -> code_ok c -> split_on "." (dotted n s c) = [n; s; c].
Proof.
  intros (_ & Hn & _) (_ & Hs & _) (_ & Hc & _). unfold dotted. change ("." ++ s ++ "." ++ c) with (String "." (s ++ String "." c)).
  rewrite !split_on_app, split_on_no; auto.
Qed.
Lemma dotted_inj n s c n' s' c' : code_ok n -> code_ok s -> code_ok c -> code_ok n' -> code_ok s' -> code_ok c' ->
  dotted n s c = dotted n' s' c' -> n = n' /\ s = s' /\ c = c'.
Proof.
  intros H1 H2 H3 H4 H5 H6 E. apply (f_equal (split_on ".")) in E. rewrite !split_dotted in E by auto. now injection E.
Qed.

Lemma sq_eval n1 s1 c1 n2 s2 c2 : code_ok n1 -> code_ok s1 -> code_ok c1 -> code_ok n2 -> code_ok s2 -> code_ok c2 ->
  sort_query (pair_name n1 n2) (pair_name s1 s2) (pair_name c1 c2) =
  if str_le (dotted n1 s1 c1) (dotted n2 s2 c2)
  then Ok (pair_name n1 n2, pair_name s1 s2, pair_name c1 c2)
  else Ok (pair_name n2 n1, pair_name s2 s1, pair_name c2 c1).
Proof.
  intros H1 H2 H3 H4 H5 H6. unfold sort_query. rewrite !split_pair by auto. cbn [zip3 map join].
  fold (dotted n1 s1 c1) (dotted n2 s2 c2). cbn [sort insert].
  destruct (str_le (dotted n1 s1 c1) (dotted n2 s2 c2)) eqn:E.
  - cbn [list_eqb]. now rewrite !String.eqb_refl.
  - cbn [list_eqb]. destruct (String.eqb_spec (dotted n2 s2 c2) (dotted n1 s1 c1)) as [E2|E2].
    + rewrite E2, str_le_refl in E. discriminate.
    + cbn [andb]. rewrite !split_dotted by auto. reflexivity.
Qed.

Lemma sq_sym n1 s1 c1 n2 s2 c2 : code_ok n1 -> code_ok s1 -> code_ok c1 -> code_ok n2 -> code_ok s2 -> code_ok c2 ->
  sort_query (pair_name n1 n2) (pair_name s1 s2) (pair_name c1 c2) = sort_query (pair_name n2 n1) (pair_name s2 s1) (pair_name c2 c1).
Proof.
  intros H1 H2 H3 H4 H5 H6. rewrite !sq_eval by auto.
  destruct (str_le (dotted n1 s1 c1) (dotted n2 s2 c2)) eqn:E1, (str_le (dotted n2 s2 c2) (dotted n1 s1 c1)) eqn:E2; auto.
  - pose proof (str_le_antisym _ _ E1 E2) as E. apply dotted_inj in E as (-> & -> & ->); auto.
  - destruct (str_le_total (dotted n1 s1 c1) (dotted n2 s2 c2)); congruence.
Qed.

Lemma get_sym f tag st et n1 s1 c1 n2 s2 c2 : code_ok n1 -> code_ok s1 -> code_ok c1 -> code_ok n2 -> code_ok s2 -> code_ok c2 ->
  get_data f (pair_name n1 n2) (pair_name s1 s2) (pair_name c1 c2) tag st et =
  get_data f (pair_name n2 n1) (pair_name s2 s1) (pair_name c2 c1) tag st et.
Proof. intros. unfold get_data. rewrite sq_sym; auto. Qed.

Lemma code_no_star a : code_ok a -> has_char "*" a = false.
Proof. intros ((_ & _ & H) & _). now apply plain_no_star. Qed.
Lemma remove_sym f tag st n1 s1 c1 n2 s2 c2 : code_ok n1 -> code_ok s1 -> code_ok c1 -> code_ok n2 -> code_ok s2 -> code_ok c2 ->
  remove_data f (pair_name n1 n2) (pair_name s1 s2) (pair_name c1 c2) tag st =
  remove_data f (pair_name n2 n1) (pair_name s2 s1) (pair_name c2 c1) tag st.
Proof.
  intros H1 H2 H3 H4 H5 H6. unfold remove_data. rewrite sq_sym; auto.
  assert (E : forall a b c a' b' c', code_ok a -> code_ok b -> code_ok c -> code_ok a' -> code_ok b' -> code_ok c' ->
            has_char "*" (pair_name a a' ++ pair_name b b' ++ pair_name c c') = false).
  { intros a b c a' b' c' Ha Hb Hc Ha' Hb' Hc'. unfold pair_name. rewrite !has_char_app.
    rewrite (code_no_star a), (code_no_star b), (code_no_star c), (code_no_star a'), (code_no_star b'), (code_no_star c') by auto. reflexivity. }
  rewrite !E by auto. reflexivity.
Qed.

(** the order in which correlations are stored agrees with the order of a query if the codes are equally long *)
Lemma str_le_lex a b c d : String.length a = String.length c -> str_le (a ++ b) (c ++ d) =
  match String.compare a c with Lt => true | Gt => false | Eq => str_le b d end.
Proof.
  intros H. unfold str_le, String.leb. rewrite compare_app by auto. unfold lex. now destruct (String.compare a c).
Qed.
Lemma order_agrees n1 s1 c1 n2 s2 c2 : String.length n1 = String.length n2 -> String.length s1 = String.length s2 ->
  str_le (n1 ++ s1 ++ c1) (n2 ++ s2 ++ c2) = str_le (dotted n1 s1 c1) (dotted n2 s2 c2).
Proof.
  intros Hn Hs. unfold dotted. rewrite !str_le_lex by auto. destruct (String.compare n1 n2); auto.
Qed.

Definition stored_names (n1 s1 c1 n2 s2 c2 : string) : string * string * string :=
  let '(nn, ss, cc) := sort_comb n1 s1 n2 s2 c1 c2 in
  (pair_name (fst nn) (snd nn), pair_name (fst ss) (snd ss), pair_name (fst cc) (snd cc)).

Lemma sq_stored n1 s1 c1 n2 s2 c2 : code_ok n1 -> code_ok s1 -> code_ok c1 -> code_ok n2 -> code_ok s2 -> code_ok c2 ->
  String.length n1 = String.length n2 -> String.length s1 = String.length s2 ->
  sort_query (pair_name n1 n2) (pair_name s1 s2) (pair_name c1 c2) = Ok (stored_names n1 s1 c1 n2 s2 c2).
Proof.
  intros H1 H2 H3 H4 H5 H6 Hn Hs. rewrite sq_eval by auto. unfold stored_names, sort_comb. cbv zeta.
  rewrite order_agrees by auto. now destruct (str_le _ _).
Qed.
Lemma name_ok_pair a b : name_ok a -> name_ok b -> name_ok (pair_name a b).
Proof.
  intros (A1 & A2 & A3) (B1 & B2 & B3). unfold pair_name. split; [|split].
  - destruct a; discriminate.
  - rewrite !has_char_app, A2, B2. reflexivity.
  - rewrite !plain_app, A3, B3. reflexivity.
Qed.
Lemma stored_canonical n1 s1 c1 n2 s2 c2 : code_ok n1 -> code_ok s1 -> code_ok c1 -> code_ok n2 -> code_ok s2 -> code_ok c2 ->
  String.length n1 = String.length n2 -> String.length s1 = String.length s2 ->
  let '(net, sta, cha) := stored_names n1 s1 c1 n2 s2 c2 in canonical net sta cha /\ name_ok net /\ name_ok sta /\ name_ok cha.
Proof.
  intros H1 H2 H3 H4 H5 H6 Hn Hs. pose proof (sq_stored n1 s1 c1 n2 s2 c2 H1 H2 H3 H4 H5 H6 Hn Hs) as E.
  pose proof (sq_stored n2 s2 c2 n1 s1 c1 H4 H5 H6 H1 H2 H3 (eq_sym Hn) (eq_sym Hs)) as E'.
  rewrite <- sq_sym in E' by auto. unfold canonical. unfold stored_names, sort_comb in *. cbv zeta in *.
  destruct (str_le (n1 ++ s1 ++ c1) (n2 ++ s2 ++ c2)); cbn [fst snd] in *.
  - split; [exact E|]. repeat split; try apply name_ok_pair; try apply H1; try apply H2; try apply H3; try apply H4; try apply H5; apply H6.
  - split; [now rewrite <- sq_sym by auto|]. repeat split; try apply name_ok_pair; try apply H1; try apply H2; try apply H3; try apply H4; try apply H5; apply H6.
Qed.

(** a pair is found whichever station is named first *)
Lemma found_either_order f m tag st et n1 s1 c1 n2 s2 c2 : Rep f m -> name_ok tag ->
  code_ok n1 -> code_ok s1 -> code_ok c1 -> code_ok n2 -> code_ok s2 -> code_ok c2 ->
  String.length n1 = String.length n2 -> String.length s1 = String.length s2 -> time_ok st -> time_ok et ->
  let '(net, sta, cha) := stored_names n1 s1 c1 n2 s2 c2 in
  let want := match m (mkKey tag net sta cha (tick st) (tick et)) with Some tr => Ok [tr] | None => Raise KeyError end in
  get_data f (pair_name n1 n2) (pair_name s1 s2) (pair_name c1 c2) tag (Some st) (Some et) = want /\
  get_data f (pair_name n2 n1) (pair_name s2 s1) (pair_name c2 c1) tag (Some st) (Some et) = want.
Proof.
  intros R Ht H1 H2 H3 H4 H5 H6 Hn Hs HS HE. pose proof (stored_canonical n1 s1 c1 n2 s2 c2 H1 H2 H3 H4 H5 H6 Hn Hs) as SC.
  pose proof (sq_stored n1 s1 c1 n2 s2 c2 H1 H2 H3 H4 H5 H6 Hn Hs) as SQ.
  rewrite <- (get_sym f tag (Some st) (Some et) n1 s1 c1 n2 s2 c2) by auto.
  destruct (stored_names n1 s1 c1 n2 s2 c2) as [[net sta] cha]. cbv zeta. destruct SC as (HC & A & B & C).
  assert (E : get_data f (pair_name n1 n2) (pair_name s1 s2) (pair_name c1 c2) tag (Some st) (Some et) = get_data f net sta cha tag (Some st) (Some et)).
  { unfold canonical in HC. unfold get_data. now rewrite SQ, HC. }
  rewrite E. rewrite (get_exact f m net sta cha tag st et R (conj Ht (conj A (conj B C))) HC HS HE). auto.
Qed.

(** remove_data with the stations in the other order *)
Lemma removed_either_order f m tag pat n1 s1 c1 n2 s2 c2 : Rep f m -> name_ok tag ->
  code_ok n1 -> code_ok s1 -> code_ok c1 -> code_ok n2 -> code_ok s2 -> code_ok c2 ->
  String.length n1 = String.length n2 -> String.length s1 = String.length s2 -> pattern_ok pat ->
  let '(net, sta, cha) := stored_names n1 s1 c1 n2 s2 c2 in
  let r := remove_data f (pair_name n1 n2) (pair_name s1 s2) (pair_name c1 c2) tag pat in
  remove_data f (pair_name n2 n1) (pair_name s2 s1) (pair_name c2 c1) tag pat = r /\
  r = remove_data f net sta cha tag pat.
Proof.
  intros R Ht H1 H2 H3 H4 H5 H6 Hn Hs HP. pose proof (stored_canonical n1 s1 c1 n2 s2 c2 H1 H2 H3 H4 H5 H6 Hn Hs) as SC.
  pose proof (sq_stored n1 s1 c1 n2 s2 c2 H1 H2 H3 H4 H5 H6 Hn Hs) as SQ.
  rewrite <- (remove_sym f tag pat n1 s1 c1 n2 s2 c2) by auto.
  destruct (stored_names n1 s1 c1 n2 s2 c2) as [[net sta] cha] eqn:ES. cbv zeta. destruct SC as (HC & A & B & C).
  split; auto. unfold canonical in HC. unfold remove_data. rewrite SQ, HC, (no_star_names net sta cha) by auto.
  replace (has_char "*" (pair_name n1 n2 ++ pair_name s1 s2 ++ pair_name c1 c2)) with false; auto.
  unfold pair_name. rewrite !has_char_app.
  rewrite (code_no_star n1), (code_no_star s1), (code_no_star c1), (code_no_star n2), (code_no_star s2), (code_no_star c2) by auto. reflexivity.
Qed.
