(** Facts about the string primitives of [Lib.Str]. *)
From Verif Require Import Lib.Base Lib.Str.
Local Open Scope string_scope.

(** ** Appending *)
Lemma append_nil_r s : s ++ "" = s.
Proof. induction s; simpl; congruence. Qed.
Lemma append_assoc a b c : (a ++ b) ++ c = a ++ (b ++ c).
Proof. induction a; simpl; congruence. Qed.
Lemma length_append a b : String.length (a ++ b) = (String.length a + String.length b)%nat.
Proof. induction a; simpl; congruence. Qed.
Lemma append_inj_l a b c : a ++ b = a ++ c -> b = c.
Proof. induction a; simpl; intros H; [exact H | injection H; auto]. Qed.
Lemma append_inj_len a b c d :
  String.length a = String.length c -> a ++ b = c ++ d -> a = c /\ b = d.
Proof.
  revert c; induction a; destruct c; simpl; intros HL H; try discriminate.
  - auto.
  - injection H as -> H. destruct (IHa c) as [-> ->]; auto.
Qed.

(** ** Order *)
Lemma compare_refl s : String.compare s s = Eq.
Proof.
  induction s; simpl; auto. unfold Ascii.compare. rewrite N.compare_refl. exact IHs.
Qed.
Lemma str_le_refl s : str_le s s = true.
Proof. unfold str_le, String.leb. rewrite compare_refl. reflexivity. Qed.
Lemma compare_eq a b : String.compare a b = Eq <-> a = b.
Proof. split. apply String.compare_eq_iff. intros ->. apply compare_refl. Qed.
Lemma compare_antisym a b : String.compare a b = CompOpp (String.compare b a).
Proof. apply String.compare_antisym. Qed.
Lemma str_le_total a b : str_le a b = true \/ str_le b a = true.
Proof.
  unfold str_le, String.leb. rewrite (compare_antisym b a).
  destruct (String.compare a b); simpl; auto.
Qed.
Lemma str_le_antisym a b : str_le a b = true -> str_le b a = true -> a = b.
Proof.
  unfold str_le, String.leb. rewrite (compare_antisym b a).
  destruct (String.compare a b) eqn:E; simpl; try discriminate.
  intros _ _. now apply compare_eq.
Qed.
Lemma ascii_compare_lt_trans a b c :
  Ascii.compare a b = Lt -> Ascii.compare b c = Lt -> Ascii.compare a c = Lt.
Proof. unfold Ascii.compare. rewrite !N.compare_lt_iff. lia. Qed.
Lemma ascii_compare_eq a b : Ascii.compare a b = Eq -> a = b.
Proof.
  unfold Ascii.compare. rewrite N.compare_eq_iff. intros H.
  rewrite <- (ascii_N_embedding a), <- (ascii_N_embedding b). congruence.
Qed.
Lemma compare_lt_trans a b c :
  String.compare a b = Lt -> String.compare b c = Lt -> String.compare a c = Lt.
Proof.
  revert b c; induction a as [|x a IH]; destruct b as [|y b], c as [|z c]; simpl; try discriminate; auto.
  destruct (Ascii.compare x y) eqn:E1; try discriminate;
  destruct (Ascii.compare y z) eqn:E2; try discriminate; intros H1 H2.
  - apply ascii_compare_eq in E1, E2; subst. unfold Ascii.compare; rewrite N.compare_refl. eauto.
  - apply ascii_compare_eq in E1; subst. now rewrite E2.
  - apply ascii_compare_eq in E2; subst. now rewrite E1.
  - now rewrite (ascii_compare_lt_trans _ _ _ E1 E2).
Qed.
Lemma str_le_trans a b c : str_le a b = true -> str_le b c = true -> str_le a c = true.
Proof.
  unfold str_le, String.leb.
  destruct (String.compare a b) eqn:E1; try discriminate;
  destruct (String.compare b c) eqn:E2; try discriminate; intros _ _.
  - apply compare_eq in E1, E2; subst. now rewrite compare_refl.
  - apply compare_eq in E1; subst. now rewrite E2.
  - apply compare_eq in E2; subst. now rewrite E1.
  - now rewrite (compare_lt_trans _ _ _ E1 E2).
Qed.
Lemma str_lt_iff a b : str_lt a b = true <-> str_le a b = true /\ a <> b.
Proof.
  unfold str_lt, str_le, String.ltb, String.leb.
  destruct (String.compare a b) eqn:E; split; try discriminate; intros; auto.
  - destruct H as [_ H]. apply compare_eq in E; contradiction.
  - split; auto. intros ->. rewrite compare_refl in E; discriminate.
  - now destruct H.
Qed.
Lemma str_lt_irrefl a : str_lt a a = false.
Proof. unfold str_lt, String.ltb. now rewrite compare_refl. Qed.
Lemma str_lt_trans a b c : str_lt a b = true -> str_lt b c = true -> str_lt a c = true.
Proof.
  unfold str_lt, String.ltb.
  destruct (String.compare a b) eqn:E1; try discriminate.
  destruct (String.compare b c) eqn:E2; try discriminate.
  now rewrite (compare_lt_trans _ _ _ E1 E2).
Qed.
Lemma str_lt_total a b : a <> b -> str_lt a b = true \/ str_lt b a = true.
Proof.
  intros H. rewrite !str_lt_iff. destruct (str_le_total a b); [left|right]; split; auto.
Qed.
Lemma str_le_lt_false a b : str_le a b = negb (str_lt b a).
Proof.
  unfold str_le, str_lt, String.leb, String.ltb. rewrite (compare_antisym b a).
  now destruct (String.compare a b).
Qed.

(** ** Characters, split and join *)
Lemma has_char_app c a b : has_char c (a ++ b) = has_char c a || has_char c b.
Proof. induction a; simpl; auto. rewrite IHa. now rewrite orb_assoc. Qed.

Lemma split_on_nonempty c s : split_on c s <> [].
Proof. destruct s; simpl; [|destruct (Ascii.eqb a c); [|destruct (split_on c s)]]; discriminate. Qed.

Lemma join_split c s : join (String c "") (split_on c s) = s.
Proof.
  induction s as [|a s IH]; simpl; auto.
  destruct (Ascii.eqb_spec a c) as [->|Hne].
  - pose proof (split_on_nonempty c s) as Hn. destruct (split_on c s) as [|h t]; [contradiction|].
    change (join (String c "") ("" :: h :: t)) with ("" ++ String c "" ++ join (String c "") (h :: t)).
    rewrite IH. reflexivity.
  - pose proof (split_on_nonempty c s) as Hn. destruct (split_on c s) as [|h t]; [contradiction|].
    destruct t; simpl in *; now rewrite IH.
Qed.

Lemma split_on_no c s : has_char c s = false -> split_on c s = [s].
Proof.
  induction s as [|a s IH]; simpl; auto. intros H. apply orb_false_iff in H as [H1 H2].
  rewrite H1, IH; auto.
Qed.

Lemma split_on_app c a b : has_char c a = false -> split_on c (a ++ String c b) = a :: split_on c b.
Proof.
  induction a as [|x a IH]; simpl; intros H.
  - now rewrite Ascii.eqb_refl.
  - apply orb_false_iff in H as [H1 H2]. rewrite H1, IH; auto.
Qed.

Lemma split_join c l :
  l <> [] -> Forall (fun s => has_char c s = false) l -> split_on c (join (String c "") l) = l.
Proof.
  intros Hn HF. induction HF as [|x l Hx HF IH]; [contradiction|].
  destruct l as [|y l].
  - simpl. now apply split_on_no.
  - change (join (String c "") (x :: y :: l)) with (x ++ String c (join (String c "") (y :: l))).
    rewrite split_on_app; auto. rewrite IH; auto. discriminate.
Qed.

Lemma is_prefix_iff p s : is_prefix p s = true <-> exists r, s = p ++ r.
Proof.
  revert s; induction p as [|a p IH]; intros s; simpl.
  - split; eauto.
  - destruct s as [|b s]; [split; [discriminate|intros [r H]; discriminate]|].
    rewrite andb_true_iff, IH, Ascii.eqb_eq. split.
    + intros [-> [r ->]]. eauto.
    + intros [r H]. injection H as -> ->. eauto.
Qed.

Lemma is_substr_iff p s : is_substr p s = true <-> exists a b, s = a ++ p ++ b.
Proof.
  induction s as [|c s IH]; cbn [is_substr]; rewrite orb_true_iff, is_prefix_iff.
  - split.
    + intros [[r H]|H]; [|discriminate]. exists "", r. exact H.
    + intros (a & b & H). left. destruct a; [eauto|discriminate].
  - rewrite IH. split.
    + intros [[r ->]|(a & b & ->)]; [exists "", r|exists (String c a), b]; reflexivity.
    + intros (a & b & H). destruct a as [|x a].
      * left. eauto.
      * right. injection H as -> ->. eauto.
Qed.

(** ** fnmatch *)
(** Declarative meaning of a token list. *)
Inductive gmatch : list tok -> string -> Prop :=
| gm_nil : gmatch [] ""
| gm_star ts a s : gmatch ts s -> gmatch (TStar :: ts) (a ++ s)
| gm_any ts c s : gmatch ts s -> gmatch (TAny :: ts) (String c s)
| gm_lit ts c s : gmatch ts s -> gmatch (TLit c :: ts) (String c s)
| gm_set ts c s neg rs :
    xorb neg (existsb (in_range c) rs) = true -> gmatch ts s ->
    gmatch (TSet neg rs :: ts) (String c s).

Lemma tmatch_star ts s :
  tmatch (TStar :: ts) s = true <-> exists a b, s = a ++ b /\ tmatch ts b = true.
Proof.
  induction s as [|c s IH].
  - simpl. rewrite orb_false_r. split.
    + intros H. exists "", "". auto.
    + intros (a & b & H1 & H2). destruct a; [|discriminate]. simpl in H1. now subst.
  - assert (E : tmatch (TStar :: ts) (String c s) = tmatch ts (String c s) || tmatch (TStar :: ts) s)
      by reflexivity.
    rewrite E, orb_true_iff, IH. split.
    + intros [H|(a & b & -> & H)]; [exists "", (String c s)|exists (String c a), b]; auto.
    + intros (a & b & H1 & H2). destruct a as [|x a].
      * left. simpl in H1. now subst.
      * right. injection H1 as -> ->. eauto.
Qed.

Lemma tmatch_iff ts s : tmatch ts s = true <-> gmatch ts s.
Proof.
  revert s; induction ts as [|t ts IH]; intros s.
  - simpl. destruct s; split; intros H; try discriminate; try constructor. inversion H.
  - destruct t.
    + rewrite tmatch_star. split.
      * intros (a & b & -> & H). constructor. now apply IH.
      * intros H. inversion H; subst. exists a, s0. split; auto. now apply IH.
    + simpl. destruct s; [split; [discriminate|inversion 1]|]. rewrite IH.
      split; [constructor; auto|inversion 1; auto].
    + simpl. destruct s; [split; [discriminate|inversion 1]|].
      rewrite andb_true_iff, IH, Ascii.eqb_eq. split.
      * intros [-> H]. now constructor.
      * inversion 1; auto.
    + cbn [tmatch]. destruct s; [split; [discriminate|inversion 1]|].
      rewrite andb_true_iff, IH. split.
      * intros [H1 H2]. now constructor.
      * inversion 1; auto.
Qed.

(** Characters after which parsing is unaffected by what follows. *)
Lemma parse_plain_app p q n :
  plain p = true ->
  parse_pat (String.length p + n) (p ++ q) = (map TLit (list_ascii_of_string p) ++ parse_pat n q)%list.
Proof.
  induction p as [|c p IH]; simpl; auto. intros H. apply andb_true_iff in H as [H1 H2].
  apply negb_true_iff, orb_false_iff in H1 as [H1 H3]. apply orb_false_iff in H1 as [H0 H1].
  rewrite H0, H1, H3. now rewrite IH.
Qed.

Lemma parse_plain p : plain p = true ->
  parse_pat (String.length p) p = map TLit (list_ascii_of_string p).
Proof.
  intros H. pose proof (parse_plain_app p "" 0 H) as E.
  rewrite append_nil_r, Nat.add_0_r in E. rewrite E. apply app_nil_r.
Qed.

Lemma gmatch_lits p ts s :
  gmatch (map TLit (list_ascii_of_string p) ++ ts) s <-> exists r, s = p ++ r /\ gmatch ts r.
Proof.
  revert s; induction p as [|c p IH]; intros s; simpl.
  - split; [intros H; exists s; auto | intros (r & -> & H); auto].
  - split.
    + intros H. inversion H; subst. apply IH in H3 as (r & -> & H'). exists r. auto.
    + intros (r & -> & H). simpl. constructor. apply IH. eauto.
Qed.

Lemma gmatch_nil s : gmatch [] s <-> s = "".
Proof. split; [inversion 1; auto | intros ->; constructor]. Qed.

Lemma fnmatch_plain s p : plain p = true -> fnmatch s p = String.eqb s p.
Proof.
  intros H. apply eq_true_iff_eq. unfold fnmatch. rewrite parse_plain by auto.
  rewrite tmatch_iff, String.eqb_eq. rewrite <- (app_nil_r (map _ _)), gmatch_lits.
  split.
  - intros (r & -> & Hr). apply gmatch_nil in Hr. subst. now rewrite append_nil_r.
  - intros ->. exists "". split; [now rewrite append_nil_r | constructor].
Qed.

(** Token semantics of "literal prefix, then pattern q". *)
Lemma fnmatch_prefix p q s : plain p = true ->
  (fnmatch s (p ++ q) = true <-> exists r, s = p ++ r /\ fnmatch r q = true).
Proof.
  intros H. unfold fnmatch. rewrite length_append, parse_plain_app by auto.
  rewrite tmatch_iff, gmatch_lits. split; intros (r & E & Hr); exists r; split; auto; now apply tmatch_iff.
Qed.

Lemma fnmatch_star q s :
  fnmatch s (String "*" q) = true <-> exists a b, s = a ++ b /\ fnmatch b q = true.
Proof. unfold fnmatch. cbn [String.length parse_pat]. apply tmatch_star. Qed.

Lemma fnmatch_any q s :
  fnmatch s (String "?" q) = true <-> exists c r, s = String c r /\ fnmatch r q = true.
Proof.
  unfold fnmatch. cbn [String.length parse_pat]. simpl.
  destruct s; split; try discriminate; eauto; intros (x & r & E & H); try discriminate.
  injection E as -> ->. auto.
Qed.

Lemma fnmatch_empty s : fnmatch s "" = true <-> s = "".
Proof. unfold fnmatch; simpl. destruct s; split; auto; discriminate. Qed.

Lemma fnmatch_star_all s : fnmatch s "*" = true.
Proof. apply fnmatch_star. exists s, "". split; [now rewrite append_nil_r|reflexivity]. Qed.

Lemma fnmatch_prefix_star p s : plain p = true -> fnmatch s (p ++ "*") = is_prefix p s.
Proof.
  intros H. apply eq_true_iff_eq. rewrite fnmatch_prefix, is_prefix_iff by auto. split.
  - intros (r & -> & _). eauto.
  - intros (r & ->). exists r. split; auto. apply fnmatch_star_all.
Qed.

Lemma plain_app a b : plain (a ++ b) = plain a && plain b.
Proof. induction a; simpl; auto. rewrite IHa. now rewrite andb_assoc. Qed.

Lemma plain_no_star s : plain s = true -> has_char "*" s = false.
Proof.
  induction s as [|c s IH]; cbn [plain has_char]; auto. intros H.
  apply andb_true_iff in H as [H1 H2]. rewrite IH by auto.
  apply negb_true_iff, orb_false_iff in H1 as [H1 _]. apply orb_false_iff in H1 as [H1 _].
  now rewrite H1.
Qed.

(** ** last_char / but_last *)
Lemma last_char_app s c : last_char (s ++ String c "") = Some c.
Proof. induction s as [|a s IH]; simpl; auto. destruct s; simpl in *; auto. Qed.
Lemma but_last_app s c : but_last (s ++ String c "") = s.
Proof. induction s as [|a s IH]; simpl; auto. destruct s; simpl in *; auto. f_equal; auto. Qed.
Lemma last_char_none s : last_char s = None <-> s = "".
Proof.
  induction s as [|a s IH]; simpl; [tauto|]. destruct s; [split; discriminate|].
  rewrite IH. split; discriminate.
Qed.
