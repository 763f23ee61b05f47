(** The database refines a finite map (Spec/DBSpec.v). *)
From Verif Require Import Lib.Base Lib.Str Lib.StrFacts Lib.Sorting Lib.Time Lib.TimeFacts Model.H5 Model.CorrTrace
  Model.CorrDB Spec.DBSpec Proofs.H5Facts.
From Coq Require Import Sorted Permutation.
Local Open Scope nat_scope.
Local Open Scope string_scope.
#[local] Ltac Zify.zify_post_hook ::= Z.div_mod_to_equations.
#[local] Opaque format_fissures.

(** ** times *)
Lemma tick_mul s : tick (s * 100000) = s.
Proof. unfold tick. lia. Qed.
Lemma time_ok_file t : time_ok t -> time_ok (tick t * 100000).
Proof.
  unfold time_ok, tick. change day with 86400000000000%Z. change (days_before_year 10000) with 3652059%Z.
  unfold epoch_day. lia.
Qed.
Lemma format_tick t : time_ok t -> format_fissures t = tick_text (tick t).
Proof.
  intros H. unfold tick_text. apply format_inj; auto using time_ok_file. now rewrite tick_mul.
Qed.
Lemma tick_text_inj a b : time_ok (a * 100000) -> time_ok (b * 100000) -> tick_text a = tick_text b -> a = b.
Proof. intros Ha Hb H. unfold tick_text in H. rewrite format_inj in H by auto. now rewrite !tick_mul in H. Qed.
Lemma tick_text_name s : name_ok (tick_text s).
Proof.
  split; [apply format_nonempty|]. split; [now apply format_no_char|apply format_plain].
Qed.

#[local] Opaque tick_text time_ok.

(** ** paths *)
Definition kpath (k : key) : list string :=
  [k_tag k; k_net k; k_sta k; k_cha k; tick_text (k_st k); tick_text (k_et k)].

Lemma name_ok_ok s : name_ok s -> ok_name s.
Proof. intros (H1 & H2 & _). split; auto. Qed.
Lemma kpath_names k : valid_key k -> Forall name_ok (kpath k).
Proof.
  intros ((H1 & H2 & H3 & H4) & _). unfold kpath. repeat (constructor; auto using tick_text_name).
Qed.
Lemma list6_inj {A} (a b c d e f a' b' c' d' e' f' : A) : [a; b; c; d; e; f] = [a'; b'; c'; d'; e'; f'] ->
  a = a' /\ b = b' /\ c = c' /\ d = d' /\ e = e' /\ f = f'.
Proof. intros E. injection E. tauto. Qed.
Lemma kpath_inj k k' : valid_key k -> valid_key k' -> kpath k = kpath k' -> k = k'.
Proof.
  intros (_ & A & B) (_ & A' & B') E. destruct k as [t n s c st et], k' as [t' n' s' c' st' et'].
  unfold kpath in E. cbn [k_tag k_net k_sta k_cha k_st k_et] in *.
  apply list6_inj in E as (-> & -> & -> & -> & E1 & E2). f_equal; apply tick_text_inj; assumption.
Qed.
Lemma key_eqb_spec a b : reflect (a = b) (key_eqb a b).
Proof.
  destruct a as [t n s c st et], b as [t' n' s' c' st' et']; unfold key_eqb; cbn [k_tag k_net k_sta k_cha k_st k_et].
  destruct (String.eqb_spec t t'), (String.eqb_spec n n'), (String.eqb_spec s s'), (String.eqb_spec c c'),
    (Z.eqb_spec st st'), (Z.eqb_spec et et'); simpl; constructor; congruence.
Qed.

Definition slashed (l : list string) : string := cat (map (fun s => "/" ++ s) l).
Lemma slashed_join l : l <> [] -> slashed l = "/" ++ join "/" l.
Proof.
  unfold slashed. induction l as [|x l IH]; [congruence|]. intros _. destruct l as [|y l].
  - simpl. now rewrite append_nil_r.
  - cbn [map cat fold_right] in *. unfold cat in IH. rewrite IH by discriminate. cbn [join].
    now rewrite append_assoc.
Qed.
Lemma comps_slashed l : Forall ok_name l -> comps (slashed l) = l.
Proof.
  intros H. destruct l as [|x l]; [reflexivity|]. rewrite slashed_join by discriminate. now apply comps_join.
Qed.
Lemma slashed_app a b : slashed (a ++ b)%list = slashed a ++ slashed b.
Proof. unfold slashed. induction a; cbn [map app cat fold_right]; auto. unfold cat in IHa. now rewrite IHa, !append_assoc. Qed.
Lemma hierarchy_slashed tag net sta cha st et : hierarchy tag net sta cha st et = slashed [tag; net; sta; cha; st; et].
Proof. unfold hierarchy, slashed. cbn [map cat fold_right]. now rewrite append_nil_r, !append_assoc. Qed.
Lemma slashed4 tag net sta cha : "/" ++ tag ++ "/" ++ net ++ "/" ++ sta ++ "/" ++ cha = slashed [tag; net; sta; cha].
Proof. unfold slashed. cbn [map cat fold_right]. now rewrite append_nil_r, !append_assoc. Qed.
Lemma slashed5 tag net sta cha st : "/" ++ tag ++ "/" ++ net ++ "/" ++ sta ++ "/" ++ cha ++ "/" ++ st = slashed [tag; net; sta; cha; st].
Proof. unfold slashed. cbn [map cat fold_right]. now rewrite append_nil_r, !append_assoc. Qed.
Lemma trace_path_key tag tr : time_ok (c_start tr) -> time_ok (c_end tr) ->
  trace_path tag tr = slashed (kpath (key_of tag tr)).
Proof.
  intros H1 H2. unfold trace_path. rewrite hierarchy_slashed, (format_tick _ H1), (format_tick _ H2). reflexivity.
Qed.

(** ** every start time group holds a data set *)
Section Full.
  Context {D : Type}.
  Implicit Types n : node D.
  Fixpoint full (k : nat) n : Prop :=
    match k with
    | O => True
    | S O => match n with Group ch => ch <> [] | Data _ => True end
    | S k' => match n with Group ch => Forall (fun kv => full k' (snd kv)) ch | Data _ => True end
    end.
  Lemma full_step k ch : full (S (S k)) (Group ch) <-> Forall (fun kv => full (S k) (snd kv)) ch.
  Proof. reflexivity. Qed.
  Lemma full_child k ch key (c : node D) : full (S (S k)) (Group ch) -> dget ch key = Some c -> full (S k) c.
  Proof. intros H E. apply (proj1 (full_step _ _)) in H. rewrite Forall_forall in H. apply dget_in in E. exact (H _ E). Qed.
  Lemma kput_nonempty (ch : list (string * node D)) k v : kput ch k v <> [].
  Proof. destruct ch as [|[k' v'] ch]; simpl; [discriminate|]. destruct (String.eqb k k'); [discriminate|]. destruct (str_lt k k'); discriminate. Qed.
  Lemma create_step (ch : list (string * node D)) key key2 p d : create (Group ch) (key :: key2 :: p) d =
    match @create D (match dget ch key with Some c => c | None => Group [] end) (key2 :: p) d with
    | Some c' => Some (Group (kput ch key c')) | None => None end.
  Proof. reflexivity. Qed.
  Lemma delete_step (ch : list (string * node D)) key key2 p : delete (Group ch) (key :: key2 :: p) =
    match dget ch key with
    | Some c => match @delete D c (key2 :: p) with Some c' => Some (Group (kput ch key c')) | None => None end
    | None => None end.
  Proof. reflexivity. Qed.
  (** the node at which we create need not be full itself (it may be a new empty group) *)
  Lemma create_full k : forall n p d n', length p = S k -> create n p d = Some n' ->
    (full (S k) n \/ n = Group []) -> full (S k) n'.
  Proof.
    induction k as [|k IH]; intros n p d n' HL H HF.
    - destruct p as [|key [|]]; try discriminate. destruct n as [|ch]; [discriminate|]. cbn [create] in H.
      destruct (dget ch key); [discriminate|]. injection H as <-. simpl. apply kput_nonempty.
    - destruct p as [|key [|key2 p]]; try discriminate. destruct n as [|ch]; [discriminate|].
      injection HL as HL. rewrite create_step in H.
      remember (match dget ch key with Some c => c | None => Group [] end) as c eqn:Ec.
      destruct (create c (key2 :: p) d) as [c'|] eqn:Ecr; [|discriminate]. injection H as <-.
      assert (HF' : Forall (fun kv => full (S k) (snd kv)) ch).
      { destruct HF as [HF|HF]; [now apply full_step|]. injection HF as ->. constructor. }
      apply (proj2 (full_step _ _)). apply kput_forall; auto. simpl.
      apply (IH _ _ _ _ (f_equal S HL : length (key2 :: p) = S k) Ecr). destruct (dget ch key) eqn:Eg; subst c; auto.
      left. rewrite Forall_forall in HF'. apply dget_in in Eg. exact (HF' _ Eg).
  Qed.
  Lemma delete_full k : forall n p n', length p < S k -> delete n p = Some n' -> full (S k) n -> full (S k) n'.
  Proof.
    induction k as [|k IH]; intros n p n' HL H HF.
    - destruct p; [destruct n; discriminate|simpl in HL; lia].
    - destruct p as [|key [|key2 p]]; (destruct n as [|ch]; [discriminate|]); apply (proj1 (full_step _ _)) in HF;
        [discriminate|cbn [delete] in H|rewrite delete_step in H].
      + destruct (dget ch key); [|discriminate]. injection H as <-. apply (proj2 (full_step _ _)). now apply ddel_forall.
      + destruct (dget ch key) as [c|] eqn:Eg; [|discriminate].
        destruct (delete c (key2 :: p)) as [c'|] eqn:Ed; [|discriminate]. injection H as <-.
        apply (proj2 (full_step _ _)). apply kput_forall; auto. simpl. apply (IH c (key2 :: p) c' ltac:(simpl in HL |- *; lia) Ed).
        rewrite Forall_forall in HF. apply dget_in in Eg. exact (HF _ Eg).
  Qed.
  Lemma full_lookup k : forall n p m, full (S k) n -> length p = k -> lookup n p = Some m -> full 1 m.
  Proof.
    induction k as [|k IH]; intros n p m HF HL H.
    - destruct p; [|discriminate]. injection H as <-. exact HF.
    - destruct p as [|key p]; [discriminate|]. injection HL as HL. destruct n as [|ch]; [discriminate|].
      cbn [lookup] in H. destruct (dget ch key) as [c|] eqn:Eg; [|discriminate].
      apply (IH c p m); auto. eapply full_child; eauto.
  Qed.
End Full.

(** ** the refinement relation *)
Record Rep (f : file) (m : db) : Prop := {
  rep_good : good 6 f;
  rep_full : full 6 f;
  rep_keys : forall p d, contents f p = Some d -> exists k, valid_key k /\ p = kpath k;
  rep_val : forall k, valid_key k -> contents f (kpath k) = m k;
  rep_dom : forall k, m k <> None -> valid_key k }.

Lemma rep_empty : Rep empty_file db_empty.
Proof.
  split.
  - apply good_empty.
  - simpl. constructor.
  - intros [|k p] d H; simpl in H; discriminate.
  - reflexivity.
  - intros k H. now elim H.
Qed.

Lemma key_of_valid tag tr : names_ok tag (c_net tr) (c_sta tr) (c_cha tr) -> time_ok (c_start tr) -> time_ok (c_end tr) ->
  valid_key (key_of tag tr).
Proof. intros H1 H2 H3. split; [exact H1|]. split; apply time_ok_file; assumption. Qed.

Lemma rep_lookup f m k : Rep f m -> valid_key k ->
  lookup f (kpath k) = match m k with Some d => Some (Data d) | None => None end.
Proof.
  intros R Hk. pose proof (rep_val _ _ R k Hk) as E. unfold contents in E.
  destruct (lookup f (kpath k)) as [n|] eqn:El; [|now rewrite <- E].
  pose proof (good_lookup 6 f _ _ (rep_good _ _ R) El) as [_ G]. cbn [kpath length Nat.sub good] in G.
  destruct G as [d ->]. now rewrite <- E.
Qed.

Lemma rep_add f m tr tag : Rep f m -> valid_op (Add tr tag) -> Rep (add_correlation f [tr] tag) (db_add m tr tag).
Proof.
  intros R (HN & HS & HE). pose proof (key_of_valid _ _ HN HS HE) as HV. set (k0 := key_of tag tr) in *.
  cbn [add_correlation fold_left]. unfold add_one. rewrite trace_path_key by auto. fold k0.
  rewrite comps_slashed by (eapply Forall_impl; [intros a; apply name_ok_ok|apply kpath_names; auto]).
  pose proof (rep_lookup _ _ _ R HV) as El. pose proof (create_iff 6 f (kpath k0) (stored tr) (rep_good _ _ R) eq_refl ltac:(lia)) as CI.
  destruct (create f (kpath k0) (stored tr)) as [f'|] eqn:Ec.
  - assert (E0 : m k0 = None).
    { destruct (m k0); auto. exfalso. assert (Some f' = None) by (apply CI; congruence). discriminate. }
    pose proof (create_lookup 6 f (kpath k0) _ _ (rep_good _ _ R) eq_refl Ec) as CL.
    assert (VAL : forall k, valid_key k -> contents f' (kpath k) = db_add m tr tag k).
    { intros k Hk. rewrite CL. unfold db_add. fold k0.
      destruct (path_eqb_spec (kpath k) (kpath k0)) as [E|E].
      - apply kpath_inj in E; auto. subst k. destruct (key_eqb_spec k0 k0); [|congruence]. now rewrite E0.
      - destruct (key_eqb_spec k k0) as [->|]; [congruence|]. apply (rep_val _ _ R k Hk). }
    split; auto.
    + apply (create_good 6 _ (kpath k0) _ _ (rep_good _ _ R) eq_refl Ec).
    + apply (create_full 5 _ (kpath k0) _ _ eq_refl Ec). left. apply (rep_full _ _ R).
    + intros p d H. rewrite CL in H. destruct (path_eqb_spec p (kpath k0)) as [->|]; [eauto|].
      now apply (rep_keys _ _ R p d).
    + intros k H. unfold db_add in H. fold k0 in H. destruct (key_eqb_spec k k0) as [E|E]; [now rewrite E|]. now apply (rep_dom _ _ R).
  - assert (E0 : m k0 <> None).
    { intros E. rewrite E in El. destruct CI as [CI _]. now apply CI. }
    assert (VAL : forall k, db_add m tr tag k = m k).
    { intros k. unfold db_add. fold k0. destruct (key_eqb_spec k k0) as [E|E]; auto. rewrite E. now destruct (m k0). }
    split; try apply R.
    + intros k Hk. rewrite VAL. now apply (rep_val _ _ R).
    + intros k H. rewrite VAL in H. now apply (rep_dom _ _ R).
Qed.

(** deleting a path of at most five components *)
Lemma rep_delete f m p f' m' : Rep f m -> delete f p = Some f' -> length p < 6 ->
  (forall k, valid_key k -> m' k = if has_prefix p (kpath k) then None else m k) ->
  (forall k, m' k <> None -> m k <> None) -> Rep f' m'.
Proof.
  intros R Ed HL Hm Hd. pose proof (delete_lookup 6 f p f' (rep_good _ _ R) Ed) as DL.
  split.
  - eapply delete_good; eauto. apply R.
  - eapply (delete_full 5); eauto. apply R.
  - intros q d H. rewrite DL in H. destruct (has_prefix p q); [discriminate|]. eapply rep_keys; eauto.
  - intros k Hk. rewrite DL, Hm by auto. destruct (has_prefix p (kpath k)); auto. now apply (rep_val _ _ R).
  - intros k H. apply (rep_dom _ _ R). auto.
Qed.
(** a path that is not there: nothing below it *)
Lemma rep_absent f m p k : Rep f m -> lookup f p = None -> valid_key k -> has_prefix p (kpath k) = true -> m k = None.
Proof.
  intros R H Hk Hp. apply has_prefix_iff in Hp as [r Er]. pose proof (rep_lookup _ _ _ R Hk) as E.
  rewrite Er, lookup_app, H in E. destruct (m k); [discriminate|reflexivity].
Qed.
Lemma rep_ext f m m' : Rep f m -> (forall k, valid_key k -> m' k = m k) -> (forall k, m' k <> None -> valid_key k) -> Rep f m'.
Proof.
  intros R H Hd. split; try apply R; auto.
  intros k Hk. rewrite H by auto. now apply (rep_val _ _ R).
Qed.

(** ** remove_data *)
Definition sel_names (net sta cha tag : string) (k : key) : bool :=
  String.eqb (k_tag k) tag && String.eqb (k_net k) net && String.eqb (k_sta k) sta && String.eqb (k_cha k) cha.

Lemma prefix4 net sta cha tag k : has_prefix [tag; net; sta; cha] (kpath k) = sel_names net sta cha tag k.
Proof.
  unfold sel_names. cbn [has_prefix kpath]. rewrite andb_true_r.
  rewrite (String.eqb_sym tag), (String.eqb_sym net), (String.eqb_sym sta), (String.eqb_sym cha).
  now rewrite <- !andb_assoc.
Qed.
Lemma prefix5 net sta cha tag s k : has_prefix [tag; net; sta; cha; s] (kpath k) =
  sel_names net sta cha tag k && String.eqb s (tick_text (k_st k)).
Proof.
  rewrite <- prefix4. cbn [has_prefix kpath]. now rewrite !andb_true_r, !andb_assoc.
Qed.

Lemma has_char_cat c l : has_char c (cat l) = existsb (has_char c) l.
Proof. induction l; simpl; auto. now rewrite has_char_app, IHl. Qed.
Lemma plain_no c s : plain s = true -> (c = "*" \/ c = "?" \/ c = "[")%char -> has_char c s = false.
Proof.
  induction s as [|a s IH]; cbn [plain has_char]; auto. intros H Hc. apply andb_true_iff in H as [H1 H2].
  rewrite IH by auto. destruct (Ascii.eqb_spec a c) as [->|]; [|reflexivity].
  destruct Hc as [->|[->| ->]]; discriminate.
Qed.
Lemma plain_iff s : plain s = true <-> has_char "*" s = false /\ has_char "?" s = false /\ has_char "[" s = false.
Proof.
  split; [intros H; repeat split; apply plain_no; auto|].
  induction s as [|a s IH]; cbn [plain has_char]; auto. intros (A & B & C).
  apply orb_false_iff in A as [A1 A2], B as [B1 B2], C as [C1 C2]. rewrite A1, B1, C1. simpl. auto.
Qed.

Lemma has_char_slashed c l : c <> "/"%char -> has_char c (slashed l) = existsb (has_char c) l.
Proof.
  intros Hc. unfold slashed. rewrite has_char_cat. induction l as [|x l IH]; cbn [map existsb]; auto. rewrite IH.
  cbn [append has_char]. destruct (Ascii.eqb_spec "/" c); [congruence|reflexivity].
Qed.
Lemma existsb_none {A} (f : A -> bool) l : Forall (fun x => f x = false) l -> existsb f l = false.
Proof. induction 1 as [|x l H HF IH]; simpl; auto. now rewrite H, IH. Qed.
Lemma wild_slashed l : Forall name_ok l -> wild (slashed l) = false.
Proof.
  intros H. unfold wild. rewrite !has_char_slashed by discriminate.
  rewrite !existsb_none; auto; eapply Forall_impl; try exact H; intros s (_ & _ & Hs); apply plain_no; auto.
Qed.

Lemma split_slashed l : Forall ok_name l -> split_on "/" (slashed l) = "" :: l.
Proof.
  intros H. destruct l as [|x l]; [reflexivity|]. rewrite slashed_join by discriminate. cbn [append].
  change (split_on "/" (String "/" (join "/" (x :: l)))) with ("" :: split_on "/" (join "/" (x :: l))).
  f_equal. apply split_join; [discriminate|]. eapply Forall_impl; [|exact H]. intros s [_ Hs]; exact Hs.
Qed.
Lemma strip_stars_id s l : s <> "*" -> strip_stars (s :: l) = s :: l.
Proof. intros H. cbn [strip_stars]. destruct (String.eqb_spec s "*"); [congruence|reflexivity]. Qed.
Lemma join_slashed l : join "/" ("" :: l) = slashed l.
Proof. destruct l as [|x l]; [reflexivity|]. now rewrite slashed_join by discriminate. Qed.
Lemma ok_star : ok_name "*".
Proof. split; [discriminate|reflexivity]. Qed.

Lemma name_not_star s : name_ok s -> s <> "*".
Proof. intros (_ & _ & H) ->. discriminate. Qed.

Lemma strip_hier tag net sta cha st : names_ok tag net sta cha -> ok_name st ->
  strip_trailing_stars (hierarchy tag net sta cha st "*") =
  if String.eqb st "*" then slashed [tag; net; sta; cha] else slashed [tag; net; sta; cha; st].
Proof.
  intros (H1 & H2 & H3 & H4) Hst. unfold strip_trailing_stars. rewrite hierarchy_slashed, split_slashed.
  - cbn [rev app strip_stars]. change (String.eqb "*" "*") with true. cbv iota.
    destruct (String.eqb st "*").
    + destruct (String.eqb_spec cha "*"); [exfalso; eapply name_not_star; eauto|].
      cbn [rev app]. apply join_slashed.
    + cbn [rev app]. apply join_slashed.
  - repeat (constructor; auto using name_ok_ok, ok_star).
Qed.

(** ** patterns *)
Definition enc (s : string) : string := if String.eqb s "*" then "*" else "/" ++ s.
Definition starts_slash (s : string) : Prop := s = "" \/ exists r, s = String "/" r.

Lemma rss_plain s r : has_char "/" s = false -> starts_slash r -> replace_slash_star (s ++ r) = s ++ replace_slash_star r.
Proof.
  intros H Hr. induction s as [|a s IH]; [reflexivity|]. cbn [append has_char] in *.
  apply orb_false_iff in H as [H1 H2]. cbn [replace_slash_star]. rewrite H1. now rewrite IH.
Qed.
Lemma rss_nostar_hd s r : has_char "/" s = false -> s <> "" -> (forall x, s <> String "*" x) -> starts_slash r ->
  replace_slash_star ("/" ++ s ++ r) = "/" ++ s ++ replace_slash_star r.
Proof.
  intros H Hs Hh Hr. destruct s as [|a s]; [congruence|]. cbn [append replace_slash_star].
  change (Ascii.eqb "/" "/") with true. cbv iota.
  destruct (Ascii.eqb_spec a "*") as [->|Ha]; [now elim (Hh s)|].
  f_equal. exact (rss_plain (String a s) r H Hr).
Qed.
Lemma starts_slash_slashed l : starts_slash (slashed l).
Proof. destruct l as [|x l]; [now left|right]. eexists. reflexivity. Qed.
Lemma rss_slashed l : Forall field_ok l -> replace_slash_star (slashed l) = cat (map enc l).
Proof.
  induction 1 as [|s l H HF IH]; [reflexivity|].
  assert (E : slashed (s :: l) = "/" ++ s ++ slashed l) by (unfold slashed; cbn [map cat fold_right]; now rewrite append_assoc).
  rewrite E. cbn [map cat fold_right]. unfold enc at 1. destruct H as [->|H].
  - change (String.eqb "*" "*") with true. cbv iota. cbn [append replace_slash_star].
    change (Ascii.eqb "/" "/") with true. change (Ascii.eqb "*" "*") with true. cbv iota. now rewrite IH.
  - destruct (String.eqb_spec s "*") as [->|]; [exfalso; eapply name_not_star; eauto|].
    destruct H as (H1 & H2 & H3). rewrite rss_nostar_hd; auto using starts_slash_slashed.
    + rewrite IH. now rewrite append_assoc.
    + intros x ->. discriminate.
Qed.

(** the pattern of remove_data: prefix and a start time pattern *)
Lemma rss_last pre pat : Forall name_ok pre -> has_char "/" pat = false -> pat <> "" ->
  replace_slash_star (slashed pre ++ "/" ++ pat) =
  slashed pre ++ (match pat with String "*" r => pat | _ => "/" ++ pat end).
Proof.
  intros H Hp Hn. induction H as [|s l H HF IH].
  - unfold slashed. cbn [map cat fold_right append]. destruct pat as [|a pat]; [congruence|].
    cbn [has_char] in Hp. apply orb_false_iff in Hp as [Hp1 Hp2].
    assert (R : replace_slash_star pat = pat).
    { pose proof (rss_plain pat "" Hp2 (or_introl eq_refl)) as R. now rewrite !append_nil_r in R. }
    destruct (Ascii.eqb_spec a "*") as [->|Ha].
    + cbn [replace_slash_star]. change (Ascii.eqb "/" "/") with true. change (Ascii.eqb "*" "*") with true. cbv iota. now rewrite R.
    + cbn [replace_slash_star]. change (Ascii.eqb "/" "/") with true. cbv iota.
      destruct (Ascii.eqb_spec a "*"); [congruence|]. rewrite Hp1, R.
      destruct a as [b0 b1 b2 b3 b4 b5 b6 b7]; destruct b0, b1, b2, b3, b4, b5, b6, b7; try reflexivity. congruence.
  - assert (E : slashed (s :: l) = "/" ++ s ++ slashed l) by (unfold slashed; cbn [map cat fold_right]; now rewrite append_assoc).
    rewrite E. destruct H as (H1 & H2 & H3). rewrite !append_assoc. rewrite rss_nostar_hd; auto.
    + rewrite IH. reflexivity.
    + intros x ->. discriminate.
    + destruct (starts_slash_slashed l) as [->|[r ->]]; right; eexists; reflexivity.
Qed.

Lemma plain_slashed l : Forall name_ok l -> plain (slashed l) = true.
Proof.
  intros H. apply plain_iff. rewrite !has_char_slashed by discriminate.
  rewrite !existsb_none; auto; eapply Forall_impl; try exact H; intros s (_ & _ & Hs); apply plain_no; auto.
Qed.


Lemma fn_slash_head pat s : has_char "/" pat = false -> has_char "?" pat = false -> has_char "[" pat = false ->
  fnmatch (String "/" s) pat = true -> fnmatch s pat = true.
Proof.
  intros H1 H2 H3. revert s. induction pat as [|c pat IH]; intros s Hm.
  - apply fnmatch_empty in Hm. discriminate.
  - cbn [has_char] in *. apply orb_false_iff in H1 as [H1 H1'], H2 as [H2 H2'], H3 as [H3 H3'].
    destruct (Ascii.eqb_spec c "*") as [->|Hc].
    + apply fnmatch_star in Hm as (a & b & E & Hm). apply fnmatch_star. destruct a as [|c a].
      * simpl in E. subst b. exists "", s. split; auto.
      * injection E as <- ->. eauto.
    + assert (P : plain (String c "") = true) by (cbn [plain]; destruct (Ascii.eqb_spec c "*"); [congruence|]; rewrite H2, H3; reflexivity).
      change (String c pat) with (String c "" ++ pat) in Hm. apply fnmatch_prefix in Hm as (r & E' & _); auto.
      simpl in E'. injection E' as <- _. discriminate.
Qed.
Lemma star_slash pat s : has_char "/" pat = false -> has_char "?" pat = false -> has_char "[" pat = false ->
  fnmatch (String "/" s) (String "*" pat) = fnmatch s (String "*" pat).
Proof.
  intros H1 H2 H3. apply eq_true_iff_eq. split.
  - apply fn_slash_head; cbn [has_char]; auto.
  - rewrite !fnmatch_star. intros (a & b & -> & Hm). exists (String "/" a), b. auto.
Qed.

Lemma remove_pattern_match pre pat sst : Forall name_ok pre -> pattern_ok pat ->
  fnmatch (slashed (pre ++ [sst])%list) (replace_slash_star (slashed (pre ++ [pat])%list)) = fnmatch sst pat.
Proof.
  intros Hp (P1 & P2 & P3 & P4). rewrite !slashed_app.
  assert (E : forall s, slashed [s] = "/" ++ s) by (intros s; unfold slashed; cbn [map cat fold_right]; apply append_nil_r).
  rewrite !E, rss_last by auto. apply eq_true_iff_eq. rewrite fnmatch_prefix by (apply plain_slashed; auto).
  assert (S : forall q, (exists r, slashed pre ++ "/" ++ sst = slashed pre ++ r /\ fnmatch r q = true) <-> fnmatch ("/" ++ sst) q = true).
  { intros q. split; [|eauto]. intros (r & Er & Hm). now apply append_inj_l in Er as ->. }
  rewrite S. clear S. destruct pat as [|a pat]; [congruence|].
  cbn [has_char] in *. apply orb_false_iff in P2 as [P2 P2'], P3 as [P3 P3'], P4 as [P4 P4'].
  destruct (Ascii.eqb_spec a "*") as [->|Ha].
  - cbv iota. cbn [append]. rewrite star_slash; auto. reflexivity.
  - replace (match String a pat with String "*" _ => String a pat | _ => "/" ++ String a pat end)
      with ("/" ++ String a pat)
      by (destruct a as [b0 b1 b2 b3 b4 b5 b6 b7]; destruct b0, b1, b2, b3, b4, b5, b6, b7; try reflexivity; congruence).
    change ("/" ++ String a pat) with ("/" ++ String a pat). rewrite fnmatch_prefix by reflexivity. split.
    + intros (r & Er & Hm). injection Er as ->. exact Hm.
    + intros Hm. exists sst. auto.
Qed.

(** ** remove_data refines db_remove *)
Definition is_starpat (pat : string) : bool := has_char "*" pat.

Lemma no_star_names net sta cha : name_ok net -> name_ok sta -> name_ok cha -> has_char "*" (net ++ sta ++ cha) = false.
Proof.
  intros (_ & _ & A) (_ & _ & B) (_ & _ & C). rewrite !has_char_app.
  rewrite !plain_no; auto.
Qed.

Lemma replace_none s : has_char "?" s = false -> replace_char "?" "*" s = s.
Proof.
  induction s as [|a s IH]; cbn [has_char replace_char]; auto. intros H. apply orb_false_iff in H as [H1 H2].
  rewrite H1, IH; auto.
Qed.

Lemma db_remove_eq m net sta cha tag sel k : db_remove m net sta cha tag sel k =
  if sel_names net sta cha tag k && sel (k_st k) then None else m k.
Proof. reflexivity. Qed.
Lemma db_remove_dom m net sta cha tag sel k : db_remove m net sta cha tag sel k <> None -> m k <> None.
Proof. rewrite db_remove_eq. destruct (_ && _); congruence. Qed.

Lemma db_remove_valid f m net sta cha tag sel k : Rep f m -> db_remove m net sta cha tag sel k <> None -> valid_key k.
Proof. intros R H. apply (rep_dom _ _ R). eapply db_remove_dom; eauto. Qed.

(** the start times listed for a channel *)
Lemma starttimes_eq f net sta tag cha : name_ok cha -> names_ok tag net sta cha ->
  get_available_starttimes f net sta tag cha =
  match lookup f [tag; net; sta; cha] with Some n => Ok [(cha, keys n)] | None => Ok [] end.
Proof.
  intros Hc (H1 & H2 & H3 & _). unfold get_available_starttimes. destruct Hc as (C1 & C2 & C3).
  rewrite plain_no by auto. cbn [negb]. rewrite slashed4. unfold at_path.
  rewrite comps_slashed by (repeat (constructor; auto using name_ok_ok); split; auto). reflexivity.
Qed.

Lemma remove_ok f m net sta cha tag pat : Rep f m -> names_ok tag net sta cha -> canonical net sta cha -> pattern_ok pat ->
  Rep (match remove_data f net sta cha tag pat with Ok f' => f' | Raise _ => f end)
      (db_remove m net sta cha tag (fun s => fnmatch (tick_text s) pat)).
Proof.
  intros R HN HC HP. pose proof HN as (H1 & H2 & H3 & H4). pose proof HP as (P1 & P2 & P3 & P4).
  assert (NN : Forall name_ok [tag; net; sta; cha]) by (repeat constructor; auto; apply HN).
  assert (OP : ok_name pat) by (split; auto).
  unfold remove_data. rewrite no_star_names by auto. unfold canonical in HC. rewrite HC. cbn [bind].
  rewrite strip_hier by auto.
  destruct (String.eqb_spec pat "*") as [->|Hns].
  - (* the whole channel *)
    rewrite wild_slashed by auto. cbn [negb]. unfold delete_path.
    rewrite comps_slashed by (eapply Forall_impl; [|exact NN]; intros a; apply name_ok_ok).
    assert (M : forall k, db_remove m net sta cha tag (fun s => fnmatch (tick_text s) "*") k =
                          if has_prefix [tag; net; sta; cha] (kpath k) then None else m k).
    { intros k. rewrite db_remove_eq, prefix4, fnmatch_star_all, andb_true_r. reflexivity. }
    destruct (delete f [tag; net; sta; cha]) as [f'|] eqn:Ed.
    + eapply rep_delete; eauto using db_remove_dom; simpl; lia.
    + apply (delete_iff 6) in Ed; [|apply R|discriminate]. eapply rep_ext; eauto using db_remove_valid.
      intros k Hk. rewrite M. destruct (has_prefix _ (kpath k)) eqn:E; auto.
      symmetry. eapply rep_absent; eauto.
  - destruct (has_char "*" pat) eqn:Est.
    + (* wildcard in the start time *)
      assert (W : wild (slashed [tag; net; sta; cha; pat]) = true).
      { unfold wild. rewrite has_char_slashed by discriminate. cbn [existsb]. rewrite Est, !orb_true_r. reflexivity. }
      rewrite W. cbn [negb]. rewrite replace_none
        by (rewrite has_char_slashed by discriminate; cbn [existsb]; rewrite P3;
            destruct H1 as (_ & _ & Q1), H2 as (_ & _ & Q2), H3 as (_ & _ & Q3), H4 as (_ & _ & Q4);
            rewrite !(plain_no "?") by auto; reflexivity).
      rewrite starttimes_eq by auto.
      destruct (lookup f [tag; net; sta; cha]) as [n|] eqn:El.
      * cbn [bind dget]. rewrite String.eqb_refl.
        pose proof (good_lookup 6 f _ _ (rep_good _ _ R) El) as [_ G]. cbn [length Nat.sub] in G.
        destruct G as (ch & -> & Hs & HF). cbn [keys].
        (* every listed start time has the form tick_text s *)
        assert (LST : forall x, In x (dkeys ch) -> name_ok x).
        { intros x Hx. apply key_dget in Hx as [c Hc].
          assert (L5 : lookup f ([tag; net; sta; cha] ++ [x]) = Some c) by (rewrite lookup_app, El; simpl; now rewrite Hc).
          pose proof (good_lookup 6 f _ _ (rep_good _ _ R) L5) as [_ G]. cbn [length Nat.sub app] in G.
          destruct G as (ch2 & -> & Hs2 & HF2).
          pose proof (full_lookup 5 f ([tag; net; sta; cha] ++ [x])%list _ (rep_full _ _ R) eq_refl L5) as FU. cbn [full] in FU.
          destruct ch2 as [|[e nd] ch2]; [congruence|]. inversion HF2 as [|? ? G2 _]. subst. simpl in G2. destruct G2 as [d ->].
          assert (L6 : contents f (([tag; net; sta; cha] ++ [x]) ++ [e])%list = Some d)
            by (unfold contents; rewrite lookup_app, L5; simpl; now rewrite String.eqb_refl).
          destruct (rep_keys _ _ R _ _ L6) as (k & Hk & Ek). cbn [app kpath] in Ek. apply list6_inj in Ek as (_ & _ & _ & _ & -> & _).
          apply tick_text_name. }
        (* fold over any list of start times *)
        assert (FOLD : forall l f0 m0, Rep f0 m0 -> (forall x, In x l -> name_ok x) ->
          Rep (fold_left (fun f sst =>
                 let sub := "/" ++ tag ++ "/" ++ net ++ "/" ++ sta ++ "/" ++ cha ++ "/" ++ sst in
                 if fnmatch sub (replace_slash_star (slashed [tag; net; sta; cha; pat]))
                 then match delete_path f sub with Some f' => f' | None => f end else f) l f0)
              (fun k => if sel_names net sta cha tag k && existsb (fun x => fnmatch x pat && String.eqb x (tick_text (k_st k))) l
                        then None else m0 k)).
        { induction l as [|x l IH]; intros f0 m0 R0 Hl.
          - cbn [fold_left existsb]. eapply rep_ext; eauto; intros k; rewrite andb_false_r; auto. apply (rep_dom _ _ R0).
          - cbn [fold_left]. cbv zeta. rewrite slashed5.
            change [tag; net; sta; cha; x] with ([tag; net; sta; cha] ++ [x])%list.
            change [tag; net; sta; cha; pat] with ([tag; net; sta; cha] ++ [pat])%list.
            rewrite remove_pattern_match by auto.
            assert (STEP : Rep (if fnmatch x pat
                   then match delete_path f0 (slashed ([tag; net; sta; cha] ++ [x])%list) with Some f' => f' | None => f0 end else f0)
                 (fun k => if sel_names net sta cha tag k && (fnmatch x pat && String.eqb x (tick_text (k_st k))) then None else m0 k)).
            { destruct (fnmatch x pat) eqn:Em.
              - unfold delete_path. rewrite comps_slashed
                  by (apply Forall_app; split; [eapply Forall_impl; [|exact NN]; intros a; apply name_ok_ok|
                      constructor; auto using name_ok_ok; apply name_ok_ok, Hl; now left]).
                cbn [app]. destruct (delete f0 [tag; net; sta; cha; x]) as [f'|] eqn:Ed.
                + apply (rep_delete f0 m0 [tag; net; sta; cha; x] f' _ R0 Ed); [simpl; lia| |].
                  * intros k Hk. now rewrite prefix5.
                  * intros k. destruct (_ && _); congruence.
                + apply (delete_iff 6) in Ed; [|apply R0|discriminate]. eapply rep_ext; eauto.
                  * intros k Hk. destruct (sel_names net sta cha tag k && (true && String.eqb x (tick_text (k_st k)))) eqn:E; auto.
                    symmetry. eapply rep_absent; eauto. rewrite prefix5. simpl in E. exact E.
                  * intros k Hk. apply (rep_dom _ _ R0). destruct (_ && _); congruence.
              - eapply rep_ext; eauto; intros k; simpl; rewrite andb_false_r; auto. apply (rep_dom _ _ R0). }
            specialize (IH _ _ STEP (fun y Hy => Hl y (or_intror Hy))).
            change ([tag; net; sta; cha] ++ [pat])%list with [tag; net; sta; cha; pat].
            eapply rep_ext; [exact IH| |].
            + intros k Hk. cbn [existsb]. destruct (sel_names net sta cha tag k); simpl; auto.
              destruct (existsb (fun x0 => fnmatch x0 pat && String.eqb x0 (tick_text (k_st k))) l); [now rewrite orb_true_r|].
              rewrite orb_false_r. reflexivity.
            + intros k Hk. apply (rep_dom _ _ R0). destruct (_ && _); congruence. }
        specialize (FOLD (dkeys ch) f m R LST). eapply rep_ext; [exact FOLD| |].
        -- intros k Hk. cbv beta. rewrite db_remove_eq. destruct (sel_names net sta cha tag k) eqn:Es; simpl; auto.
           destruct (fnmatch (tick_text (k_st k)) pat) eqn:Em.
           ++ destruct (existsb _ (dkeys ch)) eqn:Ex; auto.
              (* not listed: nothing stored *)
              destruct (m k) eqn:Emk; auto. exfalso.
              assert (Lk : lookup f (kpath k) = Some (Data c)) by (rewrite (rep_lookup _ _ _ R Hk), Emk; reflexivity).
              assert (Ek : exists r, kpath k = ([tag; net; sta; cha] ++ r)%list) by (apply has_prefix_iff; now rewrite prefix4).
              destruct Ek as [r Er]. rewrite Er, lookup_app, El in Lk.
              assert (Er' : r = [tick_text (k_st k); tick_text (k_et k)]) by (cbn [kpath app] in Er; symmetry; exact (f_equal (skipn 4) Er)).
              rewrite Er' in Lk. cbn [lookup] in Lk. destruct (dget ch (tick_text (k_st k))) eqn:Eg; [|discriminate].
              apply dget_some_key in Eg. apply not_true_iff_false in Ex. apply Ex, existsb_exists.
              exists (tick_text (k_st k)). rewrite Em, String.eqb_refl. auto.
           ++ destruct (existsb _ (dkeys ch)) eqn:Ex; auto. exfalso.
              apply existsb_exists in Ex as (x & _ & Hx). apply andb_true_iff in Hx as [Hx1 Hx2].
              apply String.eqb_eq in Hx2. subst x. congruence.
        -- intros k. eauto using db_remove_valid.
      * cbn [bind dget]. eapply rep_ext; eauto using db_remove_valid. intros k Hk. rewrite db_remove_eq.
        destruct (sel_names net sta cha tag k) eqn:Es; simpl; auto. destruct (fnmatch _ pat); auto.
        symmetry. eapply rep_absent; eauto. now rewrite prefix4.
    + (* literal start time *)
      assert (PL : plain pat = true) by (apply plain_iff; auto).
      assert (NP : name_ok pat) by (repeat split; auto).
      rewrite wild_slashed by (repeat (constructor; auto)). cbn [negb]. unfold delete_path.
      rewrite comps_slashed by (repeat (constructor; auto using name_ok_ok)).
      assert (M : forall k, db_remove m net sta cha tag (fun s => fnmatch (tick_text s) pat) k =
                            if has_prefix [tag; net; sta; cha; pat] (kpath k) then None else m k).
      { intros k. rewrite db_remove_eq, prefix5, fnmatch_plain by auto. now rewrite (String.eqb_sym pat). }
      destruct (delete f [tag; net; sta; cha; pat]) as [f'|] eqn:Ed.
      * eapply rep_delete; eauto using db_remove_dom; simpl; lia.
      * apply (delete_iff 6) in Ed; [|apply R|discriminate]. eapply rep_ext; eauto using db_remove_valid.
        intros k Hk. rewrite M. destruct (has_prefix _ (kpath k)) eqn:E; auto.
        symmetry. eapply rep_absent; eauto.
Qed.

Lemma format_pattern_ok t : pattern_ok (format_fissures t).
Proof. repeat split; try (now apply format_no_char). apply format_nonempty. Qed.

Lemma rep_exec f m o : Rep f m -> valid_op o -> Rep (exec f o) (spec m o).
Proof.
  intros R HV. destruct o as [tr tag|net sta cha tag t|net sta cha tag pat].
  - now apply rep_add.
  - destruct HV as (HN & HC & HT). pose proof (remove_ok _ _ _ _ _ _ _ R HN HC (format_pattern_ok t)) as H.
    cbn [exec spec]. eapply rep_ext; [exact H| |intros k; eauto using db_remove_valid].
    intros k (_ & K1 & K2). rewrite !db_remove_eq. rewrite fnmatch_plain by apply format_plain.
    destruct (sel_names net sta cha tag k); simpl; auto.
    destruct (Z.eqb_spec (k_st k) (tick t)) as [E|E].
    + rewrite E, <- (format_tick t) by auto. now rewrite String.eqb_refl.
    + destruct (String.eqb_spec (tick_text (k_st k)) (format_fissures t)) as [E'|]; auto.
      rewrite (format_tick t) in E' by auto. apply tick_text_inj in E'; auto using time_ok_file. congruence.
  - destruct HV as (HN & HC & HP). now apply remove_ok.
Qed.

Lemma rep_all ops : Forall valid_op ops -> Rep (exec_all ops) (spec_all ops).
Proof.
  unfold exec_all, spec_all. generalize rep_empty. generalize (@empty_file ctrace) as f, db_empty as m.
  induction ops as [|o ops IH]; intros f m R H; [exact R|]. inversion H; subst. cbn [fold_left]. apply IH; auto.
  now apply rep_exec.
Qed.

(** ** exact queries *)
Lemma get_exact f m net sta cha tag st et : Rep f m -> names_ok tag net sta cha -> canonical net sta cha ->
  time_ok st -> time_ok et ->
  get_data f net sta cha tag (Some st) (Some et) =
  match m (mkKey tag net sta cha (tick st) (tick et)) with Some tr => Ok [tr] | None => Raise KeyError end.
Proof.
  intros R HN HC HS HE. pose proof HN as (H1 & H2 & H3 & H4). unfold get_data. unfold canonical in HC. rewrite HC.
  cbn [bind time_arg]. set (k := mkKey tag net sta cha (tick st) (tick et)).
  assert (HV : valid_key k) by (split; [exact HN|]; split; apply time_ok_file; assumption).
  rewrite (format_tick st), (format_tick et) by auto. rewrite hierarchy_slashed.
  change [tag; net; sta; cha; tick_text (tick st); tick_text (tick et)] with (kpath k).
  rewrite wild_slashed by (apply kpath_names; auto). cbn [negb]. unfold at_path.
  rewrite comps_slashed by (eapply Forall_impl; [intros a; apply name_ok_ok|apply kpath_names; auto]).
  rewrite (rep_lookup _ _ _ R HV). now destruct (m k).
Qed.

(** ** wildcard queries *)
Fixpoint count (c : ascii) (s : string) : nat :=
  match s with EmptyString => 0 | String a r => (if Ascii.eqb a c then 1 else 0) + count c r end.
Lemma count_app c a b : count c (a ++ b) = (count c a + count c b)%nat.
Proof. induction a; simpl; auto. rewrite IHa. lia. Qed.
Lemma count_none c s : has_char c s = false -> count c s = 0%nat.
Proof. induction s; simpl; auto. intros H. apply orb_false_iff in H as [-> H]. simpl. auto. Qed.
Lemma count_slashed l : Forall ok_name l -> count "/" (slashed l) = length l.
Proof.
  induction 1 as [|s l [H1 H2] HF IH]; [reflexivity|].
  change (s :: l) with ([s] ++ l)%list at 1. rewrite slashed_app, count_app, IH.
  unfold slashed. cbn [map cat fold_right]. rewrite append_nil_r. cbn [append count].
  rewrite count_none by auto. reflexivity.
Qed.

Lemma enc_name s : name_ok s -> enc s = "/" ++ s.
Proof. intros H. unfold enc. destruct (String.eqb_spec s "*"); auto. exfalso. eapply name_not_star; eauto. Qed.
Lemma cat_app a b : cat (a ++ b)%list = cat a ++ cat b.
Proof. unfold cat. induction a; cbn [app fold_right]; auto. now rewrite IHa, append_assoc. Qed.
Lemma enc_names l : Forall name_ok l -> cat (map enc l) = slashed l.
Proof.
  induction 1 as [|s l H HF IH]; [reflexivity|]. cbn [map cat fold_right]. unfold cat in IH. rewrite IH, enc_name by auto.
  unfold slashed. reflexivity.
Qed.
Fixpoint star_str (b : nat) : string := match b with O => "" | S b' => String "*" (star_str b') end.
Lemma enc_stars b : cat (map enc (repeat "*" b)) = star_str b.
Proof. induction b; [reflexivity|]. cbn [repeat map cat fold_right]. unfold cat in IHb. now rewrite IHb. Qed.

Lemma star_str_match b q s : fnmatch s (star_str (S b) ++ q) = true <-> exists a r, s = a ++ r /\ fnmatch r q = true.
Proof.
  revert s. induction b as [|b IH]; intros s.
  - cbn [star_str append]. apply fnmatch_star.
  - change (star_str (S (S b)) ++ q) with (String "*" (star_str (S b) ++ q)). rewrite fnmatch_star. split.
    + intros (a & r & -> & H). apply IH in H as (a' & r' & -> & H). exists (a ++ a'), r'. now rewrite append_assoc.
    + intros (a & r & -> & H). exists a, r. split; auto. apply IH. exists "", r. auto.
Qed.

Lemma split_head c a b : has_char c a = false -> (match split_on c (a ++ String c b) with h :: _ => h | [] => "" end) = a.
Proof. intros H. now rewrite split_on_app. Qed.

Lemma comps_trailing l : Forall ok_name l -> comps (slashed l ++ "/") = l.
Proof.
  intros H. destruct l as [|x l]; [reflexivity|]. unfold comps. rewrite slashed_join by discriminate.
  assert (E : ("/" ++ join "/" (x :: l)) ++ "/" = "/" ++ join "/" ((x :: l) ++ [""])%list).
  { rewrite append_assoc. f_equal. clear H. revert x. induction l as [|y l IH]; intros x; [reflexivity|].
    change (join "/" (x :: y :: l)) with (x ++ "/" ++ join "/" (y :: l)).
    change (join "/" ((x :: y :: l) ++ [""])%list) with (x ++ "/" ++ join "/" ((y :: l) ++ [""])%list).
    now rewrite <- IH, !append_assoc. }
  rewrite E. change (split_on "/" ("/" ++ join "/" ((x :: l) ++ [""])%list)) with ("" :: split_on "/" (join "/" ((x :: l) ++ [""])%list)).
  rewrite split_join.
  - cbn [filter]. change (negb (String.eqb "" "")) with false. cbv iota. rewrite filter_app.
    rewrite filter_nonempty by auto. exact (app_nil_r (x :: l)).
  - destruct l; discriminate.
  - apply Forall_app. split; [eapply Forall_impl; [|exact H]; intros s [_ Hs]; exact Hs|repeat constructor].
Qed.

Lemma field_ok_ok s : field_ok s -> ok_name s.
Proof. intros [->|H]; auto using ok_star, name_ok_ok. Qed.

(** equality of the last components of two paths *)
Lemma slashed_inj a b : Forall ok_name a -> Forall ok_name b -> slashed a = slashed b -> a = b.
Proof. intros Ha Hb E. apply (f_equal comps) in E. now rewrite !comps_slashed in E by auto. Qed.

Lemma slashed_suffix x q pre : Forall ok_name x -> Forall ok_name q ->
  (slashed x = pre ++ slashed q <-> exists y, x = (y ++ q)%list /\ pre = slashed y).
Proof.
  intros Hx Hq. split.
  - intros E.
    (* x has at least as many components as q; cut there *)
    assert (HL : length q <= length x).
    { apply (f_equal (count "/")) in E. rewrite count_app, !count_slashed in E by auto. lia. }
    set (y := firstn (length x - length q) x). set (z := skipn (length x - length q) x).
    assert (Ex : x = (y ++ z)%list) by (symmetry; apply firstn_skipn).
    assert (Lz : length z = length q) by (unfold z; rewrite skipn_length; lia).
    assert (Hy : Forall ok_name y /\ Forall ok_name z) by (apply Forall_app; rewrite <- Ex; auto). destruct Hy as [Hy Hz].
    rewrite Ex, slashed_app in E. clearbody y z. subst x.
    (* compare suffixes with the same number of slashes that begin with a slash *)
    assert (C : forall z q, length z = length q -> Forall ok_name z -> Forall ok_name q ->
              forall p1 p2, p1 ++ slashed z = p2 ++ slashed q -> slashed z = slashed q).
    { clear. intros z. induction z as [|b z IH] using rev_ind; intros q HL Hz Hq p1 p2 E.
      - destruct q; [reflexivity|discriminate].
      - destruct q as [|c q _] using rev_ind; [rewrite app_length in HL; simpl in HL; lia|].
        rewrite !app_length in HL. simpl in HL. apply Forall_app in Hz as [Hz Hb], Hq as [Hq Hc].
        inversion Hb as [|? ? [Hb1 Hb2] _]; inversion Hc as [|? ? [Hc1 Hc2] _]; subst.
        rewrite !slashed_app in E |- *.
        assert (S1 : forall s, slashed [s] = "/" ++ s) by (intros s; unfold slashed; cbn [map cat fold_right]; apply append_nil_r).
        rewrite !S1 in *. rewrite <- !(append_assoc _ (slashed _)) in E.
        assert (L : forall a b c d, has_char "/" b = false -> has_char "/" d = false ->
                  a ++ String "/" b = c ++ String "/" d -> a = c /\ b = d).
        { clear. induction a as [|e a IHa]; intros b c d Hb Hd E.
          - destruct c as [|f c]; simpl in E; [injection E; auto|]. injection E as <- E. subst b.
            rewrite has_char_app in Hb. simpl in Hb. rewrite orb_true_r in Hb. discriminate.
          - destruct c as [|f c]; simpl in E.
            + injection E as -> E. subst d. rewrite has_char_app in Hd. simpl in Hd. rewrite orb_true_r in Hd. discriminate.
            + injection E as -> E. apply IHa in E as [-> ->]; auto. }
        change ("/" ++ b) with (String "/" b) in *. change ("/" ++ c) with (String "/" c) in *.
        apply L in E as [E ->]; auto. f_equal. apply (IH q ltac:(lia) Hz Hq p1 p2). exact E. }
    pose proof (C z q Lz Hz Hq (slashed y) pre E) as Ez. apply slashed_inj in Ez; auto. subst z.
    exists y. split; auto.
    assert (K : forall a b c, a ++ c = b ++ c -> a = b).
    { clear. intros a. induction a as [|e a IH]; intros [|f b] c E; auto.
      - apply (f_equal String.length) in E. simpl in E. rewrite length_append in E. lia.
      - apply (f_equal String.length) in E. simpl in E. rewrite length_append in E. lia.
      - simpl in E. injection E as -> E. f_equal. eauto. }
    symmetry. eapply K. exact E.
  - intros (y & -> & ->). apply slashed_app.
Qed.

Lemma leaf_name p : p <> [] -> abs_name p = slashed p.
Proof. intros H. unfold abs_name. now rewrite slashed_join. Qed.

(** which names below a group match the pattern "prefix, stars, suffix" *)
Lemma pattern_hit (ps qs x : list string) b :
  Forall name_ok ps -> Forall name_ok qs -> Forall name_ok x ->
  length (ps ++ qs) < length x -> (exists r, x = (ps ++ r)%list) ->
  (fnmatch (abs_name x) (slashed ps ++ star_str (S b) ++ slashed qs) ||
   is_substr (abs_name x) (slashed ps ++ star_str (S b) ++ slashed qs) = true <->
   exists mid, x = (ps ++ mid ++ qs)%list).
Proof.
  intros Hp Hq Hx HL [r Er].
  assert (okx : Forall ok_name x) by (eapply Forall_impl; [|exact Hx]; intros a; apply name_ok_ok).
  assert (okq : Forall ok_name qs) by (eapply Forall_impl; [|exact Hq]; intros a; apply name_ok_ok).
  assert (okp : Forall ok_name ps) by (eapply Forall_impl; [|exact Hp]; intros a; apply name_ok_ok).
  rewrite app_length in HL.
  rewrite leaf_name by (destruct x; simpl in HL; [lia|discriminate]).
  (* not a substring: too many slashes *)
  assert (NS : is_substr (slashed x) (slashed ps ++ star_str (S b) ++ slashed qs) = false).
  { apply not_true_is_false. rewrite is_substr_iff. intros (u & v & E).
    assert (PX : has_char "*" (slashed x) = false) by (apply plain_no_star, plain_slashed; auto).
    assert (SP : forall A B C X Y Z, has_char "*" Y = false -> A ++ String "*" B ++ C = X ++ Y ++ Z ->
               (exists t, A = X ++ Y ++ t) \/ (exists t, B ++ C = t ++ Y ++ Z)).
    { clear. induction A as [|e A IH]; intros B C X Y Z HY E.
      - destruct X as [|f X].
        + simpl in E. destruct Y as [|g Y]; [left; exists ""; reflexivity|]. simpl in E. injection E as <- E.
          simpl in HY. discriminate.
        + simpl in E. injection E as <- E. right. exists X. exact E.
      - destruct X as [|f X].
        + simpl in E.
          assert (P : forall A B Y Z, has_char "*" Y = false -> A ++ String "*" B = Y ++ Z -> exists t, A = Y ++ t).
          { clear. induction A as [|e A IH]; intros B Y Z HY E.
            - destruct Y as [|g Y]; [exists ""; reflexivity|]. simpl in E. injection E as <- _. discriminate.
            - destruct Y as [|g Y]; [eexists; reflexivity|]. simpl in *. injection E as <- E.
              apply orb_false_iff in HY as [_ HY]. destruct (IH _ _ _ HY E) as [t ->]. eauto. }
          left. apply (P (String e A) (B ++ C) Y Z HY). exact E.
        + simpl in E. injection E as <- E. destruct (IH _ _ _ _ _ HY E) as [[t Ht]|[t Ht]]; [left; exists t; rewrite Ht; reflexivity|right; exists t; exact Ht]. }
    cbn [star_str append] in E.
    destruct (SP (slashed ps) (star_str b) (slashed qs) u (slashed x) v PX E) as [[t Et]|[t Et]].
    - apply (f_equal (count "/")) in Et. rewrite !count_app, !count_slashed in Et by auto. lia.
    - apply (f_equal (count "/")) in Et. rewrite !count_app, !count_slashed in Et by auto.
      assert (count "/" (star_str b) = 0%nat) by (clear; induction b; simpl; auto). lia. }
  rewrite NS, orb_false_r. rewrite fnmatch_prefix by (apply plain_slashed; auto). split.
  - intros (s & E & H). apply star_str_match in H as (a & t & -> & H).
    rewrite fnmatch_plain in H by (apply plain_slashed; auto). apply String.eqb_eq in H. subst t.
    rewrite <- append_assoc in E. apply slashed_suffix in E as (y & -> & Ey); auto.
    rewrite app_length in HL.
    (* x = y ++ qs = ps ++ r and |ps| <= |y| *)
    assert (E2 : firstn (length ps) (y ++ qs) = ps) by (rewrite Er, firstn_app, Nat.sub_diag, firstn_all, firstn_O; apply app_nil_r).
    rewrite firstn_app in E2. replace (length ps - length y) with 0 in E2 by lia. rewrite firstn_O, app_nil_r in E2.
    exists (skipn (length ps) y). rewrite app_assoc. rewrite <- E2 at 1. now rewrite firstn_skipn.
  - intros (mid & ->). exists (slashed mid ++ slashed qs). rewrite !slashed_app. split; auto.
    apply star_str_match. exists (slashed mid), (slashed qs). split; auto. rewrite fnmatch_plain by (apply plain_slashed; auto).
    apply String.eqb_refl.
Qed.

Definition fields (net sta cha tag : string) (st et : option Z) : list string :=
  [tag; net; sta; cha; time_arg st; time_arg et].

Definition fieldwise (pat s : list string) : Prop := Forall2 field_matches pat s.

Lemma fieldwise_shape ps b qs x : Forall name_ok ps -> Forall name_ok qs ->
  length x = (length ps + b + length qs)%nat ->
  (fieldwise (ps ++ repeat "*" b ++ qs) x <-> exists mid, x = (ps ++ mid ++ qs)%list).
Proof.
  intros Hp Hq HL. unfold fieldwise. split.
  - intros H. apply Forall2_app_inv_l in H as (x1 & x2 & F1 & F2 & ->).
    apply Forall2_app_inv_l in F2 as (x3 & x4 & F3 & F4 & ->). exists x3.
    assert (K : forall p y, Forall name_ok p -> Forall2 field_matches p y -> y = p).
    { clear. intros p y Hp H. induction H as [|a c p y H HF IH]; auto. inversion Hp; subst. rewrite IH by auto.
      destruct H as [->| ->]; auto. exfalso. eapply name_not_star; eauto. }
    rewrite (K _ _ Hp F1), (K _ _ Hq F4). reflexivity.
  - intros (mid & ->). rewrite !app_length in HL. assert (Lm : length mid = b) by lia.
    assert (K : forall p, Forall2 field_matches p p) by (clear; induction p; constructor; auto; now right).
    apply Forall2_app; auto. apply Forall2_app; auto. rewrite <- Lm. clear. induction mid; simpl; constructor; auto. now left.
Qed.

Lemma key_matches_fields net sta cha tag st et k : valid_key k ->
  (forall t, st = Some t -> time_ok t) -> (forall t, et = Some t -> time_ok t) ->
  (key_matches net sta cha tag st et k <-> fieldwise (fields net sta cha tag st et) (kpath k)).
Proof.
  intros (_ & K1 & K2) HS HE. unfold key_matches, fieldwise, fields, kpath.
  assert (T : forall t s, time_ok (s * 100000) -> (forall x, t = Some x -> time_ok x) ->
              (time_matches t s <-> field_matches (time_arg t) (tick_text s))).
  { intros [t|] s Hs Ht; cbn [time_matches time_arg].
    - specialize (Ht t eq_refl). rewrite (format_tick t Ht). unfold field_matches. split.
      + intros <-. now right.
      + intros [E|E]; [exfalso; eapply name_not_star; [apply (tick_text_name (tick t))|exact E]|].
        apply tick_text_inj in E; auto using time_ok_file.
    - unfold field_matches. tauto. }
  rewrite (T st (k_st k)), (T et (k_et k)) by auto. clear T. split.
  - intros (A & B & C & D & E & F). repeat (constructor; auto).
  - intros H. inversion H as [|? ? ? ? A H1]; subst. inversion H1 as [|? ? ? ? B H2]; subst.
    inversion H2 as [|? ? ? ? C H3]; subst. inversion H3 as [|? ? ? ? D H4]; subst.
    inversion H4 as [|? ? ? ? E H5]; subst. inversion H5 as [|? ? ? ? F _]; subst. tauto.
Qed.

(** from a list of stored paths to a list of keys *)
Lemma keys_of_paths f m l : Rep f m -> NoDup (map fst l) ->
  (forall p d, In (p, d) l -> contents f p = Some d) ->
  exists ks, map kpath ks = map fst l /\ NoDup ks /\ map m ks = map (fun pd => Some (snd pd)) l /\ Forall valid_key ks.
Proof.
  intros R. induction l as [|[p d] l IH]; intros ND H.
  - exists []. repeat split; constructor.
  - cbn [map fst] in ND. inversion ND as [|? ? Hn ND']; subst.
    destruct (IH ND') as (ks & E1 & E2 & E3 & E4); [intros; apply H; now right|].
    destruct (rep_keys _ _ R p d (H p d (or_introl eq_refl))) as (k & Hk & Ek). exists (k :: ks). subst p. repeat split.
    + cbn [map fst]. now rewrite E1.
    + constructor; auto. intros Hi. apply Hn. rewrite <- E1. now apply in_map.
    + cbn [map snd]. rewrite E3. f_equal. rewrite <- (rep_val _ _ R k Hk). apply H. now left.
    + constructor; auto.
Qed.

Lemma adjacent_fields l : Forall field_ok l -> adjacent (map (fun s => String.eqb s "*") l) ->
  exists ps b qs, l = (ps ++ repeat "*" b ++ qs)%list /\ Forall name_ok ps /\ Forall name_ok qs.
Proof.
  intros HF (a & b & c & E).
  assert (NF : forall n l, Forall field_ok l -> map (fun s => String.eqb s "*") l = repeat false n -> Forall name_ok l).
  { clear. induction n as [|n IH]; intros [|s l] HF E; try discriminate; constructor; inversion HF; subst; injection E as E1 E2; eauto.
    destruct H1 as [->|]; auto. discriminate. }
  assert (NT : forall n l, map (fun s => String.eqb s "*") l = repeat true n -> l = repeat "*" n).
  { clear. induction n as [|n IH]; intros [|s l] E; try discriminate; auto. injection E as E1 E2. apply String.eqb_eq in E1. simpl. f_equal; auto. }
  apply map_eq_app in E as (l1 & l2 & -> & E1 & E2). apply map_eq_app in E2 as (l3 & l4 & -> & E3 & E4).
  apply Forall_app in HF as [F1 F2]. apply Forall_app in F2 as [F3 F4].
  exists l1, b, l4. rewrite <- (NT _ _ E3). eauto.
Qed.

(** ** the order of the answer *)
Fixpoint path_compare (p q : list string) : comparison :=
  match p, q with
  | a :: p', b :: q' => lex (String.compare a b) (path_compare p' q')
  | [], [] => Eq
  | [], _ => Lt
  | _, [] => Gt
  end.
Definition path_lt (p q : list string) : Prop := path_compare p q = Lt.
Lemma path_lt_prefix pre a b p q : slt a b -> path_lt ((pre ++ [a]) ++ p)%list ((pre ++ [b]) ++ q)%list.
Proof.
  intros H. unfold path_lt. induction pre as [|c pre IH]; cbn [app path_compare].
  - unfold slt, str_lt, String.ltb in H. destruct (String.compare a b); [discriminate|reflexivity|discriminate].
  - rewrite compare_refl. exact IH.
Qed.
Lemma sorted_app {A} (lt : A -> A -> Prop) (l l' : list A) : StronglySorted lt l -> StronglySorted lt l' ->
  (forall x y, In x l -> In y l' -> lt x y) -> StronglySorted lt (l ++ l')%list.
Proof.
  induction 1 as [|x l SS IH F]; cbn [app]; auto. intros S' H. constructor.
  - apply IH; auto. intros. apply H; [now right|assumption].
  - apply Forall_app. split; auto. apply Forall_forall. intros y Y. apply H; [now left|assumption].
Qed.
Lemma leaves_sorted {D} k : forall (n : node D) pre, good k n -> StronglySorted path_lt (map fst (leaves pre n)).
Proof.
  induction k as [|k IH]; intros n pre Hg; simpl in Hg.
  - destruct Hg as [d ->]. simpl. repeat constructor.
  - destruct Hg as (ch & -> & Hs & HF). cbn [leaves]. unfold ksorted in Hs.
    induction ch as [|[key c] ch IHc]; simpl; [constructor|].
    inversion Hs as [|? ? Hs' HFs]; subst. inversion HF as [|? ? Gc HF']; subst. simpl in *.
    rewrite map_app. apply sorted_app; [now apply IH|now apply IHc|].
    intros q1 q2 H1 H2. apply in_map_iff in H1 as ([p1 d1] & <- & H1). apply in_map_iff in H2 as ([p2 d2] & <- & H2).
    cbn [fst]. apply (leaves_prefix k) in H1 as [r1 ->]; auto.
    apply in_flat_map in H2 as ([key2 c2] & Hc2 & H2). simpl in H2.
    apply (leaves_prefix k) in H2 as [r2 ->]; [|rewrite Forall_forall in HF'; apply (HF' _ Hc2)].
    apply path_lt_prefix. rewrite Forall_forall in HFs. apply HFs. apply (in_map fst _ _ Hc2).
Qed.
Lemma sorted_filter {A B} (lt : B -> B -> Prop) (g : A -> B) (f : A -> bool) l : StronglySorted lt (map g l) -> StronglySorted lt (map g (filter f l)).
Proof.
  induction l as [|x l IH]; cbn [map filter]; auto. intros H. inversion H as [|? ? SS F]; subst. destruct (f x); auto. cbn [map]. constructor; auto.
  rewrite Forall_forall in *. intros y Y. apply F. apply in_map_iff in Y as (z & <- & Z). apply filter_In in Z as [Z _]. now apply in_map.
Qed.
Lemma sorted_keys ks : Forall valid_key ks -> StronglySorted path_lt (map kpath ks) -> StronglySorted key_before ks.
Proof.
  induction ks as [|k ks IH]; intros V H; [constructor|]. inversion V as [|? ? Vk V']; subst. cbn [map] in H. inversion H as [|? ? SS F]; subst.
  constructor; [now apply IH|]. rewrite Forall_forall in *. intros k' K'. specialize (F _ (in_map kpath _ _ K')). specialize (V' _ K').
  unfold path_lt, kpath in F. cbn [path_compare] in F. unfold key_before. destruct Vk as (_ & T1 & T2), V' as (_ & T3 & T4).
  assert (X : forall x, time_ok (x * 100000) -> tick_text x = format_fissures (x * 100000)) by (intros x Hx; now rewrite (format_tick _ Hx), tick_mul).
  rewrite !X in F by assumption. rewrite (format_compare _ _ T1 T3), (format_compare _ _ T2 T4), !tick_mul in F.
  rewrite <- F. now destruct (k_et k ?= k_et k')%Z.
Qed.

(** the answer to a query *)
Definition answers (m : db) (P : key -> Prop) (r : list ctrace) : Prop :=
  exists ks, StronglySorted key_before ks /\ (forall k, In k ks <-> m k <> None /\ P k) /\ map m ks = map Some r.

Lemma fields_ok net sta cha tag st et : Forall field_ok [tag; net; sta; cha] ->
  (forall t, st = Some t -> time_ok t) -> (forall t, et = Some t -> time_ok t) -> Forall field_ok (fields net sta cha tag st et).
Proof.
  intros H HS HE. inversion H as [|? ? A H1]; subst. inversion H1 as [|? ? B H2]; subst. inversion H2 as [|? ? C H3]; subst.
  inversion H3 as [|? ? D _]; subst.
  assert (T : forall t, (forall x, t = Some x -> time_ok x) -> field_ok (time_arg t)).
  { intros [t|] Ht; [right|now left]. cbn [time_arg]. rewrite (format_tick t) by auto. apply tick_text_name. }
  unfold fields. repeat (constructor; auto).
Qed.

Lemma get_adjacent f m net sta cha tag st et : Rep f m ->
  Forall field_ok [tag; net; sta; cha] -> canonical net sta cha ->
  (forall t, st = Some t -> time_ok t) -> (forall t, et = Some t -> time_ok t) ->
  adjacent (stars net sta cha tag st et) ->
  match get_data f net sta cha tag st et with
  | Ok r => answers m (key_matches net sta cha tag st et) r
  | Raise e => e = KeyError /\ forall k, key_matches net sta cha tag st et k -> m k = None
  end.
Proof.
  intros R HF HC HS HE HA. pose proof (fields_ok _ _ _ _ _ _ HF HS HE) as HFF.
  destruct (adjacent_fields _ HFF HA) as (ps & b & qs & EF & Hp & Hq).
  assert (KM : forall k, valid_key k -> (key_matches net sta cha tag st et k <-> exists mid, kpath k = (ps ++ mid ++ qs)%list)).
  { intros k Hk. rewrite key_matches_fields by auto. rewrite EF. apply fieldwise_shape; auto.
    apply (f_equal (@length string)) in EF. rewrite !app_length, repeat_length in EF. cbn [fields length kpath] in *. lia. }
  assert (okp : Forall ok_name ps) by (eapply Forall_impl; [|exact Hp]; intros a; apply name_ok_ok).
  unfold get_data. unfold canonical in HC. rewrite HC. cbn [bind]. rewrite hierarchy_slashed.
  change [tag; net; sta; cha; time_arg st; time_arg et] with (fields net sta cha tag st et). rewrite EF.
  destruct b as [|b].
  - (* no wildcard *)
    cbn [repeat app] in *. assert (Hpq : Forall name_ok (ps ++ qs)%list) by (apply Forall_app; auto).
    rewrite wild_slashed by auto. cbn [negb]. unfold at_path.
    rewrite comps_slashed by (eapply Forall_impl; [|exact Hpq]; intros a; apply name_ok_ok).
    assert (L6 : length (ps ++ qs)%list = 6) by (rewrite <- EF; reflexivity).
    assert (KM' : forall k, valid_key k -> (key_matches net sta cha tag st et k <-> kpath k = (ps ++ qs)%list)).
    { intros k Hk. rewrite KM by auto. split; [|exists []; auto]. intros [mid Em].
      pose proof (f_equal (@length string) Em) as El. rewrite !app_length in El. rewrite app_length in L6.
      cbn [kpath length] in El. destruct mid; [exact Em|simpl in El; lia]. }
    destruct (lookup f (ps ++ qs)%list) as [n|] eqn:El.
    + pose proof (good_lookup 6 f _ _ (rep_good _ _ R) El) as [_ G]. rewrite L6 in G. destruct G as [d ->].
      assert (Ec : contents f (ps ++ qs)%list = Some d) by (unfold contents; now rewrite El).
      destruct (rep_keys _ _ R _ _ Ec) as (k & Hk & Ek). exists [k].
      split; [repeat constructor|]. split; [intros k'; split|].
      * intros [<-|[]]. split; [rewrite <- (rep_val _ _ R k Hk), <- Ek, Ec; discriminate|now apply KM'].
      * intros [H1 H2]. left. apply kpath_inj; auto using (rep_dom _ _ R). rewrite <- Ek. symmetry. apply KM'; auto. now apply (rep_dom _ _ R).
      * cbn [map]. now rewrite <- (rep_val _ _ R k Hk), <- Ek, Ec.
    + split; auto. intros k Hm. destruct (m k) eqn:E; auto. assert (Hk : valid_key k) by (apply (rep_dom _ _ R); congruence).
      apply KM' in Hm; auto. pose proof (rep_lookup _ _ _ R Hk) as E'. rewrite Hm, El, E in E'. discriminate.
  - (* wildcards *)
    assert (HFF' : Forall field_ok (ps ++ repeat "*" (S b) ++ qs)%list) by (rewrite <- EF; exact HFF).
    assert (NQ : has_char "?" (slashed (ps ++ repeat "*" (S b) ++ qs)%list) = false).
    { rewrite has_char_slashed by discriminate. apply existsb_none. eapply Forall_impl; [|exact HFF'].
      intros s [->|(_ & _ & Hs)]; [reflexivity|]. apply plain_no; auto. }
    assert (W : wild (slashed (ps ++ repeat "*" (S b) ++ qs)%list) = true).
    { unfold wild. rewrite has_char_slashed by discriminate. cbn [repeat app]. rewrite existsb_app. cbn [existsb].
      change (has_char "*" "*") with true. now rewrite orb_true_l, orb_true_r. }
    rewrite W. cbn [negb]. rewrite replace_none by auto. rewrite rss_slashed by auto.
    rewrite !map_app, !cat_app, enc_stars, !enc_names by auto.
    assert (ER : (match split_on "*" (slashed (ps ++ repeat "*" (S b) ++ qs)%list) with h :: _ => h | [] => "" end) = slashed ps ++ "/").
    { rewrite slashed_app. cbn [repeat app].
      assert (E : slashed ("*" :: repeat "*" b ++ qs)%list = "/" ++ String "*" (slashed (repeat "*" b ++ qs)%list)) by reflexivity.
      rewrite E, <- append_assoc. apply split_head. rewrite has_char_app, (plain_no_star (slashed ps)) by (apply plain_slashed; auto). reflexivity. }
    rewrite ER. unfold at_path. rewrite comps_trailing by auto.
    destruct (lookup f ps) as [n|] eqn:El.
    + pose proof (good_lookup 6 f _ _ (rep_good _ _ R) El) as [Lp G].
      assert (Lpq : (length ps + S b + length qs = 6)%nat).
      { apply (f_equal (@length string)) in EF. rewrite !app_length, repeat_length in EF. cbn [fields length] in EF. lia. }
      destruct (6 - length ps) as [|j] eqn:Ej; [lia|]. pose proof G as (ch & -> & _).
      unfold all_traces.
      set (flt := fun pd : list string * ctrace => _).
      set (L := filter flt (leaves ps (Group ch))).
      assert (ND : NoDup (map fst (leaves ps (Group ch)))) by (eapply leaves_nodup; eauto).
      assert (NDL : NoDup (map fst L)).
      { unfold L. clear -ND. induction (leaves ps (Group ch)) as [|x l IH]; simpl in *; auto. inversion ND; subst.
        destruct (flt x); auto. simpl. constructor; auto. intros H. apply H1. apply in_map_iff in H as (y & <- & Hy).
        apply filter_In in Hy as [Hy _]. now apply in_map. }
      assert (INL : forall p d, In (p, d) (leaves ps (Group ch)) <-> contents f p = Some d /\ exists r, p = (ps ++ r)%list).
      { intros p d. rewrite (leaves_in (S j)) by auto. split.
        - intros (r & -> & Hr). split; eauto. unfold contents. now rewrite lookup_app, El, Hr.
        - intros [Hc [r ->]]. exists r. split; auto. unfold contents in Hc. rewrite lookup_app, El in Hc.
          destruct (lookup (Group ch) r) as [[|]|]; congruence. }
      destruct (keys_of_paths f m L R NDL) as (ks & K1 & K2 & K3 & K4).
      { intros p d H. apply filter_In in H as [H _]. now apply INL in H. }
      exists ks. split; [apply sorted_keys; auto; rewrite K1; apply sorted_filter; now apply (leaves_sorted (S j))|]. split; [intros k; split; [intros H; split|]|].
      * assert (Hk : valid_key k) by (rewrite Forall_forall in K4; auto).
        apply (in_map m) in H. rewrite K3 in H. apply in_map_iff in H as (pd & E & _). congruence.
      * assert (Hk : valid_key k) by (rewrite Forall_forall in K4; auto). apply KM; auto.
        apply (in_map kpath) in H. rewrite K1 in H. apply in_map_iff in H as ([p d] & E & Hin). cbn [fst] in E. subst p.
        apply filter_In in Hin as [Hin Hf]. unfold flt in Hf. cbn [fst] in Hf.
        apply INL in Hin as [_ Hr]. apply pattern_hit in Hf; auto using kpath_names.
        rewrite app_length. cbn [kpath length]. lia.
      * intros [Hm Hk]. assert (HV : valid_key k) by now apply (rep_dom _ _ R). apply KM in Hk; auto.
        destruct (m k) as [d|] eqn:Em; [|congruence].
        assert (Hin : In (kpath k, d) L).
        { apply filter_In. split.
          - apply INL. rewrite (rep_val _ _ R) by auto. split; auto. destruct Hk as [mid ->]. eauto.
          - unfold flt. cbn [fst]. apply pattern_hit; auto using kpath_names.
            + rewrite app_length. cbn [kpath length]. lia.
            + destruct Hk as [mid ->]. eauto. }
        apply (in_map fst) in Hin. rewrite <- K1 in Hin. apply in_map_iff in Hin as (k' & E & Hk').
        apply kpath_inj in E; auto; [congruence|]. rewrite Forall_forall in K4; auto.
      * rewrite map_map. exact K3.
    + split; auto. intros k Hm. destruct (m k) eqn:E; auto. assert (Hk : valid_key k) by (apply (rep_dom _ _ R); congruence).
      apply KM in Hm as [mid Em]; auto. pose proof (rep_lookup _ _ _ R Hk) as E'.
      rewrite Em, lookup_app, El, E in E'. discriminate.
Qed.

(** ** listings *)
Lemma starttimes_exact f m net sta tag cha : Rep f m -> names_ok tag net sta cha ->
  exists d, get_available_starttimes f net sta tag cha = Ok d /\
    (d = [] \/ exists l, d = [(cha, l)] /\ StronglySorted slt l) /\
    forall s, (exists l, In (cha, l) d /\ In s l) <->
              exists a e, s = tick_text a /\ m (mkKey tag net sta cha a e) <> None.
Proof.
  intros R HN. rewrite starttimes_eq by (auto; apply HN).
  destruct (lookup f [tag; net; sta; cha]) as [n|] eqn:El.
  - pose proof (good_lookup 6 f _ _ (rep_good _ _ R) El) as [_ G]. cbn [length Nat.sub] in G.
    destruct G as (ch & -> & Hs & HF). exists [(cha, keys (Group ch))]. split; auto. split; [right; eauto|].
    intros s. split.
    + intros (l & [E|[]] & Hin). injection E as <-. cbn [keys] in Hin.
      apply key_dget in Hin as [c Hc].
      assert (L5 : lookup f ([tag; net; sta; cha] ++ [s])%list = Some c) by (rewrite lookup_app, El; simpl; now rewrite Hc).
      pose proof (good_lookup 6 f _ _ (rep_good _ _ R) L5) as [_ G]. cbn [length Nat.sub app] in G.
      destruct G as (ch2 & -> & Hs2 & HF2).
      pose proof (full_lookup 5 f ([tag; net; sta; cha] ++ [s])%list _ (rep_full _ _ R) eq_refl L5) as FU. cbn [full] in FU.
      destruct ch2 as [|[e nd] ch2]; [congruence|]. inversion HF2 as [|? ? G2 _]. subst. simpl in G2. destruct G2 as [d ->].
      assert (L6 : contents f (([tag; net; sta; cha] ++ [s]) ++ [e])%list = Some d)
        by (unfold contents; rewrite lookup_app, L5; simpl; now rewrite String.eqb_refl).
      destruct (rep_keys _ _ R _ _ L6) as (k & Hk & Ek). pose proof (rep_val _ _ R k Hk) as EV. rewrite <- Ek, L6 in EV.
      apply list6_inj in Ek as (E1 & E2 & E3 & E4 & E5 & _). exists (k_st k), (k_et k). split; auto.
      rewrite E1, E2, E3, E4. destruct k as [t0 n0 s0 c0 a0 e0]. cbn [k_tag k_net k_sta k_cha k_st k_et] in *.
      intros EN. rewrite EN in EV. discriminate.
    + intros (a & e & -> & Hm). exists (keys (Group ch)). split; [now left|]. cbn [keys].
      pose proof (rep_dom _ _ R _ Hm) as HV. pose proof (rep_lookup _ _ _ R HV) as E.
      change (kpath (mkKey tag net sta cha a e)) with ([tag; net; sta; cha] ++ [tick_text a; tick_text e])%list in E.
      rewrite lookup_app, El in E. destruct (m _) as [d|]; [|congruence]. cbn [lookup] in E.
      destruct (dget ch (tick_text a)) eqn:Eg; [|discriminate]. eapply dget_some_key; eauto.
  - exists []. split; auto. split; auto. intros s. split; [intros (l & [] & _)|].
    intros (a & e & -> & Hm). exfalso. apply Hm. eapply (rep_absent f m [tag; net; sta; cha]); eauto.
    + now apply (rep_dom _ _ R).
    + rewrite prefix4. unfold sel_names. cbn. now rewrite !String.eqb_refl.
Qed.

(** channels: every channel with data is listed *)
Lemma channels_complete f m tag net sta cha a e : Rep f m -> names_ok tag net sta cha ->
  m (mkKey tag net sta cha a e) <> None -> In cha (get_available_channels f tag net sta).
Proof.
  intros R (H1 & H2 & H3 & H4) Hm. unfold get_available_channels. rewrite hierarchy_slashed.
  change [tag; net; sta; "*"; "*"; "*"] with ([tag; net; sta] ++ ["*"; "*"; "*"])%list. rewrite slashed_app.
  assert (Hp : Forall name_ok [tag; net; sta]) by (repeat (constructor; auto)).
  change (slashed ["*"; "*"; "*"]) with ("/" ++ String "*" "/*/*"). rewrite <- append_assoc, split_head
    by (rewrite has_char_app, (plain_no_star (slashed _)) by (apply plain_slashed; auto); reflexivity).
  unfold at_path. rewrite comps_trailing by (eapply Forall_impl; [|exact Hp]; intros x; apply name_ok_ok).
  pose proof (rep_dom _ _ R _ Hm) as HV. pose proof (rep_lookup _ _ _ R HV) as E.
  change (kpath (mkKey tag net sta cha a e)) with ([tag; net; sta] ++ [cha; tick_text a; tick_text e])%list in E.
  rewrite lookup_app in E. destruct (m _) as [d|]; [|congruence].
  destruct (lookup f [tag; net; sta]) as [[|ch]|]; try discriminate. cbn [lookup] in E.
  destruct (dget ch cha) eqn:Eg; [|discriminate]. cbn [keys]. eapply dget_some_key; eauto.
Qed.
