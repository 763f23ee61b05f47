(** Consequences of the refinement for histories of operations. *)
From Verif Require Import Lib.Base Lib.Str Lib.StrFacts Lib.Sorting Lib.Time Lib.TimeFacts Model.H5 Model.CorrTrace Model.CorrDB Model.Combos Model.DBOpen
  Spec.DBSpec Spec.OptionsSpec Proofs.H5Facts Proofs.CorrDBFacts Proofs.ListingFacts Proofs.QueryOrder Proofs.OptionsFacts.
From Coq Require Import Sorted.
Local Open Scope nat_scope.
Local Open Scope string_scope.
#[local] Opaque format_fissures tick_text time_ok.
#[local] Ltac Zify.zify_post_hook ::= Z.div_mod_to_equations.

Lemma history_query ops net sta cha tag st et :
  Forall valid_op ops -> names_ok tag net sta cha -> canonical net sta cha -> time_ok st -> time_ok et ->
  get_data (exec_all ops) net sta cha tag (Some st) (Some et) =
  match spec_all ops (mkKey tag net sta cha (tick st) (tick et)) with Some tr => Ok [tr] | None => Raise KeyError end.
Proof. intros HV. apply get_exact. now apply rep_all. Qed.

Lemma exec_snoc ops o : exec_all (ops ++ [o]) = exec (exec_all ops) o.
Proof. unfold exec_all. now rewrite fold_left_app. Qed.
Lemma spec_snoc ops o : spec_all (ops ++ [o]) = spec (spec_all ops) o.
Proof. unfold spec_all. now rewrite fold_left_app. Qed.
Lemma valid_snoc ops o : Forall valid_op ops -> valid_op o -> Forall valid_op (ops ++ [o]).
Proof. intros. apply Forall_app. auto. Qed.

Lemma tick_round t : (t - 100000 < tick t * 100000 <= t)%Z.
Proof. unfold tick. lia. Qed.

Lemma read_back ops tr tag :
  Forall valid_op ops -> valid_op (Add tr tag) -> canonical (c_net tr) (c_sta tr) (c_cha tr) ->
  spec_all ops (key_of tag tr) = None ->
  exists tr', get_data (exec_all (ops ++ [Add tr tag])) (c_net tr) (c_sta tr) (c_cha tr) tag (Some (c_start tr)) (Some (c_end tr)) = Ok [tr'] /\
    c_data tr' = c_data tr /\ c_lag tr' = c_lag tr /\ c_sr tr' = c_sr tr /\
    (c_start tr - 100000 < c_start tr' <= c_start tr)%Z /\ (c_end tr - 100000 < c_end tr' <= c_end tr)%Z.
Proof.
  intros HV HO HC HN. pose proof HO as (H1 & H2 & H3). exists (stored tr). split.
  - rewrite history_query by (auto using valid_snoc). rewrite spec_snoc. cbn [spec]. unfold db_add.
    change (mkKey tag (c_net tr) (c_sta tr) (c_cha tr) (tick (c_start tr)) (tick (c_end tr))) with (key_of tag tr).
    destruct (key_eqb_spec (key_of tag tr) (key_of tag tr)); [|congruence]. now rewrite HN.
  - repeat split; apply tick_round.
Qed.

Lemma second_write ops tr tag :
  Forall valid_op ops -> valid_op (Add tr tag) -> spec_all ops (key_of tag tr) <> None ->
  exec_all (ops ++ [Add tr tag]) = exec_all ops.
Proof.
  intros HV (HN & HS & HE) Hm. pose proof (rep_all ops HV) as R. rewrite exec_snoc. cbn [exec add_correlation fold_left]. unfold add_one.
  rewrite trace_path_key by auto. pose proof (key_of_valid _ _ HN HS HE) as HK.
  rewrite comps_slashed by (eapply Forall_impl; [intros a; apply name_ok_ok|apply kpath_names; auto]).
  pose proof (rep_lookup _ _ _ R HK) as El.
  destruct (create (exec_all ops) (kpath (key_of tag tr)) (stored tr)) as [f'|] eqn:Ec; auto.
  pose proof (create_iff 6 (exec_all ops) (kpath (key_of tag tr)) (stored tr) (rep_good _ _ R) eq_refl ltac:(lia)) as CI.
  exfalso. assert (X : Some f' = None); [|discriminate]. rewrite <- Ec. apply CI. rewrite El. now destruct (spec_all ops (key_of tag tr)).
Qed.

Lemma query_key ops k : Forall valid_op ops -> valid_key k -> canonical (k_net k) (k_sta k) (k_cha k) ->
  get_data (exec_all ops) (k_net k) (k_sta k) (k_cha k) (k_tag k) (Some (k_st k * 100000)%Z) (Some (k_et k * 100000)%Z) =
  match spec_all ops k with Some tr => Ok [tr] | None => Raise KeyError end.
Proof.
  intros HV (HN & HS & HE) HC. rewrite history_query by auto. rewrite !tick_mul. now destruct k.
Qed.

Lemma others_untouched ops tr tag k :
  Forall valid_op ops -> valid_op (Add tr tag) -> valid_key k -> canonical (k_net k) (k_sta k) (k_cha k) -> k <> key_of tag tr ->
  let q f := get_data f (k_net k) (k_sta k) (k_cha k) (k_tag k) (Some (k_st k * 100000)%Z) (Some (k_et k * 100000)%Z) in
  q (exec_all (ops ++ [Add tr tag])) = q (exec_all ops).
Proof.
  intros HV HO HK HC Hne. cbv beta zeta. rewrite (query_key (ops ++ [Add tr tag]) k), (query_key ops k) by (auto using valid_snoc). rewrite spec_snoc. cbn [spec]. unfold db_add.
  destruct (key_eqb_spec k (key_of tag tr)); [contradiction|reflexivity].
Qed.

Lemma remove_exactly ops o k :
  Forall valid_op ops -> valid_op o -> valid_key k -> canonical (k_net k) (k_sta k) (k_cha k) ->
  get_data (exec_all (ops ++ [o])) (k_net k) (k_sta k) (k_cha k) (k_tag k) (Some (k_st k * 100000)%Z) (Some (k_et k * 100000)%Z) =
  match o with
  | Add _ _ => get_data (exec_all (ops ++ [o])) (k_net k) (k_sta k) (k_cha k) (k_tag k) (Some (k_st k * 100000)%Z) (Some (k_et k * 100000)%Z)
  | RemoveTime net sta cha tag t =>
      if String.eqb (k_tag k) tag && String.eqb (k_net k) net && String.eqb (k_sta k) sta && String.eqb (k_cha k) cha && (k_st k =? tick t)%Z
      then Raise KeyError
      else get_data (exec_all ops) (k_net k) (k_sta k) (k_cha k) (k_tag k) (Some (k_st k * 100000)%Z) (Some (k_et k * 100000)%Z)
  | RemovePattern net sta cha tag pat =>
      if String.eqb (k_tag k) tag && String.eqb (k_net k) net && String.eqb (k_sta k) sta && String.eqb (k_cha k) cha && fnmatch (tick_text (k_st k)) pat
      then Raise KeyError
      else get_data (exec_all ops) (k_net k) (k_sta k) (k_cha k) (k_tag k) (Some (k_st k * 100000)%Z) (Some (k_et k * 100000)%Z)
  end.
Proof.
  intros HV HO HK HC. destruct o as [tr tag|net sta cha tag t|net sta cha tag pat]; [reflexivity| |];
    match goal with |- context [exec_all (ops ++ [?o])%list] => rewrite (query_key (ops ++ [o]) k), (query_key ops k) by (auto using valid_snoc) end;
    rewrite spec_snoc; cbn [spec]; unfold db_remove;
    match goal with |- context [if ?c then None else _] => destruct c end; reflexivity.
Qed.

Lemma query_adjacent ops net sta cha tag st et :
  Forall valid_op ops -> Forall field_ok [tag; net; sta; cha] -> canonical net sta cha ->
  (forall t, st = Some t -> time_ok t) -> (forall t, et = Some t -> time_ok t) ->
  adjacent (stars net sta cha tag st et) ->
  match get_data (exec_all ops) net sta cha tag st et with
  | Ok r => exists ks, StronglySorted key_before ks /\
      (forall k, In k ks <-> spec_all ops k <> None /\ key_matches net sta cha tag st et k) /\
      map (spec_all ops) ks = map Some r
  | Raise e => e = KeyError /\ forall k, key_matches net sta cha tag st et k -> spec_all ops k = None
  end.
Proof. intros HV. apply get_adjacent. now apply rep_all. Qed.

Lemma history_either_order ops tag st et n1 s1 c1 n2 s2 c2 :
  Forall valid_op ops -> name_ok tag ->
  code_ok n1 -> code_ok s1 -> code_ok c1 -> code_ok n2 -> code_ok s2 -> code_ok c2 ->
  String.length n1 = String.length n2 -> String.length s1 = String.length s2 -> time_ok st -> time_ok et ->
  let '(nn, ss, cc) := sort_comb n1 s1 n2 s2 c1 c2 in
  let k := mkKey tag (fst nn ++ "-" ++ snd nn) (fst ss ++ "-" ++ snd ss) (fst cc ++ "-" ++ snd cc) (tick st) (tick et) in
  let want := match spec_all ops k with Some tr => Ok [tr] | None => Raise KeyError end in
  get_data (exec_all ops) (n1 ++ "-" ++ n2) (s1 ++ "-" ++ s2) (c1 ++ "-" ++ c2) tag (Some st) (Some et) = want /\
  get_data (exec_all ops) (n2 ++ "-" ++ n1) (s2 ++ "-" ++ s1) (c2 ++ "-" ++ c1) tag (Some st) (Some et) = want.
Proof.
  intros HV Ht H1 H2 H3 H4 H5 H6 Hn Hs HS HE.
  pose proof (found_either_order _ _ tag st et n1 s1 c1 n2 s2 c2 (rep_all ops HV) Ht H1 H2 H3 H4 H5 H6 Hn Hs HS HE) as F.
  unfold stored_names in F. destruct (sort_comb n1 s1 n2 s2 c1 c2) as [[nn ss] cc]. exact F.
Qed.

Lemma options_guard o0 o force :
  options_ok o0 -> options_ok o -> masks_apart (o_steps o0) = true -> masks_apart (o_steps o) = true ->
  exists s0, open_options None (Some (dict_of o0)) force = Ok (Some s0) /\
    (processing o0 = processing o \/ force = true -> open_options (Some s0) (Some (dict_of o)) force = Ok (Some s0)) /\
    (processing o0 <> processing o /\ force = false -> open_options (Some s0) (Some (dict_of o)) force = Raise PermissionError).
Proof.
  intros H0 H1 H2 H3. exists (dict_of (processing o0)). rewrite create_file, reopen_file by auto. split; auto.
  destruct (options_eq_dec _ _) as [E|E]; split; intros H; auto; try tauto.
  - destruct H as [H|H]; [contradiction|]. now rewrite H.
  - destruct H as [_ H]. now rewrite H.
Qed.

Lemma open_mode_ro mode : open_mode false mode false = "r".
Proof. unfold open_mode. cbn [negb andb]. destruct (String.eqb_spec mode "r") as [->|]; reflexivity. Qed.
Lemma open_mode_keep has mode force : has || force = true -> open_mode has mode force = mode.
Proof. unfold open_mode. destruct has, force; cbn; auto; try discriminate. now rewrite andb_false_r. Qed.
Lemma gzip_nearest ds : ds <> "" -> all_digits ds = true ->
  exists l, compression (Some ("gzip" ++ ds)) = Ok (Some ("gzip", l)) /\ (1 <= l <= 9)%Z /\
    forall l', (1 <= l' <= 9)%Z -> (Z.abs (l - undec ds) <= Z.abs (l' - undec ds))%Z.
Proof.
  intros Hd HD. exists (clip_level (undec ds)). rewrite compression_letters by (auto; discriminate).
  split; [reflexivity|]. apply clip_level_range.
Qed.
Lemma other_rejected w ds : w <> "" -> all_letters w = true -> ds <> "" -> all_digits ds = true ->
  w <> "gzip" -> compression (Some (w ++ ds)) = Raise ValueError.
Proof. intros. rewrite compression_letters by auto. destruct (String.eqb_spec w "gzip"); [contradiction|reflexivity]. Qed.

Lemma history_starttimes ops net sta tag cha :
  Forall valid_op ops -> names_ok tag net sta cha ->
  exists d, get_available_starttimes (exec_all ops) net sta tag cha = Ok d /\
    (d = [] \/ exists l, d = [(cha, l)] /\ StronglySorted slt l) /\
    forall s, (exists l, In (cha, l) d /\ In s l) <->
              exists a e, s = tick_text a /\ spec_all ops (mkKey tag net sta cha a e) <> None.
Proof. intros HV. apply starttimes_exact. now apply rep_all. Qed.
Lemma history_starttimes_wild ops net sta tag cha :
  Forall valid_op ops -> name_ok tag -> name_ok net -> name_ok sta -> has_char "*" cha = true ->
  match get_available_starttimes (exec_all ops) net sta tag cha with
  | Ok d => NoDup (map fst d) /\ (forall c l, In (c, l) d -> StronglySorted slt l) /\
      forall c s, (exists l, In (c, l) d /\ In s l) <->
              fnmatch c cha = true /\ exists a e, s = tick_text a /\ spec_all ops (mkKey tag net sta c a e) <> None
  | Raise e => e = KeyError /\ forall c a e, spec_all ops (mkKey tag net sta c a e) = None
  end.
Proof. intros HV. apply starttimes_wild_exact. now apply rep_all. Qed.
Lemma history_channels ops tag net sta cha a e :
  Forall valid_op ops -> names_ok tag net sta cha ->
  spec_all ops (mkKey tag net sta cha a e) <> None -> In cha (get_available_channels (exec_all ops) tag net sta).
Proof. intros HV. apply channels_complete. now apply rep_all. Qed.

Lemma remove_wild_refused f net sta cha tag st : has_char "*" (net ++ sta ++ cha) = true ->
  remove_data f net sta cha tag st = Raise ValueError.
Proof. intros H. unfold remove_data. now rewrite H. Qed.
