(** Listings of a file: wildcard channels; channel lists after additions. *)
From Verif Require Import Lib.Base Lib.Str Lib.StrFacts Lib.Sorting Lib.Time Lib.TimeFacts Model.H5 Model.CorrTrace Model.CorrDB
  Spec.DBSpec Proofs.H5Facts Proofs.CorrDBFacts.
From Coq Require Import Sorted.
Local Open Scope nat_scope.
Local Open Scope string_scope.
#[local] Opaque format_fissures tick_text time_ok.

(** a start time listed below a channel has data, for any good file *)
Lemma times_of f m tag net sta cha n s : Rep f m -> names_ok tag net sta cha ->
  lookup f [tag; net; sta; cha] = Some n ->
  (In s (keys n) <-> exists a e, s = tick_text a /\ m (mkKey tag net sta cha a e) <> None).
Proof.
  intros R HN El. destruct (starttimes_exact f m net sta tag cha R HN) as (d & E & _ & H).
  rewrite starttimes_eq, El in E by (auto; apply HN). injection E as <-.
  rewrite <- H. split.
  - intros Hs. exists (keys n). split; [now left|exact Hs].
  - intros (l & [E|[]] & Hs). now injection E as <-.
Qed.

Lemma get_starttimes_wild f net sta tag cha : names_ok tag net sta "x" -> has_char "*" cha = true ->
  get_available_starttimes f net sta tag cha =
  match lookup f [tag; net; sta] with
  | Some (Group ch) => Ok (map (fun m => (m, match dget ch m with Some n => keys n | None => [] end)) (fnfilter (dkeys ch) cha))
  | Some (Data _) => Raise AttributeError
  | None => Raise KeyError
  end.
Proof.
  intros (H1 & H2 & H3 & _) Hs. unfold get_available_starttimes. rewrite Hs. cbn [negb]. unfold at_path.
  assert (E : "/" ++ tag ++ "/" ++ net ++ "/" ++ sta = slashed [tag; net; sta]).
  { unfold slashed. cbn [map cat fold_right]. now rewrite !append_assoc, append_nil_r. }
  rewrite E, comps_slashed; auto. repeat constructor; now apply name_ok_ok.
Qed.

Lemma name_ok_x : name_ok "x".
Proof. repeat split; discriminate. Qed.

(** names of existing groups are admissible *)
Lemma data_below_names f m tag net sta cha n : Rep f m -> lookup f [tag; net; sta; cha] = Some n ->
  forall s, In s (keys n) -> exists k, valid_key k /\ m k <> None /\ k_tag k = tag /\ k_net k = net /\ k_sta k = sta /\ k_cha k = cha /\ tick_text (k_st k) = s.
Proof.
  intros R El s Hs. pose proof (good_lookup 6 f _ _ (rep_good _ _ R) El) as [_ G]. cbn [length Nat.sub] in G.
  destruct G as (ch & -> & Hso & HF). cbn [keys] in Hs. apply key_dget in Hs as [c Hc].
  assert (L5 : lookup f ([tag; net; sta; cha] ++ [s])%list = Some c) by (rewrite lookup_app, El; simpl; now rewrite Hc).
  pose proof (good_lookup 6 f _ _ (rep_good _ _ R) L5) as [_ G]. cbn [length Nat.sub app] in G.
  destruct G as (ch2 & -> & Hs2 & HF2).
  pose proof (full_lookup 5 f ([tag; net; sta; cha] ++ [s])%list _ (rep_full _ _ R) eq_refl L5) as FU. cbn [full] in FU.
  destruct ch2 as [|[e nd] ch2]; [congruence|]. inversion HF2 as [|? ? G2 _]. subst. simpl in G2. destruct G2 as [d ->].
  assert (L6 : contents f (([tag; net; sta; cha] ++ [s]) ++ [e])%list = Some d)
    by (unfold contents; rewrite lookup_app, L5; simpl; now rewrite String.eqb_refl).
  destruct (rep_keys _ _ R _ _ L6) as (k & Hk & Ek). pose proof (rep_val _ _ R k Hk) as EV. rewrite <- Ek, L6 in EV.
  apply list6_inj in Ek as (E1 & E2 & E3 & E4 & E5 & _). exists k. split; auto. split; [now rewrite <- EV|]. auto.
Qed.

Lemma starttimes_wild_exact f m net sta tag cha : Rep f m -> name_ok tag -> name_ok net -> name_ok sta ->
  has_char "*" cha = true ->
  match get_available_starttimes f net sta tag cha with
  | Ok d => NoDup (map fst d) /\ (forall c l, In (c, l) d -> StronglySorted slt l) /\
      forall c s, (exists l, In (c, l) d /\ In s l) <->
              fnmatch c cha = true /\ exists a e, s = tick_text a /\ m (mkKey tag net sta c a e) <> None
  | Raise e => e = KeyError /\ forall c a e, m (mkKey tag net sta c a e) = None
  end.
Proof.
  intros R Ht Hn Hs Hw. rewrite get_starttimes_wild; auto; [|exact (conj Ht (conj Hn (conj Hs name_ok_x)))].
  destruct (lookup f [tag; net; sta]) as [n|] eqn:El.
  - pose proof (good_lookup 6 f _ _ (rep_good _ _ R) El) as [_ G]. cbn [length Nat.sub] in G.
    destruct G as (ch & -> & Hso & HF).
    assert (L4 : forall c v, dget ch c = Some v -> lookup f [tag; net; sta; c] = Some v).
    { intros c v Hc. change [tag; net; sta; c] with ([tag; net; sta] ++ [c])%list. rewrite lookup_app, El. simpl. now rewrite Hc. }
    split; [|split].
    + rewrite map_map. cbn [fst]. rewrite map_id. unfold fnfilter. apply NoDup_filter.
      unfold ksorted in Hso. clear - Hso. induction Hso as [|a l _ IH HF]; constructor; auto.
      intros Hin. rewrite Forall_forall in HF. apply (slt_irrefl a). now apply HF.
    + intros c l Hin. apply in_map_iff in Hin as (c' & E & Hin). injection E as -> <-.
      destruct (dget ch c) as [v|] eqn:Hc; [|constructor].
      pose proof (good_lookup 6 f _ _ (rep_good _ _ R) (L4 _ _ Hc)) as [_ G]. cbn [length Nat.sub] in G.
      destruct G as (ch2 & -> & Hs2 & _). exact Hs2.
    + intros c s. split.
      * intros (l & Hin & Hsl). apply in_map_iff in Hin as (c' & E & Hin). injection E as -> <-.
        unfold fnfilter in Hin. apply filter_In in Hin as [Hk Hf]. split; auto.
        apply key_dget in Hk as [v Hc]. rewrite Hc in Hsl.
        destruct (data_below_names f m _ _ _ _ _ R (L4 _ _ Hc) _ Hsl) as (k & Hk & Hm & <- & <- & <- & <- & <-).
        exists (k_st k), (k_et k). split; auto. now destruct k.
      * intros [Hf (a & e & -> & Hm)]. pose proof (rep_dom _ _ R _ Hm) as HV. pose proof (rep_lookup _ _ _ R HV) as E.
        change (kpath (mkKey tag net sta c a e)) with ([tag; net; sta] ++ [c; tick_text a; tick_text e])%list in E.
        rewrite lookup_app, El in E. destruct (m _) as [d|]; [|congruence]. cbn [lookup] in E.
        destruct (dget ch c) as [v|] eqn:Hc; [|discriminate]. exists (keys v). split.
        -- apply in_map_iff. exists c. rewrite Hc. split; auto. unfold fnfilter. apply filter_In. split; auto. eapply dget_some_key; eauto.
        -- destruct v as [|ch2]; [discriminate|]. cbn [keys]. destruct (dget ch2 (tick_text a)) eqn:E2; [|discriminate].
           eapply dget_some_key; eauto.
  - split; auto. intros c a e. destruct (m (mkKey tag net sta c a e)) eqn:Em; auto.
    assert (Hm : m (mkKey tag net sta c a e) <> None) by congruence.
    pose proof (rep_dom _ _ R _ Hm) as HV. pose proof (rep_lookup _ _ _ R HV) as E.
    change (kpath (mkKey tag net sta c a e)) with ([tag; net; sta] ++ [c; tick_text a; tick_text e])%list in E.
    rewrite lookup_app, El, Em in E. discriminate.
Qed.

(** ** after additions only, every group holds data *)
Section Dense.
  Context {D : Type}.
  Implicit Types n : node D.
  Lemma create_lookup_some k : forall n p d n' q x, good k n -> length p = k -> create n p d = Some n' -> lookup n' q = Some x ->
    (exists y, lookup n q = Some y) \/ exists r, p = (q ++ r)%list.
  Proof.
    induction k as [|k IH]; intros n p d n' q x Hg HL H Hq.
    - destruct p; [|discriminate]. destruct n; discriminate.
    - destruct p as [|key p]; [discriminate|]. injection HL as HL. simpl in Hg. destruct Hg as (ch & -> & Hs & HF).
      destruct q as [|q0 q]; [left; simpl; eauto|]. destruct p as [|key2 p].
      + cbn [create] in H. destruct (dget ch key) eqn:E; [discriminate|]. injection H as <-. cbn [lookup] in Hq.
        destruct (String.eqb_spec q0 key) as [->|Hne].
        * rewrite dget_kput_same in Hq by auto. destruct q; [|discriminate]. right. now exists [].
        * rewrite dget_kput_other in Hq by auto. left. cbn [lookup]. eauto.
      + rewrite create_step in H. remember (match dget ch key with Some c => c | None => Group [] end) as c eqn:Ec.
        destruct (create c (key2 :: p) d) as [c'|] eqn:EC; [|discriminate]. injection H as <-. cbn [lookup] in Hq.
        destruct (String.eqb_spec q0 key) as [->|Hne].
        * rewrite dget_kput_same in Hq by auto. destruct k as [|k]; [discriminate|].
          assert (Hc : good (S k) c).
          { destruct (dget ch key) eqn:E; subst c; [eapply good_child; eauto|apply good_empty]. }
          destruct (IH c (key2 :: p) d c' q x Hc HL EC Hq) as [[y Hy]|[r Hr]].
          -- destruct (dget ch key) as [c0|] eqn:E; subst c.
             ++ left. cbn [lookup]. rewrite E. eauto.
             ++ destruct q; [|discriminate]. right. now exists (key2 :: p).
          -- right. exists r. simpl. now rewrite Hr.
        * rewrite dget_kput_other in Hq by auto. left. cbn [lookup]. eauto.
  Qed.
  Definition dense n : Prop := forall q x, q <> [] -> lookup n q = Some x -> exists r d, contents n (q ++ r) = Some d.
  Lemma create_dense k n p d n' : good k n -> length p = k -> create n p d = Some n' -> dense n -> dense n'.
  Proof.
    intros Hg HL H HD q x Hq Hx. pose proof (create_lookup k n p d n' Hg HL H) as CL.
    destruct (create_lookup_some k n p d n' q x Hg HL H Hx) as [[y Hy]|[r Hr]].
    - destruct (HD q y Hq Hy) as (r & d0 & Hd). exists r. rewrite CL.
      destruct (path_eqb (q ++ r) p); eauto.
    - exists r, d. now rewrite CL, <- Hr, path_eqb_refl.
  Qed.
End Dense.


Lemma dense_add f m tr tag : Rep f m -> valid_op (Add tr tag) -> dense f -> dense (add_correlation f [tr] tag).
Proof.
  intros R (HN & HS & HE) HD. pose proof (key_of_valid _ _ HN HS HE) as HV. cbn [add_correlation fold_left]. unfold add_one.
  rewrite trace_path_key by auto.
  rewrite comps_slashed by (eapply Forall_impl; [intros a; apply name_ok_ok|apply kpath_names; auto]).
  destruct (create f (kpath (key_of tag tr)) (stored tr)) as [f'|] eqn:Ec; auto.
  apply (create_dense 6 f (kpath (key_of tag tr)) (stored tr) f' (rep_good _ _ R) eq_refl Ec HD).
Qed.

Lemma dense_adds ops : Forall valid_op ops -> forallb is_add ops = true -> dense (exec_all ops).
Proof.
  intros HV HA. unfold exec_all.
  assert (G : forall f m, Rep f m -> dense f -> dense (fold_left exec ops f)).
  { induction ops as [|o ops IH]; intros f m R HD; [exact HD|]. inversion HV; subst. cbn [forallb] in HA.
    apply andb_true_iff in HA as [Ha HA]. cbn [fold_left]. apply (IH H2 HA _ (spec m o)); [now apply rep_exec|].
    destruct o; try discriminate. now apply (dense_add f m). }
  apply (G _ db_empty rep_empty). intros [|q0 q] x Hq Hx; [congruence|discriminate].
Qed.

Lemma channels_eq f tag net sta : name_ok tag -> name_ok net -> name_ok sta ->
  get_available_channels f tag net sta = match lookup f [tag; net; sta] with Some n => keys n | None => [] end.
Proof.
  intros H1 H2 H3. unfold get_available_channels. rewrite hierarchy_slashed.
  change [tag; net; sta; "*"; "*"; "*"] with ([tag; net; sta] ++ ["*"; "*"; "*"])%list. rewrite slashed_app.
  assert (Hp : Forall name_ok [tag; net; sta]) by (repeat (constructor; auto)).
  change (slashed ["*"; "*"; "*"]) with ("/" ++ String "*" "/*/*"). rewrite <- append_assoc, split_head
    by (rewrite has_char_app, (plain_no_star (slashed _)) by (apply plain_slashed; auto); reflexivity).
  unfold at_path. rewrite comps_trailing by (eapply Forall_impl; [|exact Hp]; intros x; apply name_ok_ok). reflexivity.
Qed.

Lemma channels_exact ops tag net sta cha : Forall valid_op ops -> forallb is_add ops = true ->
  name_ok tag -> name_ok net -> name_ok sta ->
  (In cha (get_available_channels (exec_all ops) tag net sta) <->
   exists a e, spec_all ops (mkKey tag net sta cha a e) <> None).
Proof.
  intros HV HA Ht Hn Hs. pose proof (rep_all ops HV) as R. split.
  - rewrite channels_eq by auto. intros Hin. destruct (lookup (exec_all ops) [tag; net; sta]) as [n|] eqn:El; [|contradiction].
    destruct n as [d|ch]; [contradiction|]. cbn [keys] in Hin. apply key_dget in Hin as [v Hv].
    assert (L : lookup (exec_all ops) [tag; net; sta; cha] = Some v).
    { change [tag; net; sta; cha] with ([tag; net; sta] ++ [cha])%list. rewrite lookup_app, El. simpl. now rewrite Hv. }
    destruct (dense_adds ops HV HA [tag; net; sta; cha] v ltac:(discriminate) L) as (r & d & Hd).
    destruct (rep_keys _ _ R _ _ Hd) as (k & Hk & Ek). pose proof (rep_val _ _ R k Hk) as EV. rewrite <- Ek, Hd in EV.
    unfold kpath in Ek. destruct r as [|s [|e [|]]]; try discriminate. cbn [app] in Ek.
    apply list6_inj in Ek as (-> & -> & -> & -> & _ & _). exists (k_st k), (k_et k). destruct k; simpl in *. now rewrite <- EV.
  - intros (a & e & Hm). pose proof (rep_dom _ _ R _ Hm) as (HN & _). now apply (channels_complete _ _ _ _ _ _ a e R).
Qed.
