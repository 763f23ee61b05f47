From Verif Require Import Lib.Base Lib.Str Lib.StrFacts Lib.Time Lib.Sorting Model.CorrTrace Model.CorrDB Model.Combos Model.Rerun
  Spec.DBSpec Spec.XCombiSpec Spec.DirSpec Spec.RestartSpec Proofs.CorrDBFacts Proofs.XCombiFacts Proofs.RerunFacts Proofs.QueryOrder.
Local Open Scope nat_scope.
Local Open Scope string_scope.

(** ** C09 *)
Lemma names_sym_iff a b : seed_trace a -> seed_trace b ->
  (names_of a b = names_of b a <->
   t_net a ++ t_sta a ++ t_cha a <> t_net b ++ t_sta b ++ t_cha b \/ (t_net a = t_net b /\ t_sta a = t_sta b /\ t_cha a = t_cha b)).
Proof.
  intros (A1 & A2 & A3) (B1 & B2 & B3). rewrite !names_of_eq. unfold ordered.
  set (ka := t_net a ++ t_sta a ++ t_cha a). set (kb := t_net b ++ t_sta b ++ t_cha b). split.
  - destruct (string_dec ka kb) as [E|E]; [|now left]. intros H. right. rewrite <- E, str_le_refl in H.
    apply pair_equal_spec in H as [H H3]. apply pair_equal_spec in H as [H1 H2].
    apply (f_equal (split_on "-")) in H1, H2, H3. rewrite !split_dash in H1, H2, H3 by auto.
    split; [congruence|split; congruence].
  - intros [N|(E1 & E2 & E3)].
    + destruct (str_le ka kb) eqn:L1, (str_le kb ka) eqn:L2; auto.
      * pose proof (str_le_antisym _ _ L1 L2). contradiction.
      * destruct (str_le_total ka kb); congruence.
    + destruct (str_le ka kb), (str_le kb ka); rewrite ?E1, ?E2, ?E3; reflexivity.
Qed.
Lemma names_sym_len a b : seed_trace a -> seed_trace b ->
  String.length (t_net a) = String.length (t_net b) -> String.length (t_sta a) = String.length (t_sta b) -> names_of a b = names_of b a.
Proof.
  intros SA SB L1 L2. apply names_sym_iff; auto.
  destruct (string_dec (t_net a ++ t_sta a ++ t_cha a) (t_net b ++ t_sta b ++ t_cha b)) as [E|E]; [right|now left].
  apply append_inj_len in E as [E1 E]; auto. apply append_inj_len in E as [E2 E3]; auto.
Qed.

(** ** C53 *)
Lemma adds_spec tag w : forall k, spec_all (adds tag w) k = option_map stored (find (fun tr => key_eqb k (key_of tag tr)) w).
Proof.
  intros k. unfold spec_all, adds.
  assert (G : forall m, fold_left spec (map (fun tr => Add tr tag) w) m k = match m k with Some x => Some x | None => option_map stored (find (fun tr => key_eqb k (key_of tag tr)) w) end).
  { induction w as [|tr w IH]; intros m; cbn [map fold_left find]; [destruct (m k); reflexivity|].
    rewrite IH. cbn [spec]. unfold db_add. destruct (key_eqb k (key_of tag tr)).
    - destruct (m k); reflexivity.
    - reflexivity. }
  now rewrite G.
Qed.
Lemma find_app {A} (f : A -> bool) a b : find f (a ++ b)%list = match find f a with Some x => Some x | None => find f b end.
Proof. induction a as [|x a IH]; simpl; auto. destruct (f x); auto. Qed.
Lemma find_filter_keep {A} (f g : A -> bool) l : (forall x, In x l -> f x = true -> g x = true) -> find f (filter g l) = find f l.
Proof.
  induction l as [|x l IH]; intros H; [reflexivity|]. cbn [filter find]. assert (IH' := IH (fun y Hy => H y (or_intror Hy))).
  destruct (g x) eqn:G; cbn [find].
  - destruct (f x); auto.
  - destruct (f x) eqn:F; auto. rewrite (H x) in G; [discriminate|now left|auto].
Qed.
Lemma restart_same tag w n (skip : ctrace -> bool) :
  (forall a b, In a w -> In b w -> c_net a = c_net b -> c_sta a = c_sta b -> c_cha a = c_cha b -> tick (c_start a) = tick (c_start b) -> tick (c_end a) = tick (c_end b)) ->
  (forall tr, In tr w -> (skip tr = true <-> in_file (spec_all (adds tag (firstn n w))) tag tr)) ->
  forall k, spec_all (adds tag (firstn n w) ++ adds tag (filter (fun tr => negb (skip tr)) w))%list k = spec_all (adds tag w) k.
Proof.
  intros HE HS k. unfold adds. rewrite <- map_app. fold (adds tag (firstn n w ++ filter (fun tr => negb (skip tr)) w)). fold (adds tag w).
  rewrite !adds_spec, find_app. set (f := fun tr => key_eqb k (key_of tag tr)).
  assert (W : find f w = match find f (firstn n w) with Some x => Some x | None => find f (skipn n w) end) by (rewrite <- find_app, firstn_skipn; reflexivity).
  destruct (find f (firstn n w)) as [x|] eqn:F; [now rewrite W|]. clear W.
  rewrite find_filter_keep; [reflexivity|]. intros tr Ht Hf. apply negb_true_iff. destruct (skip tr) eqn:S; [|reflexivity]. exfalso.
  apply HS in S as [e He]; auto. rewrite adds_spec in He.
  destruct (find _ (firstn n w)) as [x|] eqn:Fx in He; [|now apply He]. apply find_some in Fx as [Ix Ex]. unfold f in Hf.
  destruct (key_eqb_spec k (key_of tag tr)) as [Ek|]; [|discriminate].
  destruct (key_eqb_spec (mkKey tag (c_net tr) (c_sta tr) (c_cha tr) (tick (c_start tr)) e) (key_of tag x)) as [Ex2|]; [|discriminate].
  unfold key_of in Ex2. injection Ex2 as E1 E2 E3 E4 E5.
  assert (Iw : In x w) by (rewrite <- (firstn_skipn n w); apply in_app_iff; now left).
  assert (K : f x = true).
  { unfold f. destruct (key_eqb_spec k (key_of tag x)) as [|N]; [reflexivity|]. exfalso. apply N. rewrite Ek. unfold key_of.
    rewrite (HE tr x Ht Iw E1 E2 E3 E4). congruence. }
  rewrite (find_none _ _ F x Ix) in K. discriminate.
Qed.

(** the stack of a batch is lost if the run stops between the two writes *)
Lemma spec_all_app a b k : spec_all (a ++ b) k = fold_left spec b (spec_all a) k.
Proof. unfold spec_all. now rewrite fold_left_app. Qed.
Lemma adds_other_tag tag w k : k_tag k <> tag -> spec_all (adds tag w) k = None.
Proof.
  intros H. rewrite adds_spec. destruct (find _ w) as [x|] eqn:F; [|reflexivity]. apply find_some in F as [_ F].
  destruct (key_eqb_spec k (key_of tag x)) as [->|]; [|discriminate]. exfalso. now apply H.
Qed.
Lemma fold_add_some tag s : forall m tr, In tr s -> fold_left spec (adds tag s) m (key_of tag tr) <> None.
Proof.
  unfold adds. induction s as [|x s IH]; intros m tr H; [contradiction|]. cbn [map fold_left].
  destruct H as [->|H]; [|now apply IH]. cbn [spec].
  assert (G : forall m', m' (key_of tag tr) <> None -> fold_left spec (map (fun tr => Add tr tag) s) m' (key_of tag tr) <> None).
  { clear. induction s as [|y s IH]; intros m' H; [exact H|]. cbn [map fold_left spec]. apply IH. unfold db_add.
    destruct (key_eqb _ _); [|exact H]. destruct (m' (key_of tag tr)); congruence. }
  apply G. unfold db_add. destruct (key_eqb_spec (key_of tag tr) (key_of tag tr)); [|congruence]. destruct (m _); discriminate.
Qed.
Lemma stack_lost stack stag w (skip : ctrace -> bool) s :
  stag <> "subdivision" -> w <> [] -> In s (stack w) ->
  let done := firstn (length w) (batch_ops stack stag w) in
  (forall tr, In tr w -> (skip tr = true <-> in_file (spec_all done) "subdivision" tr)) ->
  spec_all (done ++ batch_ops stack stag (filter (fun tr => negb (skip tr)) w)) (key_of stag s) = None /\
  spec_all (batch_ops stack stag w) (key_of stag s) <> None.
Proof.
  intros Ht Hw Hs done HS. assert (ED : done = adds "subdivision" w).
  { subst done. destruct w as [|x w0]; [congruence|]. unfold batch_ops. rewrite firstn_app. unfold adds at 2. rewrite map_length, Nat.sub_diag, app_nil_r.
    replace (length (x :: w0)) with (length (adds "subdivision" (x :: w0))) by (unfold adds; now rewrite map_length). apply firstn_all. }
  clearbody done. subst done. split.
  - assert (EF : filter (fun tr => negb (skip tr)) w = []).
    { assert (A : forall tr, In tr w -> skip tr = true).
      { intros tr Hin. apply HS; auto. exists (tick (c_end tr)). change (mkKey _ _ _ _ _ _) with (key_of "subdivision" tr).
        unfold spec_all. now apply fold_add_some. }
      clear -A. induction w as [|x w IH]; [reflexivity|]. cbn [filter]. rewrite (A x) by now left. cbn [negb]. apply IH. intros. apply A. now right. }
    rewrite EF. cbn [batch_ops]. rewrite app_nil_r. apply adds_other_tag. cbn. auto.
  - destruct w as [|x w0]; [congruence|]. unfold batch_ops. rewrite spec_all_app. now apply fold_add_some.
Qed.

(** ** C10, end to end *)
From Verif Require Import Spec.ComboSpec Proofs.ComboFacts.
Lemma documented_method i j a b m : (i = j -> a = b) -> documented m i j a b -> method_pair m a b.
Proof.
  intros HI [(-> & _ & H)|[(-> & _ & H & _)|[(-> & H)|[(-> & _)| ->]]]]; unfold method_pair; unfold same_station in *.
  - left. auto.
  - right. left. auto.
  - right. right. left. rewrite (HI H). auto.
  - right. right. right. left. auto.
  - right. right. right. right. auto.
Qed.
Lemma computed_iff_missing sep ln ls h stations method tag ex st w c :
  hist_ok sep ln ls h -> name_ok tag ->
  Forall (fun p => (seed (fst p) /\ seed (snd p)) /\ String.length (fst p) = ln /\ String.length (snd p) = ls) stations ->
  find_existing_times (dir_of h) stations method None tag "*" = Ok ex ->
  Forall (fun a => seed_trace a /\ In (t_net a, t_sta a) stations /\ time_ok (t_start a)) st ->
  calc_cross_combis st ex method None = Ok (w, c) ->
  forall i j, In (i, j) c <->
    exists a b, nth_error w i = Some a /\ nth_error w j = Some b /\ documented method i j a b /\ ~ corr_stored h tag a b.
Proof.
  intros HO HT HS HF HST HC i j. apply calc_exact in HC as (HP & _ & _ & HX). rewrite HX. rewrite Forall_forall in HST.
  assert (EX : forall a b, nth_error w i = Some a -> nth_error w j = Some b -> documented method i j a b ->
     (compare_existing_data ex a b = false <-> ~ corr_stored h tag a b)).
  { intros a b Ea Eb HD. assert (Ia : In a st) by (eapply Permutation.Permutation_in; [exact HP|eapply nth_error_In; eauto]).
    assert (Ib : In b st) by (eapply Permutation.Permutation_in; [exact HP|eapply nth_error_In; eauto]).
    destruct (HST a Ia) as (SA & CA & TA). destruct (HST b Ib) as (SB & CB & TB).
    rewrite <- (existing_exact sep ln ls h stations method tag ex a b HO HT HS HF SA SB CA CB); auto.
    - destruct (compare_existing_data ex a b); split; congruence.
    - eapply documented_method; [|exact HD]. intros ->. congruence. }
  split.
  - intros (a & b & Ea & Eb & HD & HC & _). exists a, b. repeat (split; auto). now apply EX.
  - intros (a & b & Ea & Eb & HD & HC). exists a, b. repeat (split; auto). now apply EX. intros _ l; discriminate.
Qed.
Lemma rerun_nothing sep ln ls h stations method tag ex st w c :
  hist_ok sep ln ls h -> name_ok tag ->
  Forall (fun p => (seed (fst p) /\ seed (snd p)) /\ String.length (fst p) = ln /\ String.length (snd p) = ls) stations ->
  find_existing_times (dir_of h) stations method None tag "*" = Ok ex ->
  Forall (fun a => seed_trace a /\ In (t_net a, t_sta a) stations /\ time_ok (t_start a)) st ->
  calc_cross_combis st ex method None = Ok (w, c) ->
  (forall a b, In a st -> In b st -> method_pair method a b -> corr_stored h tag a b) -> c = [].
Proof.
  intros HO HT HS HF HST HC HA. destruct c as [|[i j] c]; [reflexivity|]. exfalso.
  pose proof (proj1 (computed_iff_missing _ _ _ _ _ _ _ _ _ _ _ HO HT HS HF HST HC i j) (or_introl eq_refl)) as (a & b & Ea & Eb & HD & HN).
  apply calc_exact in HC as (HP & _). apply HN, HA.
  - eapply Permutation.Permutation_in; [exact HP|eapply nth_error_In; eauto].
  - eapply Permutation.Permutation_in; [exact HP|eapply nth_error_In; eauto].
  - eapply documented_method; [|exact HD]. intros ->. congruence.
Qed.

(** the search for existing correlations succeeds if every file holds data of the tag *)
Lemma collect_total fs nc sc tag : forall d, (forall n f, In (n, f) fs -> exists e, get_available_starttimes f nc sc tag "*" = Ok e) ->
  exists t, collect fs nc sc tag "*" d = Ok t.
Proof.
  induction fs as [|[n f] fs IH]; intros d H; cbn [collect]; [eauto|]. destruct (H n f (or_introl eq_refl)) as [e E]. cbn [snd]. rewrite E. cbn [bind].
  apply IH. intros. eapply H. right. eauto.
Qed.
Lemma search_succeeds_rc sep ln ls h stations method rc tag :
  hist_ok sep ln ls h -> name_ok tag -> known_method method ->
  Forall (fun p => (seed (fst p) /\ seed (snd p)) /\ String.length (fst p) = ln /\ String.length (snd p) = ls) stations ->
  (forall name ops, In (name, ops) h -> exists k, k_tag k = tag /\ spec_all ops k <> None) ->
  exists ex, find_existing_times (dir_of h) stations method rc tag "*" = Ok ex.
Proof.
  intros HO HT HM HS HH. unfold find_existing_times.
  assert (EC : exists combs, station_combinations stations method rc = Ok combs).
  { unfold known_method in HM. cbn [In] in HM. decompose [or] HM; subst; try contradiction; eexists; reflexivity. }
  destruct EC as [combs EC]. rewrite EC. cbn [bind].
  assert (OK : Forall pair_ok combs) by (eapply combs_ok; [|eauto]; eapply Forall_impl; [|exact HS]; intros p Hp; apply Hp).
  assert (LEN : Forall (fun c => String.length (fst c) = ln + 1 + ln /\ String.length (snd c) = ls + 1 + ls) combs).
  { rewrite Forall_forall in HS. apply Forall_forall. intros c Hc. unfold station_combinations in EC.
    assert (PC : forall p q, In p stations -> In q stations -> String.length (fst (pair_codes p q)) = ln + 1 + ln /\ String.length (snd (pair_codes p q)) = ls + 1 + ls).
    { intros p q Hp Hq. destruct (HS p Hp) as (_ & P1 & P2). destruct (HS q Hq) as (_ & Q1 & Q2). unfold pair_codes, sort_comb. cbv zeta.
      destruct (str_le _ _); cbn [fst snd]; rewrite !len_app; simpl; lia. }
    destruct (String.eqb method "betweenStations"); [injection EC as <-|destruct (_ || _); [injection EC as <-|
      destruct (String.eqb method "allSimpleCombinations"); [injection EC as <-|destruct (String.eqb method "allCombinations"); [injection EC as <-|discriminate]]]].
    - apply filter_In in Hc as [Hc _]. apply in_map_iff in Hc as ([p q] & <- & Hc). apply filter_In in Hc as [Hc _]. apply later_pairs_in in Hc as [Hp Hq]. now apply PC.
    - apply in_map_iff in Hc as (p & <- & Hp). destruct (HS p Hp) as (_ & P1 & P2). cbn [fst snd]. rewrite !len_app. simpl. lia.
    - apply in_map_iff in Hc as ([p q] & <- & Hc). apply simple_pairs_in in Hc as [Hp Hq]. now apply PC.
    - apply in_map_iff in Hc as ([p q] & <- & Hc). apply in_prod_iff in Hc as [Hp Hq]. now apply PC. }
  clear EC. generalize (@nil (string * list (string * list (string * list string)))) as ex. induction combs as [|[nc sc] combs IH]; intros ex; cbn [existing_loop]; [eauto|].
  inversion OK as [|? ? O1 O2]. inversion LEN as [|? ? L1 L2]. subst. destruct (glob_pair (dir_of h) nc sc) as [|g gs] eqn:EG; [now apply IH|]. rewrite <- EG.
  destruct O1 as (n0 & n1 & s0 & s1 & N0 & N1 & S0 & S1 & E). apply pair_equal_spec in E as [-> ->]. cbn [fst snd] in L1. destruct L1 as [La Lb].
  assert (Nn : name_ok (n0 ++ "-" ++ n1)) by (apply name_ok_pair; [apply N0|apply N1]). assert (Ns : name_ok (s0 ++ "-" ++ s1)) by (apply name_ok_pair; [apply S0|apply S1]).
  destruct (collect_total (glob_pair (dir_of h) (n0 ++ "-" ++ n1) (s0 ++ "-" ++ s1)) (n0 ++ "-" ++ n1) (s0 ++ "-" ++ s1) tag []) as [t Et].
  { intros n f Hin. apply (glob_iff sep ln ls) in Hin as (ops & cha & Hin & -> & _ & HK); auto; [|apply Nn|apply Ns].
    destruct HO as [_ HF]. rewrite Forall_forall in HF. destruct (HF _ Hin) as (V & _). cbn [snd] in V.
    pose proof (ListingFacts.starttimes_wild_exact _ _ (n0 ++ "-" ++ n1) (s0 ++ "-" ++ s1) tag "*" (rep_all ops V) HT Nn Ns eq_refl) as H.
    destruct (get_available_starttimes _ _ _ _ _) as [e|x]; [eauto|]. exfalso. destruct H as [_ H]. destruct (HH _ _ Hin) as (k & Ek & Hk).
    destruct (HK k Hk) as (K1 & K2 & _). apply Hk. destruct k as [kt kn ks kc ka ke]. cbn in *. subst. apply H. }
  rewrite Et. cbn [bind]. rewrite !split_dash by auto. cbn [two bind]. now apply IH.
Qed.
Lemma search_succeeds sep ln ls h stations method tag :
  hist_ok sep ln ls h -> name_ok tag -> known_method method ->
  Forall (fun p => (seed (fst p) /\ seed (snd p)) /\ String.length (fst p) = ln /\ String.length (snd p) = ls) stations ->
  (forall name ops, In (name, ops) h -> exists k, k_tag k = tag /\ spec_all ops k <> None) ->
  exists ex, find_existing_times (dir_of h) stations method None tag "*" = Ok ex.
Proof. exact (search_succeeds_rc sep ln ls h stations method None tag). Qed.
