(** Reading back what a run has written. *)
From Coq Require Import QArith Permutation Sorted Lia.
From Verif Require Import Lib.Base Lib.Str Lib.StrFacts Lib.Time Model.H5 Model.CorrTrace Model.CorrDB Spec.DBSpec Proofs.H5Facts Proofs.CorrDBFacts Proofs.HistoryFacts Proofs.ListingFacts
  Model.Rerun Model.WriteOut Model.MonitorFiles Model.MonitorRun Model.MonitorInput Spec.HeaderSpec Proofs.OutputFacts Proofs.RunToFilesFacts.
From Verif Require Model.CorrStream Spec.StreamSpec Proofs.BulkFacts Proofs.MonitorFilesFacts Proofs.MonitorRunFacts.
Local Open Scope string_scope.
Local Open Scope list_scope.
Local Open Scope nat_scope.

(** ** names of files *)
(** two codes with a dash in between, without dots *)
Definition dashed (c : string) : Prop := exists a b, c = (a ++ "-" ++ b)%string /\ a <> ""%string /\ has_char "." c = false.

Lemma keep_star name n s r : split_on "." name = n :: s :: r -> keep_file (FStr "*") (FStr "*") name = Some (n, s, name).
Proof.
  intros E. unfold keep_file. rewrite E.
  assert (X : forall l, both_match l "*" = true) by (intros l; apply MonitorFilesFacts.both_match_iff; intros c _; apply fnmatch_star_all).
  now rewrite !X.
Qed.
Lemma globbed_name n s rest : dashed n -> dashed s -> globbed (n ++ "." ++ s ++ rest ++ ".h5")%string = true.
Proof.
  intros (a & b & -> & A & DA) (c & e & -> & _ & _). unfold globbed. apply Bool.andb_true_iff. split.
  - apply fnmatch_star. exists a, ("-" ++ (b ++ "." ++ (c ++ "-" ++ e) ++ rest ++ ".h5"))%string. split; [repeat rewrite append_assoc; reflexivity|].
    change "-*.*-*.h5" with ("-" ++ "*.*-*.h5")%string. apply fnmatch_prefix; [reflexivity|]. eexists. split; [reflexivity|].
    apply fnmatch_star. exists b, ("." ++ (c ++ "-" ++ e ++ rest ++ ".h5"))%string. split; [repeat rewrite append_assoc; reflexivity|].
    change ".*-*.h5" with ("." ++ "*-*.h5")%string. apply fnmatch_prefix; [reflexivity|]. eexists. split; [reflexivity|].
    apply fnmatch_star. exists c, ("-" ++ (e ++ rest ++ ".h5"))%string. split; [repeat rewrite append_assoc; reflexivity|].
    change "-*.h5" with ("-" ++ "*.h5")%string. apply fnmatch_prefix; [reflexivity|]. eexists. split; [reflexivity|].
    apply fnmatch_star. exists (e ++ rest)%string, ".h5". split; [repeat rewrite append_assoc; reflexivity|]. rewrite fnmatch_plain by reflexivity. reflexivity.
  - apply Bool.negb_true_iff. destruct a as [|x a]; [congruence|]. cbn [append is_prefix]. cbn [append has_char] in DA.
    destruct (Ascii.eqb_spec "." x) as [<-|]; [|reflexivity]. discriminate.
Qed.
Lemma split_file sep tr : has_char "." (c_net tr) = false -> has_char "." (c_sta tr) = false ->
  exists r, split_on "." (own_file sep tr) = c_net tr :: c_sta tr :: r.
Proof.
  intros A B. unfold own_file. cbn [append]. rewrite (split_on_app "." (c_net tr)) by exact A.
  destruct sep; cbn [append]; rewrite (split_on_app "." (c_sta tr)) by exact B; eauto.
Qed.
Lemma globbed_file sep tr : dashed (c_net tr) -> dashed (c_sta tr) -> globbed (own_file sep tr) = true.
Proof. intros A B. unfold own_file. exact (globbed_name _ _ _ A B). Qed.
Lemma find_all listing : (forall f, In f listing -> globbed f = true /\ exists n s r, split_on "." f = n :: s :: r) ->
  corr_find_filter (FStr "*") (FStr "*") listing = map (fun f => (nth 0 (split_on "." f) "", nth 1 (split_on "." f) "", f)) listing.
Proof.
  intros H. unfold corr_find_filter. induction listing as [|f l IH]; [reflexivity|]. cbn [filter map].
  destruct (H f (or_introl eq_refl)) as (G & n & s & r & E). rewrite G. cbn [flat_map map]. rewrite (keep_star f n s r E), E. cbn [nth app].
  f_equal. apply IH. intros g I. apply H. now right.
Qed.

(** ** what is listed *)
Lemma channels_nodup f m tag net sta : Rep f m -> NoDup (get_available_channels f tag net sta).
Proof.
  intros R. unfold get_available_channels. set (root := match split_on "*" _ with h :: _ => h | [] => "" end). unfold at_path.
  destruct (lookup f (comps root)) as [nd|] eqn:E; [|constructor].
  pose proof (good_lookup 6 f _ _ (rep_good _ _ R) E) as [_ G]. destruct (6 - length (comps root)) as [|j].
  - destruct G as [x ->]. constructor.
  - destruct G as (ch & -> & KS & _). cbn [keys]. unfold ksorted in KS. clear -KS. induction KS as [|a l S IH F]; [constructor|]. constructor; [|exact IH].
    intros I. rewrite Forall_forall in F. exact (slt_irrefl a (F a I)).
Qed.

Section Directory.
  Variables (sep : bool) (d : Rerun.dir) (L : list ctrace).
  Hypotheses (H : holds sep d L) (ND : NoDup (map fst d)) (ST : Forall storable L) (KD : NoDup (map (key_of "subdivision") L)).
  Hypotheses (DA : forall tr, In tr L -> dashed (c_net tr) /\ dashed (c_sta tr)).

  Lemma in_file name tr : In tr (of_file sep name L) <-> In tr L /\ own_file sep tr = name.
  Proof. unfold of_file. rewrite filter_In, String.eqb_eq. tauto. Qed.
  Lemma keys_file name : NoDup (map (key_of "subdivision") (of_file sep name L)).
  Proof. clear -KD. unfold of_file. induction L as [|x l IH]; [constructor|]. cbn [map] in KD. inversion KD as [|? ? NI N]; subst. cbn [filter]. destruct (String.eqb _ _); [|now apply IH]. cbn [map]. constructor; [|now apply IH].
    intros I. apply NI. apply in_map_iff in I. destruct I as (y & E & I). apply filter_In in I. rewrite <- E. now apply in_map. Qed.
  Lemma file_of name : In name (map fst d) -> exists tr, In tr L /\ own_file sep tr = name /\ dget d name = Some (exec_all (adds (of_file sep name L))).
  Proof.
    intros I. assert (X : dget d name <> None).
    { clear -I. induction d as [|[k v] l IH]; [contradiction|]. cbn [dget]. destruct (String.eqb_spec name k) as [->|N]; [discriminate|]. destruct I as [I|I]; [cbn [fst] in I; congruence|now apply IH]. }
    rewrite H in X |- *. destruct (of_file sep name L) as [|tr r] eqn:E; [congruence|]. exists tr.
    assert (Y : In tr (of_file sep name L)) by (rewrite E; now left). apply in_file in Y. tauto.
  Qed.
  Lemma has_file tr : In tr L -> In (own_file sep tr) (map fst d) /\ dget d (own_file sep tr) = Some (exec_all (adds (of_file sep (own_file sep tr) L))).
  Proof.
    intros I. assert (Y : In tr (of_file sep (own_file sep tr) L)) by now apply in_file. pose proof (H (own_file sep tr)) as E. destruct (of_file sep (own_file sep tr) L) as [|t r]; [contradiction|]. split; [|exact E].
    clear -E. induction d as [|[k v] l IH]; [discriminate|]. cbn [dget] in E. destruct (String.eqb_spec (own_file sep tr) k) as [->|]; [now left|right; now apply IH].
  Qed.
  Lemma valid_file name : Forall valid_op (adds (of_file sep name L)).
  Proof. apply valid_adds. now apply storable_sub. Qed.
  Lemma spec_file name key : spec_all (adds (of_file sep name L)) key <> None <-> exists tr, In tr (of_file sep name L) /\ key = key_of "subdivision" tr.
  Proof.
    rewrite spec_adds by apply keys_file. split.
    - destruct (find _ _) as [tr|] eqn:E; [|congruence]. intros _. apply find_some in E. destruct E as [I E]. exists tr. split; [exact I|]. now destruct (key_eqb_spec key (key_of "subdivision" tr)).
    - intros (tr & I & ->). rewrite find_key by (assumption || apply keys_file). discriminate.
  Qed.
  Lemma spec_value name tr : In tr (of_file sep name L) -> spec_all (adds (of_file sep name L)) (key_of "subdivision" tr) = Some (stored tr).
  Proof. intros I. rewrite spec_adds by apply keys_file. rewrite find_key by (assumption || apply keys_file). reflexivity. Qed.
  Lemma storable_names tr : In tr L -> names_ok "subdivision" (c_net tr) (c_sta tr) (c_cha tr) /\ time_ok (c_start tr) /\ time_ok (c_end tr).
  Proof. intros I. rewrite Forall_forall in ST. exact (ST _ I). Qed.

  Definition item_of (tr : ctrace) : item := mkItem (own_file sep tr) (c_net tr) (c_sta tr) (c_cha tr).
  Lemma listed : exists l, plist (opened d) (corr_find_filter (FStr "*") (FStr "*") (map fst d)) = Ok l /\ NoDup l /\ forall i, In i l <-> exists tr, In tr L /\ i = item_of tr.
  Proof.
    assert (NM : forall f, In f (map fst d) -> exists tr, In tr L /\ own_file sep tr = f /\ (exists r, split_on "." f = c_net tr :: c_sta tr :: r) /\ dget d f = Some (exec_all (adds (of_file sep f L)))).
    { intros f I. destruct (file_of f I) as (tr & T & O & G). exists tr. split; [exact T|]. split; [exact O|]. split; [|exact G]. rewrite <- O.
      destruct (DA tr T) as ((? & ? & _ & _ & X) & (? & ? & _ & _ & Y)). now apply split_file. }
    rewrite find_all.
    2: { intros f I. destruct (NM f I) as (tr & T & O & (r & E) & _). split; [|eauto]. rewrite <- O. apply globbed_file; now apply DA. }
    set (entry := fun f => (nth 0 (split_on "." f) "", nth 1 (split_on "." f) "", f)).
    set (chans := fun f => get_available_channels (exec_all (adds (of_file sep f L))) "subdivision" (nth 0 (split_on "." f) "") (nth 1 (split_on "." f) "")).
    set (items := fun f => map (mkItem f (nth 0 (split_on "." f) "") (nth 1 (split_on "." f) "")) (chans f)).
    assert (E : plist (opened d) (map entry (map fst d)) = Ok (flat_map items (map fst d))).
    { unfold plist. rewrite (mapM_ok _ (fun e => items (snd e))).
      - cbn [bind]. f_equal. rewrite map_map. cbn [snd entry]. now rewrite flat_map_concat_map.
      - intros e I. apply in_map_iff in I. destruct I as (f & <- & I). destruct (NM f I) as (tr & T & O & _ & G). unfold entry at 1. cbn [snd entry]. unfold opened. rewrite G. reflexivity. }
    exists (flat_map items (map fst d)). split; [exact E|]. split.
    - clear E NM. clear - ND ST. revert ND. generalize (map fst d) as fs. intros fs. induction fs as [|f fs IH]; intros N; [constructor|]. inversion N as [|? ? NI N']; subst. cbn [flat_map]. apply NoDup_app_i; [|now apply IH|].
      + unfold items. apply FinFun.Injective_map_NoDup; [intros x y X; congruence|]. unfold chans. eapply channels_nodup. apply rep_all. apply valid_adds. now apply storable_sub.
      + intros i A B. apply in_flat_map in B. destruct B as (g & G & B). unfold items in A, B. apply in_map_iff in A. apply in_map_iff in B. destruct A as (? & <- & _). destruct B as (? & B & _). injection B as -> _. contradiction.
    - intros i. rewrite in_flat_map. split.
      + intros (f & I & J). destruct (NM f I) as (tr & T & O & (r & SP) & _). unfold items, chans in J. rewrite SP in J. cbn [nth] in J. apply in_map_iff in J. destruct J as (c & <- & J).
        destruct (storable_names tr T) as ((N1 & N2 & N3 & N4) & _). apply channels_exact in J; [|apply valid_file| |assumption..].
        * destruct J as (a & e & J). apply spec_file in J. destruct J as (tr' & T' & KE). unfold key_of in KE. injection KE as E1 E2 E3 _ _. apply in_file in T'. destruct T' as [T' O']. exists tr'. split; [exact T'|]. unfold item_of. now rewrite O', E1, E2, E3.
        * clear. unfold adds. induction (of_file sep f L); [reflexivity|assumption].
      + intros (tr & T & ->). destruct (has_file tr T) as (I & G). exists (own_file sep tr). split; [exact I|]. destruct (DA tr T) as ((? & ? & _ & _ & X) & (? & ? & _ & _ & Y)). destruct (split_file sep tr X Y) as (r & SP).
        unfold items, chans. rewrite SP. cbn [nth]. unfold item_of. apply in_map. destruct (storable_names tr T) as ((N1 & N2 & N3 & N4) & _).
        apply channels_exact; [apply valid_file| |assumption..|].
        * clear. unfold adds. induction (of_file sep (own_file sep tr) L); [reflexivity|assumption].
        * exists (tick (c_start tr)), (tick (c_end tr)). apply spec_file. exists tr. split; [now apply in_file|reflexivity].
  Qed.

  (** ** what is read *)
  Definition earlier (a b : ctrace) : Prop := (tick (c_start a) < tick (c_start b))%Z \/ tick (c_start a) = tick (c_start b) /\ (tick (c_end a) < tick (c_end b))%Z.
  Definition one_pair (a b : ctrace) : Prop := c_net b = c_net a /\ c_sta b = c_sta a /\ c_cha b = c_cha a.
  Lemma pair_file a b : one_pair a b -> own_file sep b = own_file sep a.
  Proof. intros (A & B & C). unfold own_file. now rewrite A, B, C. Qed.
  Lemma read_pair tr0 : In tr0 L -> canonical (c_net tr0) (c_sta tr0) (c_cha tr0) ->
    exists trs, get_data (exec_all (adds (of_file sep (own_file sep tr0) L))) (c_net tr0) (c_sta tr0) (c_cha tr0) "subdivision" None None = Ok (map stored trs) /\
      StronglySorted earlier trs /\ forall tr, In tr trs <-> In tr L /\ one_pair tr0 tr.
  Proof.
    intros T CN. set (name := own_file sep tr0). destruct (storable_names tr0 T) as ((N1 & N2 & N3 & N4) & _ & _).
    pose proof (query_adjacent (adds (of_file sep name L)) (c_net tr0) (c_sta tr0) (c_cha tr0) "subdivision" None None (valid_file name)) as Q.
    assert (A : adjacent (stars (c_net tr0) (c_sta tr0) (c_cha tr0) "subdivision" None None)).
    { exists 4, 2, 0. unfold stars. cbn [map time_arg]. 
      assert (X : forall s, name_ok s -> String.eqb s "*" = false) by (intros s NS; apply String.eqb_neq; now apply name_not_star).
      rewrite !X by assumption. reflexivity. }
    specialize (Q ltac:(repeat apply Forall_cons; try apply Forall_nil; right; assumption) CN ltac:(discriminate) ltac:(discriminate) A).
    assert (KM : forall tr, In tr (of_file sep name L) -> (key_matches (c_net tr0) (c_sta tr0) (c_cha tr0) "subdivision" None None (key_of "subdivision" tr) <-> one_pair tr0 tr)).
    { intros tr _. unfold key_matches, key_of, one_pair, field_matches. cbn [k_tag k_net k_sta k_cha k_st k_et time_matches].
      pose proof (name_not_star _ N2). pose proof (name_not_star _ N3). pose proof (name_not_star _ N4). split.
      - intros (_ & [?|?] & [?|?] & [?|?] & _); try contradiction; repeat split; congruence.
      - intros (-> & -> & ->). repeat split; right; reflexivity. }
    destruct (get_data _ _ _ _ _ _ _) as [r|e].
    - destruct Q as (ks & SS & IN & E).
      assert (X : exists trs, map (key_of "subdivision") trs = ks /\ map stored trs = r /\ forall tr, In tr trs -> In tr (of_file sep name L)).
      { assert (J : forall k, In k ks -> exists tr, In tr (of_file sep name L) /\ k = key_of "subdivision" tr) by (intros k I; apply IN in I; now apply spec_file). clear -E J ST KD.
        revert r E J. induction ks as [|k ks IH]; intros r E J; destruct r as [|x r]; try discriminate.
        - exists []. repeat split; intros ? [].
        - cbn [map] in E. injection E as E1 E2. destruct (IH r E2) as (trs & A & B & C); [intros; apply J; now right|]. destruct (J k (or_introl eq_refl)) as (tr & TI & ->).
          exists (tr :: trs). cbn [map]. rewrite A, B. split; [reflexivity|]. split.
          + rewrite (spec_value name tr TI) in E1. injection E1 as ->. reflexivity.
          + intros t [<-|I]; auto. }
      destruct X as (trs & E1 & E2 & IT). exists trs. split; [now rewrite E2|].
      assert (IP : forall tr, In tr trs <-> In tr L /\ one_pair tr0 tr).
      { intros tr. split.
        - intros I. pose proof (IT _ I) as F. pose proof F as F0. apply in_file in F. split; [tauto|]. apply (KM tr F0). apply (IN (key_of "subdivision" tr)). rewrite <- E1. now apply in_map.
        - intros (I & P). assert (F : In tr (of_file sep name L)) by (apply in_file; split; [exact I|now apply pair_file]).
          assert (K : In (key_of "subdivision" tr) ks) by (apply IN; split; [apply spec_file; eauto|now apply KM]).
          rewrite <- E1 in K. apply in_map_iff in K. destruct K as (tr' & KE & I'). replace tr with tr'; [exact I'|].
          apply IT, in_file in I'. destruct I' as [I' _]. clear -KD I I' KE. induction L as [|x l IH]; [contradiction|]. cbn [map] in KD. inversion KD as [|? ? NI N]; subst.
          destruct I as [->|I], I' as [->|I']; [reflexivity| | |now apply IH]; exfalso; apply NI; [rewrite <- KE|rewrite KE]; now apply in_map. }
      split; [|exact IP].
      assert (P : forall tr, In tr trs -> one_pair tr0 tr) by (intros tr I; now apply IP in I). rewrite <- E1 in SS. clear -SS P. induction trs as [|tr trs IH]; [constructor|]. cbn [map] in SS. inversion SS as [|? ? S1 F]; subst. constructor; [apply IH; [exact S1|intros; apply P; now right]|].
      rewrite Forall_forall in *. intros t I. specialize (F _ (in_map _ _ _ I)). destruct (P tr (or_introl eq_refl)) as (A1 & A2 & A3). destruct (P t (or_intror I)) as (B1 & B2 & B3).
      unfold key_before, key_of in F. cbn [k_tag k_net k_sta k_cha k_st k_et] in F. rewrite A1, A2, A3, B1, B2, B3, !compare_refl in F. cbn [lex] in F. unfold earlier.
      destruct (Z.compare_spec (tick (c_start tr)) (tick (c_start t))); cbn [lex] in F; [right|now left|discriminate]. split; [assumption|]. now apply Z.compare_lt_iff.
    - exfalso. destruct Q as [_ Q]. assert (I : In tr0 (of_file sep name L)) by now apply in_file. pose proof (proj2 (KM tr0 I) (conj eq_refl (conj eq_refl eq_refl))) as M. specialize (Q _ M).
      rewrite (spec_value name tr0 I) in Q. discriminate.
  Qed.
End Directory.

(** ** the matrix *)
Lemma upper_wild c (x : ascii) : (x = "*" \/ x = "?" \/ x = "[")%char -> Ascii.eqb (upper_char c) x = Ascii.eqb c x.
Proof. intros [-> | [-> | ->]]; destruct c as [[] [] [] [] [] [] [] []]; reflexivity. Qed.
Lemma upper_plain s : plain s = true -> plain (upper s) = true.
Proof.
  intros P. apply plain_iff in P. destruct P as (A & B & C). apply plain_iff.
  assert (X : forall x s, (x = "*" \/ x = "?" \/ x = "[")%char -> has_char x (upper s) = has_char x s).
  { clear. intros x s X. induction s as [|c s IH]; [reflexivity|]. cbn [upper has_char]. now rewrite upper_wild, IH. }
  rewrite !X by tauto. tauto.
Qed.
Lemma selects net sta cha tr : plain net = true -> plain sta = true -> plain cha = true -> c_net tr = net -> c_sta tr = sta -> c_cha tr = cha -> selected net sta cha (to_ctr tr) = true.
Proof.
  intros A B C <- <- <-. unfold selected, to_ctr. cbn [CorrStream.t_net CorrStream.t_sta CorrStream.t_cha]. rewrite !fnmatch_plain by now apply upper_plain. now rewrite !String.eqb_refl.
Qed.
Lemma one_channel cha : plain cha = true -> several_channels cha = false.
Proof. intros P. apply plain_iff in P. destruct P as (A & B & _). unfold several_channels. now rewrite A, B. Qed.

Lemma matrix_of h r net sta cha sr lag n : plain net = true -> plain sta = true -> plain cha = true ->
  Forall (fun tr => c_net tr = net /\ c_sta tr = sta /\ c_cha tr = cha /\ c_sr tr = sr /\ (c_lag tr == lag)%Q /\ length (c_data tr) = n) (h :: r) ->
  exists m, CorrStream.create_corr_bulk (several_channels cha) None (filter (selected net sta cha) (map to_ctr (h :: r))) = Ok m /\
    CorrStream.b_net m = net /\ CorrStream.b_sta m = sta /\ CorrStream.b_cha m = CorrStream.One cha /\ CorrStream.b_loc m = CorrStream.Many (map c_loc (h :: r)) /\
    CorrStream.b_start m = map c_start (h :: r) /\ CorrStream.b_end m = map c_end (h :: r) /\ CorrStream.b_sr m = sr /\ (CorrStream.b_lag m == lag)%Q /\
    CorrStream.b_npts m = n /\ CorrStream.b_ntrcs m = length (h :: r) /\ CorrStream.b_data m = map (fun tr => map Some (c_data tr)) (h :: r).
Proof.
  intros P1 P2 P3 F. rewrite (one_channel cha P3).
  assert (FA : filter (selected net sta cha) (map to_ctr (h :: r)) = map to_ctr (h :: r)).
  { apply MonitorFilesFacts.filter_all. intros x I. apply in_map_iff in I. destruct I as (tr & <- & I). rewrite Forall_forall in F. destruct (F tr I) as (A & B & C & _). now apply selects. }
  rewrite FA. clear FA. pose proof F as F0. rewrite Forall_forall in F0. destruct (F0 h (or_introl eq_refl)) as (E1 & E2 & E3 & E4 & E5 & E6).
  unfold CorrStream.create_corr_bulk. cbn [map]. set (hh := to_ctr h).
  assert (SR : forall t, In t (hh :: map to_ctr r) -> Qeq_bool (CorrStream.t_sr t) (CorrStream.t_sr hh) = true).
  { intros t I. change (hh :: map to_ctr r) with (map to_ctr (h :: r)) in I. apply in_map_iff in I. destruct I as (tr & <- & I). destruct (F0 tr I) as (_ & _ & _ & A & _). unfold hh, to_ctr. cbn [CorrStream.t_sr]. rewrite A, E4. apply Qeq_bool_iff. reflexivity. }
  assert (FA : filter (fun t => Qeq_bool (CorrStream.t_sr t) (CorrStream.t_sr hh)) (hh :: map to_ctr r) = hh :: map to_ctr r) by (apply MonitorFilesFacts.filter_all; exact SR).
  rewrite FA. clear FA SR.
  assert (X : existsb (CorrStream.immutable_differs false hh) (hh :: map to_ctr r) = false).
  { apply Bool.not_true_is_false. intros X. apply existsb_exists in X. destruct X as (t & I & X). change (hh :: map to_ctr r) with (map to_ctr (h :: r)) in I. apply in_map_iff in I. destruct I as (tr & <- & I).
    destruct (F0 tr I) as (A1 & A2 & A3 & A4 & A5 & A6). unfold CorrStream.immutable_differs, CorrStream.npts, hh, to_ctr in X. cbn [CorrStream.t_net CorrStream.t_sta CorrStream.t_cha CorrStream.t_sr CorrStream.t_lag CorrStream.t_geo CorrStream.t_data combine existsb negb andb] in X.
    rewrite !map_length, A6, E6, Nat.eqb_refl, A1, A2, A3, A4, E1, E2, E3, E4, !String.eqb_refl in X.
    replace (Qeq_bool sr sr) with true in X by (symmetry; apply Qeq_bool_iff; reflexivity).
    replace (Qeq_bool (c_lag h) (c_lag tr)) with true in X by (symmetry; apply Qeq_bool_iff; now rewrite A5, E5). discriminate. }
  rewrite X. eexists. split; [reflexivity|]. cbn [CorrStream.b_net CorrStream.b_sta CorrStream.b_cha CorrStream.b_loc CorrStream.b_start CorrStream.b_end CorrStream.b_sr CorrStream.b_lag CorrStream.b_npts CorrStream.b_ntrcs CorrStream.b_data].
  unfold CorrStream.npts, hh. cbn [to_ctr CorrStream.t_net CorrStream.t_sta CorrStream.t_cha CorrStream.t_sr CorrStream.t_lag CorrStream.t_data].
  split; [exact E1|]. split; [exact E2|]. split; [now rewrite E3|]. change (to_ctr h :: map to_ctr r) with (map to_ctr (h :: r)). rewrite !map_map, !map_length.
  repeat split; try assumption.
Qed.
