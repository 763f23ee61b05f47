(** Writing of a batch, stored order of a pair and header consistency. *)
From Verif Require Import Lib.Base Lib.Str Lib.StrFacts Lib.Sorting Model.Partition Model.CorrTrace Model.Flip Model.WriteOut Model.CorrStats
  Proofs.PartitionFacts Proofs.QueryOrder Spec.DBSpec Spec.HeaderSpec.
From Coq Require Import Permutation Lqa.
Local Open Scope nat_scope.
Local Open Scope string_scope.

(** ** C12 *)
Lemma flip_keep h1 h2 sr sl el data : str_le (r_net h1 ++ r_sta h1 ++ r_cha h1) (r_net h2 ++ r_sta h2 ++ r_cha h2) = true ->
  c_data (alphabetical_correlation h1 h2 sr sl el data) = data /\ c_lag (alphabetical_correlation h1 h2 sr sl el data) = sl /\
  c_sr (alphabetical_correlation h1 h2 sr sl el data) = sr.
Proof. intros H. unfold alphabetical_correlation. now rewrite H. Qed.
Lemma flip_rev h1 h2 sr sl el data : str_le (r_net h1 ++ r_sta h1 ++ r_cha h1) (r_net h2 ++ r_sta h2 ++ r_cha h2) = false ->
  c_data (alphabetical_correlation h1 h2 sr sl el data) = rev data /\ c_lag (alphabetical_correlation h1 h2 sr sl el data) = (- el)%Q /\
  c_sr (alphabetical_correlation h1 h2 sr sl el data) = sr.
Proof. intros H. unfold alphabetical_correlation. now rewrite H. Qed.

Lemma nth_error_rev {A} (l : list A) i : i < length l -> nth_error (rev l) (length l - 1 - i) = nth_error l i.
Proof.
  intros H. destruct l as [|x l']; [simpl in H; lia|]. set (l := x :: l') in *.
  rewrite (nth_error_nth' (rev l) x) by (rewrite rev_length; lia). rewrite (nth_error_nth' l x) by lia.
  rewrite rev_nth by lia. f_equal. f_equal. lia.
Qed.
Lemma inject_minus n i : i < n -> inject_Z (Z.of_nat (n - 1 - i)) == inject_Z (Z.of_nat n) - 1 - inject_Z (Z.of_nat i).
Proof.
  intros H. replace (Z.of_nat (n - 1 - i)) with (Z.of_nat n + - (1) + - Z.of_nat i)%Z by lia.
  rewrite !inject_Z_plus, !inject_Z_opp. reflexivity.
Qed.
Lemma flipped_lag sr sl el (n i : nat) (d : Q) : ~ sr == 0 -> i < n -> el == sl + (inject_Z (Z.of_nat n) - 1 + d) / sr ->
  lag_at (- el) sr (n - 1 - i) == - lag_at sl sr i - d / sr.
Proof.
  intros Hs Hi He. unfold lag_at. rewrite He, inject_minus by auto. field. exact Hs.
Qed.

Lemma flip_correct h1 h2 sr sl el data i v : ~ sr == 0 ->
  el == lag_at sl sr (length data - 1) -> nth_error data i = Some v ->
  let tr := alphabetical_correlation h1 h2 sr sl el data in
  (c_net tr = r_net h1 ++ "-" ++ r_net h2 /\ c_sta tr = r_sta h1 ++ "-" ++ r_sta h2 /\ c_cha tr = r_cha h1 ++ "-" ++ r_cha h2 /\
   nth_error (c_data tr) i = Some v /\ lag_at (c_lag tr) (c_sr tr) i == lag_at sl sr i) \/
  (c_net tr = r_net h2 ++ "-" ++ r_net h1 /\ c_sta tr = r_sta h2 ++ "-" ++ r_sta h1 /\ c_cha tr = r_cha h2 ++ "-" ++ r_cha h1 /\
   exists j, nth_error (c_data tr) j = Some v /\ lag_at (c_lag tr) (c_sr tr) j == - lag_at sl sr i).
Proof.
  intros Hs He Hv tr. assert (Hi : i < length data) by (apply nth_error_Some; congruence).
  subst tr. unfold alphabetical_correlation. destruct (str_le _ _) eqn:E; cbn [c_net c_sta c_cha c_data c_lag c_sr combine_stats].
  - left. repeat split; auto.
  - right. repeat split; auto. exists (length data - 1 - i). split; [now rewrite nth_error_rev|].
    rewrite (flipped_lag sr sl el (length data) i 0) by (auto; rewrite He; unfold lag_at; 
      replace (length data - 1) with (length data - 1 - 0) by lia; rewrite inject_minus by lia; simpl; field; auto). 
    field. auto.
Qed.

Lemma store_shifted h1 h2 sr sl data i v : ~ sr == 0 -> nth_error data i = Some v ->
  str_le (r_net h1 ++ r_sta h1 ++ r_cha h1) (r_net h2 ++ r_sta h2 ++ r_cha h2) = false ->
  let tr := store_pair h1 h2 sr sl data in
  nth_error (c_data tr) (length data - 1 - i) = Some v /\
  lag_at (c_lag tr) (c_sr tr) (length data - 1 - i) == - lag_at sl sr i - 1 / sr.
Proof.
  intros Hs Hv E. unfold store_pair. destruct (flip_rev h1 h2 sr sl (sl + inject_Z (Z.of_nat (length data)) / sr)%Q data E) as (-> & -> & ->).
  assert (Hi : i < length data) by (apply nth_error_Some; congruence). split; [now rewrite nth_error_rev|].
  apply flipped_lag; auto. field. auto.
Qed.

(** ** C13 *)
Lemma recip_zero x : x == 0 -> recip x == 0.
Proof. intros H. unfold recip. rewrite (proj2 (Qeq_bool_iff x 0) H). reflexivity. Qed.
Lemma recip_pos x : ~ x == 0 -> recip x * x == 1.
Proof. intros H. unfold recip. destruct (Qeq_bool x 0) eqn:E; [apply Qeq_bool_iff in E; contradiction|]. rewrite Qmult_comm. now apply Qmult_inv_r. Qed.
Lemma refresh_consistent s : consistent (refresh s).
Proof.
  unfold consistent, refresh. cbn [s_sr s_delta s_elag s_npts s_slag s_start s_cstart s_end s_cend]. split; [|split; [|split]]; auto.
  - apply recip_zero.
  - apply recip_pos.
  - destruct (Nat.eqb_spec (s_npts s) 0); [ring|]. now rewrite Nat2Z.inj_sub by lia.
Qed.
Lemma setitem_consistent s a s' : consistent s -> setitem s a = Ok s' -> consistent s'.
Proof.
  intros HC H. destruct a; cbn [setitem] in H; try discriminate; try (injection H as <-; apply refresh_consistent); try (injection H as <-; exact HC).
  destruct (negb _); [discriminate|]. destruct (split_on "-" (s_cha s)) as [|a [|b [|]]]; try discriminate.
  destruct (split_on "-" v) as [|an [|bn [|]]]; try discriminate. injection H as <-. exact HC.
Qed.
Lemma default_consistent : consistent default_stats.
Proof. unfold consistent. cbn. repeat split; try reflexivity. intros H. exfalso. revert H. unfold Qeq. simpl. lia. Qed.
Lemma update_consistent l : forall s s', consistent s -> update s l = Ok s' -> consistent s'.
Proof.
  induction l as [|a l IH]; intros s s' HC H; cbn [update] in H; [now injection H as <-|].
  destruct (readonly a); [eauto|]. destruct (setitem s a) as [s1|] eqn:E; [|discriminate]. cbn [bind] in H. eapply IH; [|exact H]. eapply setitem_consistent; eauto.
Qed.
Lemma steps_consistent init l s0 : construct init = Ok s0 -> consistent (fold_left assign_step l s0).
Proof.
  intros H. assert (C0 : consistent s0) by (eapply update_consistent; [apply default_consistent|exact H]). clear H. revert s0 C0.
  induction l as [|a l IH]; intros s C; [exact C|]. cbn [fold_left]. apply IH. unfold assign_step.
  destruct (setitem s a) as [s1|] eqn:E; [eapply setitem_consistent; eauto|exact C].
Qed.
Lemma readonly_refused s a : readonly a = true -> setitem s a = Raise AttributeError.
Proof. destruct a; intros H; try discriminate; reflexivity. Qed.

(** copies *)
Definition target (t : stats) (a : assign) : Prop :=
  match a with
  | ADelta v => recip v == s_sr t
  | ARate v => v == s_sr t
  | ACorrStart v => v = s_cstart t
  | ACorrEnd v => v = s_cend t
  | ANpts v => v = s_npts t
  | AStartLag v => v == s_slag t
  | AChannel v => v = s_cha t
  | AOther k v => dget (s_other t) k = Some v
  | AComponent _ => False
  | _ => True
  end.

Lemma recip_ext x y : x == y -> recip x == recip y.
Proof.
  intros H. unfold recip. destruct (Qeq_bool x 0) eqn:E1, (Qeq_bool y 0) eqn:E2; try reflexivity.
  - apply Qeq_bool_iff in E1. rewrite H in E1. apply Qeq_bool_iff in E1. congruence.
  - apply Qeq_bool_iff in E2. rewrite <- H in E2. apply Qeq_bool_iff in E2. congruence.
  - now rewrite H.
Qed.
Lemma consistent_recip s : consistent s -> s_delta s == recip (s_sr s).
Proof.
  intros (H0 & H1 & _). destruct (Qeq_dec (s_sr s) 0) as [E|E].
  - rewrite recip_zero by auto. auto.
  - specialize (H1 E). pose proof (recip_pos _ E) as H2. rewrite <- H2 in H1. now apply Qmult_inj_r in H1.
Qed.
Lemma recip_recip x : recip (recip x) == x.
Proof.
  destruct (Qeq_dec x 0) as [E|E].
  - rewrite recip_zero; [now rewrite E|]. now apply recip_zero.
  - assert (E2 : ~ recip x == 0). { intros H. pose proof (recip_pos x E) as P. rewrite H in P. revert P. unfold Qeq. simpl. lia. }
    pose proof (recip_pos _ E2) as P. pose proof (recip_pos x E) as P2. rewrite <- P2, (Qmult_comm (recip x) x) in P. now apply Qmult_inj_r in P.
Qed.

(** the fields of a header are determined by the assignments *)
Definition sets_rate (a : assign) : bool := match a with ADelta _ | ARate _ => true | _ => false end.
Definition agrees (s0 s t : stats) (l : list assign) : Prop :=
  (s_sr s == s_sr t \/ (existsb sets_rate l = false /\ s_sr s = s_sr s0)) /\
  (s_cstart s = s_cstart t \/ (existsb (fun a => match a with ACorrStart _ => true | _ => false end) l = false /\ s_cstart s = s_cstart s0)) /\
  (s_cend s = s_cend t \/ (existsb (fun a => match a with ACorrEnd _ => true | _ => false end) l = false /\ s_cend s = s_cend s0)) /\
  (s_npts s = s_npts t \/ (existsb (fun a => match a with ANpts _ => true | _ => false end) l = false /\ s_npts s = s_npts s0)) /\
  (s_slag s == s_slag t \/ (existsb (fun a => match a with AStartLag _ => true | _ => false end) l = false /\ s_slag s = s_slag s0)) /\
  (s_cha s = s_cha t \/ (existsb (fun a => match a with AChannel _ => true | _ => false end) l = false /\ s_cha s = s_cha s0)) /\
  (forall k, dget (s_other s) k = dget (s_other t) k \/
     (existsb (fun a => match a with AOther k' _ => String.eqb k k' | _ => false end) l = false /\ dget (s_other s) k = dget (s_other s0) k)).
Lemma dget_dset {V} (d : list (string * V)) k v k0 : dget (dset d k v) k0 = if String.eqb k0 k then Some v else dget d k0.
Proof.
  induction d as [|[k' v'] d IH]; cbn [dset dget]; [reflexivity|].
  destruct (String.eqb_spec k k') as [->|]; cbn [dget].
  - destruct (String.eqb k0 k'); reflexivity.
  - rewrite IH. destruct (String.eqb_spec k0 k') as [->|]; [|reflexivity]. destruct (String.eqb_spec k' k); congruence.
Qed.
Lemma update_target t l : forall s0, Forall (target t) l -> exists s, update s0 l = Ok s /\ agrees s0 s t l.
Proof.
  induction l as [|a l IH]; intros s0 HT.
  - exists s0. split; [reflexivity|]. unfold agrees. cbn [existsb]. repeat split; right; auto.
  - inversion HT as [|? ? Ta Tl]; subst. cbn [update].
    destruct (readonly a) eqn:RO.
    + destruct (IH s0 Tl) as (s & Hs & HA). exists s. split; auto. destruct a; try discriminate; exact HA.
    + assert (E : exists s1, setitem s0 a = Ok s1) by (destruct a; try discriminate; try contradiction; eexists; reflexivity).
      destruct E as [s1 E]. rewrite E. cbn [bind]. destruct (IH s1 Tl) as (s & Hs & A1 & A2 & A3 & A4 & A5 & A6 & A7).
      exists s. split; auto.
      destruct a; try discriminate; try contradiction; cbn [setitem] in E; injection E as <-; cbn [target] in Ta;
        unfold refresh in *; cbn [s_sr s_cstart s_cend s_npts s_slag s_cha s_other] in *; unfold agrees; cbn [existsb sets_rate orb];
        (split; [|split; [|split; [|split; [|split; [|split]]]]]); auto;
        try (left; destruct A1 as [A1|[_ A1]]; [exact A1|rewrite A1; exact Ta]);
        try (left; destruct A2 as [A2|[_ A2]]; [exact A2|rewrite A2; exact Ta]);
        try (left; destruct A3 as [A3|[_ A3]]; [exact A3|rewrite A3; exact Ta]);
        try (left; destruct A4 as [A4|[_ A4]]; [exact A4|rewrite A4; exact Ta]);
        try (left; destruct A5 as [A5|[_ A5]]; [exact A5|rewrite A5; exact Ta]);
        try (left; destruct A6 as [A6|[_ A6]]; [exact A6|rewrite A6; exact Ta]).
      intros k0. destruct (A7 k0) as [B|[B1 B2]]; [now left|]. rewrite dget_dset in B2.
      destruct (String.eqb_spec k0 k) as [->|]; [left; congruence|right; auto].
Qed.
Lemma dget_nodup' {V} (d : list (string * V)) k v : NoDup (map fst d) -> In (k, v) d -> dget d k = Some v.
Proof.
  induction d as [|[k' v'] d IH]; intros HN H; [contradiction|]. inversion HN; subst. cbn [dget].
  destruct (String.eqb_spec k k') as [->|Hne].
  - destruct H as [H|H]; [congruence|]. exfalso. apply H2. now apply (in_map fst) in H.
  - apply IH; auto. destruct H; [congruence|auto].
Qed.
Lemma copy_same t l : consistent t -> NoDup (map fst (s_other t)) -> Permutation l (items t) ->
  exists s, construct l = Ok s /\ same_header s t.
Proof.
  intros HC HN HP.
  assert (HT : Forall (target t) l).
  { apply Forall_forall. intros a Ha. apply (Permutation_in _ HP) in Ha. unfold items in Ha. apply in_app_iff in Ha as [Ha|Ha].
    - cbn [In] in Ha. decompose [or] Ha; subst; cbn [target]; try reflexivity; try exact I; try contradiction.
      rewrite (recip_ext _ _ (consistent_recip t HC)). apply recip_recip.
    - apply in_map_iff in Ha as ([k v] & <- & Hkv). cbn [fst snd target]. now apply dget_nodup'. }
  destruct (update_target t l default_stats HT) as (s & Hs & A1 & A2 & A3 & A4 & A5 & A6 & A7). exists s. split; [exact Hs|].
  assert (CS : consistent s) by (eapply update_consistent; [apply default_consistent|exact Hs]).
  assert (HI : forall a, In a (items t) -> forall f, f a = true -> existsb f l = true).
  { intros a Ha f Hf. apply existsb_exists. exists a. split; auto. now apply (Permutation_in _ (Permutation_sym HP)). }
  assert (E1 : s_sr s == s_sr t). { destruct A1 as [A1|[A1 _]]; auto. rewrite (HI (ARate (s_sr t))) in A1; [discriminate|simpl; auto|reflexivity]. }
  assert (E2 : s_cstart s = s_cstart t). { destruct A2 as [A2|[A2 _]]; auto. rewrite (HI (ACorrStart (s_cstart t))) in A2; [discriminate|simpl; auto 12|reflexivity]. }
  assert (E3 : s_cend s = s_cend t). { destruct A3 as [A3|[A3 _]]; auto. rewrite (HI (ACorrEnd (s_cend t))) in A3; [discriminate|simpl; auto 12|reflexivity]. }
  assert (E4 : s_npts s = s_npts t). { destruct A4 as [A4|[A4 _]]; auto. rewrite (HI (ANpts (s_npts t))) in A4; [discriminate|simpl; auto 12|reflexivity]. }
  assert (E5 : s_slag s == s_slag t). { destruct A5 as [A5|[A5 _]]; auto. rewrite (HI (AStartLag (s_slag t))) in A5; [discriminate|simpl; auto 12|reflexivity]. }
  assert (E6 : s_cha s = s_cha t). { destruct A6 as [A6|[A6 _]]; auto. rewrite (HI (AChannel (s_cha t))) in A6; [discriminate|simpl; auto 14|reflexivity]. }
  assert (E7 : s_delta s == s_delta t). { rewrite (consistent_recip s CS), (consistent_recip t HC). now apply recip_ext. }
  destruct CS as (_ & _ & L1 & ST1 & EN1). destruct HC as (_ & _ & L2 & ST2 & EN2). unfold same_header.
  split; [auto|]. split; [auto|]. split; [congruence|]. split; [congruence|]. split; [auto|]. split; [auto|]. split; [auto|]. split.
  { rewrite L1, L2, E4. destruct (s_npts t =? 0)%nat; [exact E5|]. now rewrite E5, E7. }
  split; [auto|]. split; [auto|]. intros k. destruct (A7 k) as [A|[B1 B2]]; auto. rewrite B2. cbn [default_stats s_other dget].
  destruct (dget (s_other t) k) as [v|] eqn:D; auto. exfalso.
  rewrite (HI (AOther k v)) in B1; [discriminate| |apply String.eqb_refl].
  unfold items. apply in_app_iff. right. apply in_map_iff. exists (k, v). split; auto.
  clear -D. induction (s_other t) as [|[k' v'] d IH]; cbn [dget] in D; [discriminate|]. destruct (String.eqb_spec k k') as [->|]; [injection D as ->; now left|right; auto].
Qed.

(** ** C11 *)
Lemma upper_char_plain c : plain (String c "") = true -> plain (String (upper_char c) "") = true.
Proof. destruct c as [[] [] [] [] [] [] [] []]; intros H; try discriminate; reflexivity. Qed.
Lemma upper_plain s : plain s = true -> plain (upper s) = true.
Proof.
  induction s as [|c s IH]; intros H; [reflexivity|]. cbn [upper]. change (String (upper_char c) (upper s)) with (String (upper_char c) "" ++ upper s).
  change (String c s) with (String c "" ++ s) in H. rewrite plain_app in H |- *. apply andb_true_iff in H as [H1 H2].
  now rewrite upper_char_plain, IH.
Qed.
Lemma sel_code_eq pat s : plain pat = true -> (upper s = upper pat -> s = pat) -> sel_code pat s = String.eqb s pat.
Proof.
  intros HP HU. unfold sel_code. rewrite fnmatch_plain by now apply upper_plain. destruct (String.eqb_spec s pat) as [->|Hne]; [apply String.eqb_refl|].
  apply String.eqb_neq. auto.
Qed.
Lemma mapM_ok {A B} (f : A -> result B) (g : A -> B) l : (forall x, In x l -> f x = Ok (g x)) -> mapM f l = Ok (map g l).
Proof.
  induction l as [|x l IH]; intros H; [reflexivity|]. cbn [mapM map]. rewrite H by now left. cbn [bind]. rewrite IH by (intros; apply H; now right). reflexivity.
Qed.
Definition file_of_code (code : string) : string := code ++ ".h5".
Lemma own_file_eq sep tr : own_file sep tr = file_of_code (code_of sep tr).
Proof. unfold own_file, file_of_code, code_of. destruct sep; rewrite ?append_assoc; reflexivity. Qed.
Lemma code_eq sep cst a b : batch_ok cst -> In a cst -> In b cst ->
  String.eqb (code_of sep b) (code_of sep a) =
  String.eqb (c_net b) (c_net a) && String.eqb (c_sta b) (c_sta a) && (if sep then String.eqb (c_cha b) (c_cha a) else true).
Proof.
  intros [HB _] Ha Hb. destruct (HB a Ha) as ((A1 & _) & (A2 & _) & A3 & _). destruct (HB b Hb) as ((B1 & _) & (B2 & _) & B3 & _).
  destruct (String.eqb_spec (code_of sep b) (code_of sep a)) as [E|E]; symmetry.
  - unfold code_of in E. destruct sep; apply (f_equal (split_on ".")) in E;
      change ("." ++ ?x) with (String "." x) in E; rewrite ?split_on_app, ?split_on_no in E by auto.
    + change ("." ++ c_cha b) with (String "." (c_cha b)) in E. change ("." ++ c_cha a) with (String "." (c_cha a)) in E.
      rewrite !split_on_app, !split_on_no in E by auto. injection E as -> -> ->. now rewrite !String.eqb_refl.
    + injection E as -> ->. now rewrite !String.eqb_refl.
  - destruct (String.eqb_spec (c_net b) (c_net a)) as [E1|]; [|reflexivity]. destruct (String.eqb_spec (c_sta b) (c_sta a)) as [E2|]; [|reflexivity].
    cbn [andb]. destruct sep; [|exfalso; apply E; unfold code_of; congruence]. apply String.eqb_neq. intros E3. apply E. unfold code_of. congruence.
Qed.
Lemma select_file_ok sep cst a : batch_ok cst -> In a cst ->
  select_file sep cst (code_of sep a) = Ok (own_file sep a, filter (fun tr => String.eqb (code_of sep tr) (code_of sep a)) cst).
Proof.
  intros HB Ha. pose proof HB as [HB1 HB2]. destruct (HB1 a Ha) as ((A1 & P1) & (A2 & P2) & A3 & P3). unfold select_file.
  assert (FE : forall p, (forall tr, In tr cst -> p tr = String.eqb (code_of sep tr) (code_of sep a)) ->
     filter p cst = filter (fun tr => String.eqb (code_of sep tr) (code_of sep a)) cst) by (intros p; apply filter_ext_in).
  assert (SE : forall tr, In tr cst -> sel_code (c_net a) (c_net tr) = String.eqb (c_net tr) (c_net a) /\
     sel_code (c_sta a) (c_sta tr) = String.eqb (c_sta tr) (c_sta a) /\ sel_code (c_cha a) (c_cha tr) = String.eqb (c_cha tr) (c_cha a)).
  { intros tr Ht. destruct (HB2 tr a Ht Ha) as (U1 & U2 & U3). now rewrite !sel_code_eq. }
  unfold own_file. destruct sep.
  - unfold code_of at 1. change (c_net a ++ "." ++ c_sta a ++ "." ++ c_cha a) with (c_net a ++ String "." (c_sta a ++ String "." (c_cha a))).
    rewrite !split_on_app, split_on_no by auto. rewrite FE; [reflexivity|].
    intros tr Ht. destruct (SE tr Ht) as (-> & -> & ->). now rewrite (code_eq true cst).
  - unfold code_of at 1. change (c_net a ++ "." ++ c_sta a) with (c_net a ++ String "." (c_sta a)).
    rewrite !split_on_app, split_on_no by auto. rewrite FE; [reflexivity|].
    intros tr Ht. destruct (SE tr Ht) as (-> & -> & _). rewrite (code_eq false cst) by auto. now rewrite andb_true_r.
Qed.
Lemma nub_in x l : In x (nub l) <-> In x l.
Proof.
  induction l as [|y l IH]; [reflexivity|]. cbn [nub]. destruct (existsb (String.eqb y) l) eqn:E.
  - rewrite IH. split; [now right|]. intros [->|H]; auto. apply existsb_exists in E as (z & Hz & E). apply String.eqb_eq in E. now subst.
  - cbn [In]. now rewrite IH.
Qed.
Lemma nub_nodup l : NoDup (nub l).
Proof.
  induction l as [|y l IH]; [constructor|]. cbn [nub]. destruct (existsb (String.eqb y) l) eqn:E; auto. constructor; auto.
  rewrite nub_in. intros H. assert (existsb (String.eqb y) l = true) by (apply existsb_exists; exists y; split; auto; apply String.eqb_refl). congruence.
Qed.
Lemma sorted_set_in x l : In x (sorted_set l) <-> In x l.
Proof. unfold sorted_set. rewrite sort_in. apply nub_in. Qed.
Lemma sorted_set_nodup l : NoDup (sorted_set l).
Proof. unfold sorted_set. apply sort_nodup, nub_nodup. Qed.

Lemma my_items_in {A} p r (l : list A) x : 0 < p -> r < p -> In x (my_items p r l) -> In x l.
Proof.
  intros Hp Hr H. rewrite <- (partition_concat p l Hp). apply in_concat. exists (my_items p r l). split; auto.
  apply in_map_iff. exists r. split; auto. apply in_seq. lia.
Qed.
Lemma writes_eq p r sep cst : 0 < p -> r < p -> batch_ok cst ->
  writes p r sep cst = Ok (map (fun code => (file_of_code code, filter (fun tr => String.eqb (code_of sep tr) code) cst))
                               (my_items p r (sorted_set (map (code_of sep) cst)))).
Proof.
  intros Hp Hr HB. unfold writes. destruct cst as [|c0 cst0] eqn:EC.
  - reflexivity.
  - rewrite <- EC in *. apply mapM_ok. intros code Hc. apply my_items_in in Hc; auto. apply sorted_set_in, in_map_iff in Hc as (a & <- & Ha).
    rewrite select_file_ok by auto. now rewrite own_file_eq.
Qed.
Lemma file_of_code_inj a b : file_of_code a = file_of_code b -> a = b.
Proof.
  unfold file_of_code. intros E. apply append_inj_len in E as [E _]; auto.
  apply (f_equal String.length) in E. assert (L : forall x y, String.length (x ++ y) = String.length x + String.length y) by (induction x; simpl; auto).
  rewrite !L in E. lia.
Qed.

Lemma flat_map_concat_map' {A B} (f : A -> list B) l : flat_map f l = concat (map f l).
Proof. apply flat_map_concat_map. Qed.
Lemma all_writes_eq p sep cst : 0 < p -> batch_ok cst ->
  all_writes p sep cst = map (fun code => (file_of_code code, filter (fun tr => String.eqb (code_of sep tr) code) cst)) (sorted_set (map (code_of sep) cst)).
Proof.
  intros Hp HB. unfold all_writes. rewrite flat_map_concat_map.
  set (g := fun code => (file_of_code code, filter (fun tr => String.eqb (code_of sep tr) code) cst)).
  set (L := sorted_set (map (code_of sep) cst)).
  transitivity (map g (concat (map (fun r => my_items p r L) (seq 0 p)))); [|now rewrite partition_concat].
  rewrite concat_map, map_map. f_equal. apply map_ext_in. intros r Hr. apply in_seq in Hr. rewrite writes_eq by (auto; lia). reflexivity.
Qed.
Lemma write_exact p sep cst : 0 < p -> batch_ok cst ->
  (forall r, r < p -> exists l, writes p r sep cst = Ok l) /\
  NoDup (map fst (all_writes p sep cst)) /\
  (forall name trs, In (name, trs) (all_writes p sep cst) -> trs = filter (fun tr => String.eqb (own_file sep tr) name) cst /\ trs <> []) /\
  (forall tr, In tr cst -> In (own_file sep tr) (map fst (all_writes p sep cst))).
Proof.
  intros Hp HB. split; [|rewrite all_writes_eq by auto; split; [|split]].
  - intros r Hr. rewrite writes_eq by auto. eauto.
  - rewrite map_map. cbn [fst]. apply FinFun.Injective_map_NoDup; [intros a b; apply file_of_code_inj|apply sorted_set_nodup].
  - intros name trs Hin. apply in_map_iff in Hin as (code & E & Hc). injection E as <- <-. split.
    + apply filter_ext_in. intros tr Ht. rewrite own_file_eq. destruct (String.eqb_spec (code_of sep tr) code) as [->|Hne]; [now rewrite String.eqb_refl|].
      symmetry. apply String.eqb_neq. intros E. apply Hne. now apply file_of_code_inj.
    + apply sorted_set_in, in_map_iff in Hc as (a & <- & Ha). intros E.
      assert (I : In a (filter (fun tr => String.eqb (code_of sep tr) (code_of sep a)) cst)) by (apply filter_In; split; auto; apply String.eqb_refl).
      rewrite E in I. contradiction.
  - intros tr Ht. rewrite map_map. cbn [fst]. rewrite own_file_eq. apply in_map. apply sorted_set_in. now apply in_map.
Qed.

(** assigning the component *)
Lemma has_char_app c s t : has_char c (s ++ t)%string = has_char c s || has_char c t.
Proof. induction s as [|x s IH]; simpl; auto. rewrite IH. now rewrite orb_assoc. Qed.
Lemma append_assoc' (a b c : string) : ((a ++ b) ++ c)%string = (a ++ (b ++ c))%string.
Proof. induction a as [|x a IH]; simpl; congruence. Qed.
Lemma component_assigned s a b c d x y : (s_cha s = a ++ String c "" ++ "-" ++ b ++ String d "")%string ->
  has_char "-" (a ++ String c "")%string = false -> has_char "-" (b ++ String d "")%string = false -> x <> "-"%char -> y <> "-"%char ->
  exists s', setitem s (AComponent (String x (String "-" (String y "")))) = Ok s' /\
    (s_cha s' = a ++ String x "" ++ "-" ++ b ++ String y "")%string /\ component_of s' = Ok (String x (String "-" (String y ""))) /\
    s_sr s' = s_sr s /\ s_npts s' = s_npts s /\ s_slag s' = s_slag s /\ s_elag s' = s_elag s /\ s_cstart s' = s_cstart s /\
    s_cend s' = s_cend s /\ s_other s' = s_other s.
Proof.
  intros E Ha Hb Hx Hy.
  assert (S1 : split_on "-" (s_cha s) = [(a ++ String c "")%string; (b ++ String d "")%string]).
  { rewrite E. rewrite <- append_assoc'. change ("-" ++ b ++ String d "")%string with (String "-" (b ++ String d "")).
    rewrite split_on_app by auto. now rewrite split_on_no. }
  apply Ascii.eqb_neq in Hx, Hy.
  assert (S2 : split_on "-" (String x (String "-" (String y ""))) = [String x ""; String y ""]).
  { cbn. rewrite Hx, Hy. reflexivity. }
  unfold setitem. cbn [String.length Nat.eqb negb]. rewrite S1, S2, !but_last_app. eexists. split; [reflexivity|]. cbn [s_cha s_sr s_npts s_slag s_elag s_cstart s_cend s_other].
  assert (S3 : split_on "-" (a ++ String x "" ++ "-" ++ b ++ String y "")%string = [(a ++ String x "")%string; (b ++ String y "")%string]).
  { rewrite <- append_assoc'. change ("-" ++ b ++ String y "")%string with (String "-" (b ++ String y "")).
    rewrite has_char_app in Ha, Hb. apply orb_false_iff in Ha as [Ha _]. apply orb_false_iff in Hb as [Hb _].
    rewrite split_on_app by (rewrite has_char_app, Ha; cbn; now rewrite Hx). rewrite split_on_no; auto. rewrite has_char_app, Hb. cbn. now rewrite Hy. }
  split; [reflexivity|]. unfold component_of. cbn [s_cha]. rewrite S3, !last_char_app. repeat split.
Qed.
