(** Options guard, opening mode and compression. *)
From Verif Require Import Lib.Base Lib.Str Lib.StrFacts Lib.TimeFacts Model.DBOpen Spec.OptionsSpec.
Local Open Scope nat_scope.
Local Open Scope string_scope.

(** ** equality of values *)
Section PvInd.
  Variable P : pv -> Prop.
  Hypothesis HA : forall s, P (PAtom s).
  Hypothesis HL : forall l, Forall P l -> P (PList l).
  Hypothesis HD : forall d, Forall (fun kv => P (snd kv)) d -> P (PDict d).
  Fixpoint pv_ind' (v : pv) : P v :=
    match v with
    | PAtom s => HA s
    | PList l => HL l ((fix go l : Forall P l := match l with [] => Forall_nil _ | x :: r => Forall_cons _ (pv_ind' x) (go r) end) l)
    | PDict d => HD d ((fix go d : Forall (fun kv : string * pv => P (snd kv)) d :=
                          match d with [] => Forall_nil _ | kv :: r => Forall_cons _ (pv_ind' (snd kv)) (go r) end) d)
    end.
End PvInd.

Lemma pv_eqb_eq a : forall b, pv_eqb a b = true <-> a = b.
Proof.
  induction a as [s|l IH|d IH] using pv_ind'; intros b; destruct b as [s'|l'|d']; try (split; discriminate).
  - simpl. rewrite String.eqb_eq. split; congruence.
  - simpl. revert l'. induction IH as [|x l Hx _ IHl]; intros [|y l']; try (split; discriminate); [tauto|].
    rewrite andb_true_iff, Hx, IHl. split; [intros [-> E]; now injection E as ->|]. intros E. now injection E as -> ->.
  - simpl. revert d'. induction IH as [|[k x] d Hx _ IHd]; intros [|[k' y] d']; try (split; discriminate); [tauto|].
    rewrite !andb_true_iff, String.eqb_eq, Hx, IHd. simpl. split; [intros [[-> ->] E]; now injection E as ->|].
    intros E. now injection E as -> -> ->.
Qed.
Lemma pv_eqb_spec a b : reflect (a = b) (pv_eqb a b).
Proof. destruct (pv_eqb a b) eqn:E; constructor; [now apply pv_eqb_eq|]. intros H. apply pv_eqb_eq in H. congruence. Qed.

(** ** removing keys *)
Lemma ddel_filter (d : list (string * pv)) k : NoDup (dkeys d) -> ddel d k = filter (fun kv => negb (String.eqb (fst kv) k)) d.
Proof.
  induction d as [|[k' v] d IH]; simpl; auto. intros H. inversion H as [|? ? Hn Hd]; subst.
  rewrite (String.eqb_sym k' k). destruct (String.eqb_spec k k') as [->|Hne]; simpl.
  - symmetry. rewrite <- (IH Hd). clear - Hn. induction d as [|[k2 v2] d IH]; simpl; auto.
    destruct (String.eqb_spec k' k2) as [->|]; [elim Hn; now left|]. rewrite IH; auto. intros X. apply Hn. now right.
  - now rewrite IH.
Qed.
Lemma filter_keys_nodup (d : list (string * pv)) g : NoDup (dkeys d) -> NoDup (dkeys (filter g d)).
Proof.
  induction d as [|[k v] d IH]; simpl; auto. intros H. inversion H as [|? ? Hn Hd]; subst. destruct (g (k, v)); auto.
  simpl. constructor; auto. intros X. apply Hn. unfold dkeys in *. apply in_map_iff in X as (kv & <- & X).
  apply filter_In in X as [X _]. now apply in_map.
Qed.
Lemma filter_filter {A} (f g : A -> bool) l : filter f (filter g l) = filter (fun x => g x && f x) l.
Proof. induction l as [|x l IH]; simpl; auto. destruct (g x); simpl; [destruct (f x)|]; now rewrite IH. Qed.
Lemma without_fold ks : forall d, NoDup (dkeys d) -> fold_left (@ddel pv) ks d = without ks d.
Proof.
  induction ks as [|k ks IH]; intros d H; simpl.
  - unfold without. simpl. induction d; simpl; auto. f_equal. apply IHd. now inversion H.
  - rewrite ddel_filter by auto. rewrite IH by now apply filter_keys_nodup.
    unfold without. rewrite filter_filter. apply filter_ext. intros [k' v]. simpl. now rewrite negb_orb.
Qed.
Lemma without_idem ks d : without ks (without ks d) = without ks d.
Proof. unfold without. rewrite filter_filter. apply filter_ext. intros kv. now destruct (existsb _ _). Qed.

Lemma ddel_head (k k' : string) (v : pv) d : k <> k' -> ddel ((k', v) :: d) k = (k', v) :: ddel d k.
Proof. intros H. simpl. destruct (String.eqb_spec k k'); congruence. Qed.
Lemma fold_ddel_head ks k' (v : pv) : ~ In k' ks -> forall d, fold_left (@ddel pv) ks ((k', v) :: d) = (k', v) :: fold_left (@ddel pv) ks d.
Proof.
  induction ks as [|k ks IH]; intros H d; cbn [fold_left]; auto.
  rewrite ddel_head; [apply IH; intros X; apply H; now right|]. intros ->. apply H. now left.
Qed.

(** ** the loop that removes masking steps *)
Lemma is_mask_step s : is_mask (step_dict s) = Ok (masking (fst s)).
Proof. destruct s as [n a]. reflexivity. Qed.
Lemma remove_first_at pre x rest : Forall (fun y => y <> x) pre -> remove_first x (pre ++ x :: rest)%list = (pre ++ rest)%list.
Proof.
  induction 1 as [|y pre Hy _ IH]; simpl.
  - destruct (pv_eqb_spec x x); congruence.
  - destruct (pv_eqb_spec y x); [contradiction|]. now rewrite IH.
Qed.
Definition keep (s : string * pv) : bool := negb (masking (fst s)).
Lemma remove_loop_apart n : forall fuel pre rest, length rest <= n -> length rest <= fuel ->
  Forall (fun s => masking (fst s) = false) pre -> masks_apart rest = true ->
  remove_loop fuel (length pre) (map step_dict (pre ++ rest)%list) = Ok (map step_dict (pre ++ filter keep rest)%list).
Proof.
  induction n as [|n IH]; intros fuel pre rest Hn Hf Hp Ha.
  - destruct rest as [|]; [|simpl in Hn; lia]. simpl filter. rewrite app_nil_r. destruct fuel; simpl; auto.
    rewrite nth_error_map. replace (nth_error pre (length pre)) with (@None (string * pv)); auto.
    symmetry. apply nth_error_None. lia.
  - destruct rest as [|x rest]; [apply (IH fuel pre []); simpl in *; auto; lia|].
    destruct fuel as [|fuel]; [simpl in Hf; lia|]. cbn [remove_loop].
    assert (E : nth_error (map step_dict (pre ++ x :: rest)%list) (length pre) = Some (step_dict x)).
    { rewrite nth_error_map, nth_error_app2, Nat.sub_diag by lia. reflexivity. }
    rewrite E, is_mask_step. simpl in Hn, Hf. destruct (masking (fst x)) eqn:Ex.
    + assert (RF : remove_first (step_dict x) (map step_dict (pre ++ x :: rest)%list) = map step_dict (pre ++ rest)%list).
      { rewrite !map_app. cbn [map]. apply remove_first_at. apply Forall_forall. intros y Hy E2. apply in_map_iff in Hy as (s & <- & Hs).
        rewrite Forall_forall in Hp. apply Hp in Hs. pose proof (is_mask_step s) as M1. pose proof (is_mask_step x) as M2.
        rewrite E2 in M1. rewrite M1 in M2. congruence. }
      rewrite RF. cbn [filter]. unfold keep at 1. rewrite Ex. cbn [negb].
      destruct rest as [|y rest].
      * destruct fuel; cbn [remove_loop filter]; auto.
        replace (nth_error (map step_dict (pre ++ [])%list) (S (length pre))) with (@None pv); auto.
        symmetry. apply nth_error_None. rewrite map_length, app_nil_r. lia.
      * cbn [masks_apart] in Ha. rewrite Ex in Ha. apply andb_true_iff in Ha as [Hy Ha]. cbn [andb] in Hy. apply negb_true_iff in Hy.
        change (y :: rest) with ([y] ++ rest)%list. rewrite app_assoc.
        replace (S (length pre)) with (length (pre ++ [y])) by (rewrite app_length; simpl; lia).
        rewrite (IH fuel (pre ++ [y])%list rest).
        -- cbn [app filter]. unfold keep at 2. rewrite Hy. cbn [negb]. now rewrite <- app_assoc.
        -- simpl in *; lia.
        -- simpl in *; lia.
        -- apply Forall_app. auto.
        -- destruct rest as [|z rest]; auto. apply andb_true_iff in Ha. tauto.
    + cbn [filter]. unfold keep at 1. rewrite Ex. cbn [negb].
      change (x :: rest) with ([x] ++ rest)%list. rewrite app_assoc.
      replace (S (length pre)) with (length (pre ++ [x])) by (rewrite app_length; simpl; lia).
      rewrite (IH fuel (pre ++ [x])%list rest).
      * now rewrite <- app_assoc.
      * lia.
      * lia.
      * apply Forall_app. auto.
      * cbn [masks_apart] in Ha. destruct rest as [|z rest]; auto. apply andb_true_iff in Ha. tauto.
Qed.

(** ** co_to_hdf5 *)
Lemma co_to_hdf5_ok o : options_ok o -> masks_apart (o_steps o) = true -> co_to_hdf5 (dict_of o) = Ok (dict_of (processing o)).
Proof.
  intros (U1 & U2 & U3 & HK) HM. unfold co_to_hdf5, dict_of.
  rewrite !fold_ddel_head by (simpl; intuition discriminate). rewrite without_fold by auto.
  unfold pop_in. cbn [dget String.eqb Ascii.eqb Bool.eqb andb bind dset]. rewrite !without_fold by auto.
  rewrite map_length. pose proof (remove_loop_apart (length (o_steps o)) (length (o_steps o)) [] (o_steps o)) as L.
  cbn [length app] in L. rewrite L by auto. cbn [bind]. reflexivity.
Qed.
Lemma without_nodup ks d : NoDup (dkeys d) -> NoDup (dkeys (without ks d)).
Proof. apply filter_keys_nodup. Qed.
Lemma without_keys ks d k : In k (dkeys (without ks d)) -> In k (dkeys d).
Proof. unfold without, dkeys. intros H. apply in_map_iff in H as (kv & <- & H). apply filter_In in H as [H _]. now apply in_map. Qed.
Lemma processing_ok o : options_ok o -> options_ok (processing o).
Proof.
  intros (U1 & U2 & U3 & HK). split; [|split; [|split]]; try (now apply without_nodup).
  intros k H. apply HK. now apply without_keys in H.
Qed.
Lemma filter_apart l : masks_apart (filter keep l) = true.
Proof.
  assert (G : forall l, Forall (fun s => masking (fst s) = false) l -> masks_apart l = true).
  { clear. induction l as [|a l IH]; intros H; auto. inversion H; subst. destruct l as [|b l]; auto.
    cbn [masks_apart]. rewrite H2. cbn [andb negb]. now apply IH. }
  apply G. apply Forall_forall. intros s H. apply filter_In in H as [_ H]. unfold keep in H. now apply negb_true_iff.
Qed.
Lemma processing_apart o : masks_apart (o_steps (processing o)) = true.
Proof. apply filter_apart. Qed.
Lemma processing_idem o : processing (processing o) = processing o.
Proof.
  unfold processing. cbn [o_other o_corr_args o_subdivision o_steps]. rewrite !without_idem. f_equal.
  rewrite filter_filter. apply filter_ext. intros s. now destruct (masking _).
Qed.
Lemma step_dict_inj a b : step_dict a = step_dict b -> a = b.
Proof. destruct a, b. unfold step_dict. simpl. intros E. congruence. Qed.
Lemma map_inj {A B} (f : A -> B) : (forall a b, f a = f b -> a = b) -> forall l l', map f l = map f l' -> l = l'.
Proof. intros H. induction l as [|x l IH]; intros [|y l'] E; try discriminate; auto. injection E as E1 E2. f_equal; auto. Qed.
Lemma dict_of_inj a b : dict_of a = dict_of b -> a = b.
Proof.
  destruct a as [a1 a2 a3 a4], b as [b1 b2 b3 b4]. unfold dict_of. cbn [o_other o_corr_args o_subdivision o_steps]. intros E. injection E as E1 E2 E3 E4.
  apply (map_inj step_dict step_dict_inj) in E2. congruence.
Qed.

Definition options_eq_dec (a b : options) : {a = b} + {a <> b}.
Proof.
  destruct (pv_eqb_spec (PDict (dict_of a)) (PDict (dict_of b))) as [E|E].
  - left. apply dict_of_inj. congruence.
  - right. congruence.
Defined.

Lemma create_file o force : options_ok o -> masks_apart (o_steps o) = true ->
  open_options None (Some (dict_of o)) force = Ok (Some (dict_of (processing o))).
Proof. intros H1 H2. unfold open_options. now rewrite co_to_hdf5_ok. Qed.

Lemma reopen_file o0 o force : options_ok o0 -> options_ok o -> masks_apart (o_steps o) = true ->
  open_options (Some (dict_of (processing o0))) (Some (dict_of o)) force =
  if options_eq_dec (processing o0) (processing o) then Ok (Some (dict_of (processing o0)))
  else if force then Ok (Some (dict_of (processing o0))) else Raise PermissionError.
Proof.
  intros H0 H1 H2. unfold open_options. rewrite co_to_hdf5_ok by (auto using processing_ok, processing_apart). cbn [bind].
  rewrite co_to_hdf5_ok by auto. cbn [bind]. rewrite processing_idem.
  destruct (pv_eqb_spec (PDict (dict_of (processing o0))) (PDict (dict_of (processing o)))) as [E|E].
  - destruct (options_eq_dec _ _) as [|N]; auto. exfalso. apply N, dict_of_inj. congruence.
  - destruct (options_eq_dec _ _) as [N|]; [rewrite N in E; congruence|]. now destruct force.
Qed.

(** ** file names *)
Lemma last_split_h5 s : last (split_on "." s) "" = "h5" -> s = "h5" \/ exists stem, s = stem ++ ".h5".
Proof.
  induction s as [|c s IH]; simpl; [discriminate|].
  destruct (split_on "." s) as [|h t] eqn:E; [now apply split_on_nonempty in E|].
  assert (Hs : t = [] -> h = s).
  { intros ->. pose proof (join_split "." s) as J. rewrite E in J. exact J. }
  destruct (Ascii.eqb_spec c ".") as [->|Hc].
  - cbn [last]. intros H. destruct (IH H) as [->|[stem ->]]; right; [now exists ""|now exists (String "." stem)].
  - destruct t as [|h2 t].
    + cbn [last]. intros H. rewrite (Hs eq_refl) in H. left. exact H.
    + cbn [last] in *. intros H. destruct (IH H) as [->|[stem ->]].
      * cbn in E. discriminate.
      * right. now exists (String c stem).
Qed.
Lemma split_suffix s : last (split_on "." (s ++ ".h5")) "" = "h5".
Proof.
  induction s as [|c s IH]; [reflexivity|]. cbn [append split_on]. destruct (split_on "." (s ++ ".h5")) as [|h t] eqn:E; [now apply split_on_nonempty in E|].
  destruct (Ascii.eqb c "."); [exact IH|]. destruct t as [|h2 t]; [|exact IH].
  (* a single piece: impossible, the string contains a dot *)
  exfalso. pose proof (join_split "." (s ++ ".h5")) as J. rewrite E in J. cbn [join] in J. subst h.
  assert (forall s, has_char "." s = true -> length (split_on "." s) <> 1) as G.
  { clear. induction s as [|c s IH]; simpl; [discriminate|]. destruct (split_on "." s) as [|h t] eqn:E; [now apply split_on_nonempty in E|].
    destruct (Ascii.eqb_spec c ".") as [->|Hc]; simpl; [lia|]. rewrite ?Ascii.eqb_sym in *.
    intros H. destruct (Ascii.eqb_spec "." c); [congruence|]. simpl in H. apply IH in H. simpl in H. destruct t; simpl in *; lia. }
  apply (G (s ++ ".h5")); [rewrite has_char_app; simpl; apply orb_true_r|]. now rewrite E.
Qed.
Lemma file_name_suffix p : p <> "h5" -> exists stem, file_name p = stem ++ ".h5".
Proof.
  intros H. unfold file_name, last_str. destruct (String.eqb_spec (last (split_on "." p) "") "h5") as [E|E]; [|now exists p].
  destruct (last_split_h5 p E) as [|[stem ->]]; [contradiction|]. eauto.
Qed.
Lemma file_name_idem p : file_name (file_name p) = file_name p.
Proof.
  unfold file_name at 2 3. unfold last_str. destruct (String.eqb_spec (last (split_on "." p) "") "h5") as [E|E].
  - unfold file_name, last_str. destruct (String.eqb_spec (last (split_on "." p) "") "h5"); congruence.
  - unfold file_name, last_str. rewrite split_suffix. reflexivity.
Qed.

(** ** compression *)
Lemma digits_spec s : exists r, s = digits s ++ r /\ all_digits (digits s) = true /\ (forall c r', r = String c r' -> is_digit c = false).
Proof.
  induction s as [|c s (r & E & A & H)]; simpl; [exists ""; repeat split; discriminate|].
  destruct (is_digit c) eqn:Ec.
  - exists r. simpl. unfold all_digits in *. simpl. rewrite Ec, A. split; [now rewrite <- E|]. auto.
  - exists (String c s). split; auto. split; auto. intros c' r' X. injection X as <- <-. exact Ec.
Qed.
Lemma match_here_spec s w ds : match_here s = Some (w, ds) ->
  exists r, s = w ++ ds ++ r /\ w <> "" /\ ds <> "" /\ all_digits ds = true /\ (forall c r', r = String c r' -> is_digit c = false).
Proof.
  revert w ds. induction s as [|c s IH]; intros w ds H; [discriminate|]. cbn [match_here] in H.
  destruct (is_word c); [|discriminate]. destruct s as [|d s']; [discriminate|]. destruct (is_digit d) eqn:Ed.
  - injection H as <- <-. destruct (digits_spec (String d s')) as (r & E & A & HR). exists r. split; [exact (f_equal (String c) E)|].
    split; [discriminate|]. split; auto. simpl. rewrite Ed. discriminate.
  - destruct (match_here (String d s')) as [[w' ds']|] eqn:E; [|discriminate]. injection H as <- <-.
    destruct (IH _ _ eq_refl) as (r & Er & _ & Hd & A & HR). exists r. rewrite Er. split; auto. split; [discriminate|]. auto.
Qed.
Lemma first_match_spec s w ds : first_match s = Some (w, ds) ->
  exists a r, s = a ++ w ++ ds ++ r /\ w <> "" /\ ds <> "" /\ all_digits ds = true /\ (forall c r', r = String c r' -> is_digit c = false).
Proof.
  induction s as [|c s IH]; cbn [first_match]; [discriminate|]. destruct (match_here (String c s)) as [[w' ds']|] eqn:E.
  - intros H. injection H as -> ->. apply match_here_spec in E as (r & E & H). exists "", r. auto.
  - intros H. destruct (IH H) as (a & r & -> & HR). exists (String c a), r. auto.
Qed.

Lemma clip_level_range n : (1 <= clip_level n <= 9)%Z /\ forall l, (1 <= l <= 9)%Z -> (Z.abs (clip_level n - n) <= Z.abs (l - n))%Z.
Proof.
  unfold clip_level. destruct (existsb (Z.eqb n) levels) eqn:E.
  - apply existsb_exists in E as (x & Hx & E). apply Z.eqb_eq in E. subst x. simpl in Hx. split; lia.
  - unfold levels. cbn [argmin_by]. 
    assert (H : (n < 1 \/ 9 < n)%Z).
    { assert (forall k, (1 <= k <= 9)%Z -> n <> k); [|destruct (Z_lt_le_dec n 1); [auto|]; destruct (Z_lt_le_dec 9 n); auto; exfalso; apply (H n); lia].
      intros k Hk ->. assert (existsb (Z.eqb k) levels = true); [|congruence]. apply existsb_exists. exists k. split; [|apply Z.eqb_refl].
      simpl. lia. }
    destruct H as [H|H];
    repeat match goal with |- context [Z.ltb ?a ?b] => destruct (Z.ltb_spec a b) end; split; lia.
Qed.

Lemma match_letters w : w <> "" -> all_letters w = true -> forall ds, ds <> "" -> all_digits ds = true -> match_here (w ++ ds) = Some (w, ds).
Proof.
  intros Hw. induction w as [|c w IH]; [congruence|]. intros HA ds Hd HD.
  unfold all_letters in *. cbn [all_chars] in HA. apply andb_true_iff in HA as [Hc HA]. apply andb_true_iff in Hc as [Hc1 Hc2].
  assert (DD : forall s, all_digits s = true -> digits s = s).
  { clear. induction s as [|c s IH]; intros H; auto. unfold all_digits in *. cbn [all_chars] in H. apply andb_true_iff in H as [H1 H2]. simpl. rewrite H1. now rewrite IH. }
  cbn [append match_here]. rewrite Hc1. destruct w as [|c2 w].
  - cbn [append]. destruct ds as [|d ds]; [congruence|]. pose proof (DD _ HD) as ED. unfold all_digits in HD. cbn [all_chars] in HD.
    apply andb_true_iff in HD as [Hd1 _]. rewrite Hd1, ED. reflexivity.
  - cbn [append]. pose proof HA as HA'. cbn [all_chars] in HA'. apply andb_true_iff in HA' as [Hc3 _].
    apply andb_true_iff in Hc3 as [_ Hc3]. apply negb_true_iff in Hc3. rewrite Hc3.
    specialize (IH ltac:(discriminate) HA ds Hd HD). cbn [append] in IH. rewrite IH. reflexivity.
Qed.
Lemma compression_letters w ds : w <> "" -> all_letters w = true -> ds <> "" -> all_digits ds = true ->
  compression (Some (w ++ ds)) = if String.eqb w "gzip" then Ok (Some ("gzip", clip_level (undec ds))) else Raise ValueError.
Proof.
  intros Hw HA Hd HD. unfold compression.
  assert (E : first_match (w ++ ds) = Some (w, ds)).
  { pose proof (match_letters w Hw HA ds Hd HD) as E. destruct (w ++ ds); [discriminate|]. cbn [first_match]. now rewrite E. }
  rewrite E. destruct (String.eqb_spec w "gzip") as [->|]; reflexivity.
Qed.
Lemma compression_sound s c l : compression (Some s) = Ok (Some (c, l)) ->
  c = "gzip" /\ exists a ds r, s = a ++ "gzip" ++ ds ++ r /\ ds <> "" /\ all_digits ds = true /\
    (1 <= l <= 9)%Z /\ forall l', (1 <= l' <= 9)%Z -> (Z.abs (l - undec ds) <= Z.abs (l' - undec ds))%Z.
Proof.
  unfold compression. destruct (first_match s) as [[w ds]|] eqn:E; [|discriminate].
  destruct (String.eqb_spec w "gzip") as [->|]; [|discriminate]. cbn [negb]. intros [= <- <-]. split; auto.
  apply first_match_spec in E as (a & r & -> & _ & Hd & HD & _). exists a, ds, r.
  destruct (clip_level_range (undec ds)) as [H1 H2]. auto.
Qed.
Lemma compression_no_digit s : all_chars (fun c => negb (is_digit c)) s = true -> compression (Some s) = Raise IndexError.
Proof.
  intros H. unfold compression. destruct (first_match s) as [[w ds]|] eqn:E; auto.
  apply first_match_spec in E as (a & r & -> & _ & Hd & HD & _). exfalso. destruct ds as [|d ds]; [congruence|].
  unfold all_digits in HD. rewrite !all_chars_app in H. cbn [all_chars append] in *.
  apply andb_true_iff in HD as [Hd1 _]. rewrite Hd1 in H. simpl in H. rewrite !andb_false_r in H. discriminate.
Qed.
