(** Facts about the translation of the options 'network' and 'station'. *)
From Coq Require Import Permutation Sorted.
From Verif Require Import Lib.Base Lib.Str Lib.StrFacts Lib.Sorting Model.Stations Spec.StationSpec.
Local Open Scope nat_scope.
Local Open Scope string_scope.

Lemma concatM_in {A B} (f : A -> result (list B)) l r : concatM f l = Ok r ->
  forall y, In y r <-> exists x ys, In x l /\ f x = Ok ys /\ In y ys.
Proof.
  revert r. induction l as [|x l IH]; simpl; intros r H y.
  - inversion H; subst. split; [intros []|intros (x & ys & [] & _)].
  - destruct (f x) as [ys|e] eqn:F; [|discriminate]. simpl in H.
    destruct (concatM f l) as [zs|e] eqn:C; [|discriminate]. simpl in H. inversion H; subst r.
    rewrite in_app_iff, (IH zs eq_refl y). split.
    + intros [H1|(x' & ys' & H1 & H2 & H3)].
      * exists x, ys. auto.
      * exists x', ys'. auto.
    + intros (x' & ys' & [<-|H1] & H2 & H3).
      * rewrite F in H2. inversion H2; subst. now left.
      * right. exists x', ys'. auto.
Qed.
Lemma concatM_raise {A B} (f : A -> result (list B)) l e : concatM f l = Raise e -> exists x, In x l /\ f x = Raise e.
Proof.
  induction l as [|x l IH]; simpl; [discriminate|]. destruct (f x) as [ys|e'] eqn:F; simpl.
  - destruct (concatM f l) as [zs|e'] eqn:C; simpl; [discriminate|]. intros H; inversion H; subst.
    destruct (IH eq_refl) as (y & Hy & E). exists y. auto.
  - intros H; inversion H; subst. exists x. auto.
Qed.

Lemma eq2_spec (p q : string * string) : reflect (p = q) (eq2 p q).
Proof.
  destruct p as [a b], q as [c d]. unfold eq2. simpl. destruct (String.eqb_spec a c), (String.eqb_spec b d); constructor; congruence.
Qed.
Lemma eq3_spec p q : reflect (p = q) (eq3 p q).
Proof.
  destruct p as [a b], q as [c d]. unfold eq3. simpl. destruct (eq2_spec a c), (String.eqb_spec b d); constructor; congruence.
Qed.

Lemma available_in archive m ps : available archive m = Ok ps -> exists n, m = Str n /\
  (forall p, In p ps <-> exists f, In f archive /\ fnmatch (f_net f) (if String.eqb n "" then "*" else n) = true /\ p = (Str (f_net f), Str (f_sta f))).
Proof.
  destruct m as [n|l|]; try discriminate. unfold available. cbv zeta. set (pat := if String.eqb n "" then "*" else n).
  set (L := map (fun f => (f_net f, f_sta f)) _). intros H. exists n. split; auto.
  assert (E : ps = map (fun p => (Str (fst p), Str (snd p))) (dedup eq2 L)).
  { unfold eq2. destruct L; [discriminate|]. inversion H. reflexivity. }
  clear H. subst ps. intros p. rewrite in_map_iff. split.
  - intros (q & <- & Hq). rewrite (dedup_in _ eq2_spec) in Hq. unfold L in Hq. apply in_map_iff in Hq as (f & <- & Hf).
    apply filter_In in Hf as [Hf1 Hf2]. exists f. auto.
  - intros (f & Hf & Hm & ->). exists (f_net f, f_sta f). split; auto. apply (dedup_in _ eq2_spec). unfold L.
    apply in_map_iff. exists f. split; auto. apply filter_In. auto.
Qed.
Lemma available_raise archive m e : available archive (Str m) = Raise e ->
  e = FileNotFoundError /\ forall f, In f archive -> fnmatch (f_net f) (if String.eqb m "" then "*" else m) = false.
Proof.
  unfold available. cbv zeta. set (pat := if String.eqb m "" then "*" else m). intros H.
  destruct (filter (fun f => fnmatch (f_net f) pat) archive) as [|x r] eqn:E; simpl in H; [|discriminate].
  inversion H. split; auto. intros f Hf. destruct (fnmatch (f_net f) pat) eqn:Em; auto.
  assert (In f []) by (rewrite <- E; apply filter_In; auto). contradiction.
Qed.

Lemma unwrap_codes x : unwrap (as_value x) = match codes x with [s] => Str s | l => Lst (map Str l) end.
Proof. destruct x as [s|[|a [|b r]]]; reflexivity. Qed.

(** the four cases *)
Lemma pairs_cases archive N S :
  pairs_of archive (as_value N) (as_value S) =
  match codes N, codes S with
  | [n], [s] => if String.eqb n "*" && negb (has_char "*" s) then Raise ValueError else Ok [(Str n, Str s)]
  | [n], ss => Ok (map (fun s => (Str n, s)) (map Str ss))
  | ns, [s] => if String.eqb s "*" then concatM (available archive) (map Str ns) else Raise ValueError
  | ns, ss => if (length ns =? length ss)%nat then Ok (combine (map Str ns) (map Str ss)) else Raise ValueError
  end.
Proof.
  unfold pairs_of. rewrite !unwrap_codes.
  destruct (codes N) as [|n [|n' ns]], (codes S) as [|s [|s' ss]]; try reflexivity; cbv iota zeta;
    rewrite ?map_length; reflexivity.
Qed.

Lemma in_combine_nth {A B} (l : list A) (l' : list B) a b : In (a, b) (combine l l') <-> exists i, nth_error l i = Some a /\ nth_error l' i = Some b.
Proof.
  revert l'. induction l as [|x l IH]; intros [|y l']; simpl.
  - split; [tauto|]. intros (i & H & _). destruct i; discriminate.
  - split; [tauto|]. intros (i & H & _). destruct i; discriminate.
  - split; [tauto|]. intros (i & _ & H). destruct i; discriminate.
  - rewrite IH. split.
    + intros [H|(i & H1 & H2)]; [inversion H; subst; exists 0; auto|exists (S i); auto].
    + intros ([|i] & H1 & H2); [left; simpl in *; congruence|right; exists i; auto].
Qed.
Lemma combine_map_str l l' p : In p (combine (map Str l) (map Str l')) <-> exists n s, p = (Str n, Str s) /\ In (n, s) (combine l l').
Proof.
  destruct p as [a b]. rewrite in_combine_nth. split.
  - intros (i & H1 & H2). rewrite nth_error_map in H1, H2. destruct (nth_error l i) as [n|] eqn:E1; [|discriminate].
    destruct (nth_error l' i) as [s|] eqn:E2; [|discriminate]. simpl in *. inversion H1; inversion H2; subst.
    exists n, s. split; auto. apply in_combine_nth. exists i. auto.
  - intros (n & s & E & H). inversion E; subst. apply in_combine_nth in H as (i & H1 & H2). exists i.
    rewrite !nth_error_map, H1, H2. auto.
Qed.

Lemma pairs_requested archive N S ps : pairs_of archive (as_value N) (as_value S) = Ok ps ->
  forall p, In p ps <-> exists n s, p = (Str n, Str s) /\ requested archive N S n s.
Proof.
  rewrite pairs_cases. intros H p.
  assert (POS : length (codes N) = length (codes S) -> length (codes N) <> 1 -> ps = combine (map Str (codes N)) (map Str (codes S)) ->
    (In p ps <-> exists n s, p = (Str n, Str s) /\ requested archive N S n s)).
  { intros L L1 ->. rewrite combine_map_str. split.
    - intros (n & s & -> & Hi). apply in_combine_nth in Hi as (i & H1 & H2). exists n, s. split; auto. now apply by_position with i.
    - intros (n & s & -> & Hr). exists n, s. split; auto. apply in_combine_nth. destruct Hr as [i _ H1 H2|Hn _|m f Hs _ _ _ _ _ _].
      + exists i. auto.
      + rewrite Hn in L1. now elim L1.
      + rewrite Hs in L. simpl in L. congruence. }
  assert (ALL : length (codes N) <> 1 -> codes S = ["*"] -> concatM (available archive) (map Str (codes N)) = Ok ps ->
    (In p ps <-> exists n s, p = (Str n, Str s) /\ requested archive N S n s)).
  { intros L1 HS HC. rewrite (concatM_in _ _ _ HC). split.
    - intros (x & ys & Hx & Hav & Hp). apply in_map_iff in Hx as (m & <- & Hm).
      destruct (available_in _ _ _ Hav) as (m' & E & Hin). inversion E; subst m'. apply Hin in Hp as (f & Hf & Hfm & ->).
      exists (f_net f), (f_sta f). split; auto. now apply all_stations with m f.
    - intros (n & s & -> & Hr). destruct Hr as [i L|Hn _|m f _ Hm Hf Hfm _ -> ->].
      + rewrite HS in L. simpl in L. congruence.
      + rewrite Hn in L1. now elim L1.
      + assert (Hmi : In (Str m) (map Str (codes N))) by now apply in_map.
        destruct (available archive (Str m)) as [ys|e] eqn:Hav.
        * exists (Str m), ys. split; auto. split; auto. destruct (available_in _ _ _ Hav) as (m' & E & Hin). inversion E; subst m'.
          apply Hin. exists f. auto.
        * exfalso. destruct (available_raise _ _ _ Hav) as [_ Hno]. specialize (Hno f Hf). rewrite Hno in Hfm. discriminate. }
  destruct (codes N) as [|n [|n' ns]] eqn:EN; destruct (codes S) as [|s [|s' ss]] eqn:ES; cbv iota zeta in H.
  - apply POS; simpl; auto. now inversion H.
  - destruct (String.eqb_spec s "*") as [->|]; [|discriminate]. apply ALL; simpl; auto.
  - discriminate.
  - inversion H; subst ps. simpl. split; [tauto|]. intros (n0 & s0 & -> & Hr). destruct Hr as [i _ _ Hi|_ Hi|m f Hs _ _ _ _ _ _].
    + rewrite ES in Hi. destruct i; discriminate.
    + rewrite ES in Hi. contradiction.
    + rewrite ES in Hs. discriminate.
  - destruct (String.eqb n "*" && negb (has_char "*" s)); [discriminate|]. inversion H; subst ps. simpl. split.
    + intros [<-|[]]. exists n, s. split; auto. apply one_network; rewrite ?EN, ?ES; simpl; auto.
    + intros (n0 & s0 & -> & Hr). left. destruct Hr as [i _ H1 H2|Hn Hi|m f _ Hm _ _ L _ _].
      * rewrite EN in H1. rewrite ES in H2. destruct i; simpl in *; [congruence|destruct i; discriminate].
      * rewrite EN in Hn. rewrite ES in Hi. destruct Hi as [<-|[]]. congruence.
      * rewrite EN in L. now elim L.
  - assert (E : ps = map (fun s => (Str n, s)) (map Str (s :: s' :: ss))) by now inversion H. rewrite E, in_map_iff. clear H E. split.
    + intros (x & <- & Hx). apply in_map_iff in Hx as (s0 & <- & Hs). exists n, s0. split; auto. apply one_network; rewrite ?EN, ?ES; auto.
    + intros (n0 & s0 & -> & Hr). exists (Str s0). destruct Hr as [i L|Hn Hi|m f Hs _ _ _ _ _ _].
      * rewrite EN, ES in L. simpl in L. discriminate.
      * rewrite EN in Hn. rewrite ES in Hi. inversion Hn; subst. split; auto. now apply in_map.
      * rewrite ES in Hs. discriminate.
  - discriminate.
  - destruct (String.eqb_spec s "*") as [->|]; [|discriminate]. apply ALL; simpl; auto.
  - match type of H with (if ?b then _ else _) = _ => destruct b eqn:L end; [|discriminate]. apply Nat.eqb_eq in L. apply POS; [exact L|discriminate|].
    now inversion H.
Qed.

Lemma pairs_refused archive N S : pairs_of archive (as_value N) (as_value S) = Raise ValueError <-> refused N S.
Proof.
  rewrite pairs_cases. unfold refused.
  assert (A : forall l, concatM (available archive) (map Str l) <> Raise ValueError).
  { intros l E. apply concatM_raise in E as (x & Hx & E). apply in_map_iff in Hx as (m & <- & _). apply available_raise in E as [E _]. discriminate. }
  destruct (codes N) as [|n [|n' ns]] eqn:EN; destruct (codes S) as [|s [|s' ss]] eqn:ES; cbv iota zeta.
  - simpl. split; [discriminate|]. intros [(s & H & _)|(H & _)]; [discriminate|congruence].
  - destruct (String.eqb_spec s "*") as [->|Hs].
    + split; [discriminate|]. intros [(s & H & _)|(_ & _ & H)]; [discriminate|congruence].
    + split; auto. intros _. right. simpl. repeat split; try discriminate. congruence.
  - split; auto. intros _. right. simpl. repeat split; discriminate.
  - split; [discriminate|]. intros [(s & _ & H & _)|(_ & H & _)]; [discriminate|now elim H].
  - destruct (String.eqb_spec n "*") as [->|Hn]; simpl.
    + destruct (has_char "*" s) eqn:E; simpl.
      * split; [discriminate|]. intros [(s0 & _ & H & H')|(_ & H & _)]; [inversion H; subst; congruence|now elim H].
      * split; auto. intros _. left. exists s. auto.
    + split; [discriminate|]. intros [(s0 & H & _)|(_ & H & _)]; [congruence|now elim H].
  - split; [discriminate|]. intros [(s0 & _ & H & _)|(_ & H & _)]; [discriminate|now elim H].
  - split; auto. intros _. right. simpl. repeat split; discriminate.
  - destruct (String.eqb_spec s "*") as [->|Hs].
    + split; [intros H; now elim (A _ H)|]. intros [(s & H & _)|(_ & _ & H)]; [discriminate|congruence].
    + split; auto. intros _. right. simpl. repeat split; try discriminate. congruence.
  - match goal with |- (if ?b then _ else _) = _ <-> _ => destruct b eqn:L end.
    + apply Nat.eqb_eq in L. split; [discriminate|]. intros [(s0 & H & _)|(H & _)]; [discriminate|now elim H].
    + apply Nat.eqb_neq in L. split; auto. intros _. right. repeat split; auto; [simpl; lia|discriminate].
Qed.

(** the only other exception: a network in a list of networks has no data *)
Lemma pairs_no_data archive N S e : pairs_of archive (as_value N) (as_value S) = Raise e -> e <> ValueError ->
  e = FileNotFoundError /\ codes S = ["*"] /\ length (codes N) <> 1 /\
  exists m, In m (codes N) /\ forall f, In f archive -> fnmatch (f_net f) (if String.eqb m "" then "*" else m) = false.
Proof.
  rewrite pairs_cases. intros H NV.
  assert (A : forall l, concatM (available archive) (map Str l) = Raise e -> e = FileNotFoundError /\
    exists m, In m l /\ forall f, In f archive -> fnmatch (f_net f) (if String.eqb m "" then "*" else m) = false).
  { intros l E. apply concatM_raise in E as (x & Hx & E). apply in_map_iff in Hx as (m & <- & Hm). apply available_raise in E as [-> E].
    split; auto. exists m. auto. }
  destruct (codes N) as [|n [|n' ns]] eqn:EN; destruct (codes S) as [|s [|s' ss]] eqn:ES; cbv iota zeta in H; try (inversion H; congruence).
  - destruct (String.eqb_spec s "*") as [->|Hs]; [|congruence]. destruct (A _ H) as (-> & X). repeat split; auto.
  - destruct (String.eqb n "*" && negb (has_char "*" s)); congruence.
  - destruct (String.eqb_spec s "*") as [->|Hs]; [|congruence]. destruct (A _ H) as (-> & X). repeat split; auto; simpl; lia.
  - match type of H with (if ?b then _ else _) = _ => destruct b end; congruence.
Qed.

(** orders *)
Lemma le2_iff a b : le2 a b = true <-> (str_lt (fst a) (fst b) = true \/ (fst a = fst b /\ str_le (snd a) (snd b) = true)).
Proof. unfold le2. rewrite orb_true_iff, andb_true_iff, String.eqb_eq. tauto. Qed.
Lemma le2_total a b : le2 a b = true \/ le2 b a = true.
Proof.
  rewrite !le2_iff. destruct (string_dec (fst a) (fst b)) as [E|E].
  - destruct (str_le_total (snd a) (snd b)); [left|right]; right; auto.
  - destruct (str_lt_total _ _ E); auto.
Qed.
Lemma le2_trans a b c : le2 a b = true -> le2 b c = true -> le2 a c = true.
Proof.
  rewrite !le2_iff. intros [H|[E H]] [H'|[E' H']].
  - left. eapply str_lt_trans; eauto.
  - left. congruence.
  - left. congruence.
  - right. split; [congruence|]. eapply str_le_trans; eauto.
Qed.

Lemma unique2_in x l : In x (unique2 l) <-> In x l.
Proof. unfold unique2. rewrite sort_in. apply dedup_in, eq2_spec. Qed.
Lemma unique2_nodup l : NoDup (unique2 l).
Proof. apply sort_nodup, dedup_nodup, eq2_spec. Qed.
Lemma unique2_sorted l : StronglySorted (le_rel le2) (unique2 l).
Proof. apply sort_sorted; [apply le2_total|apply le2_trans]. Qed.
Lemma unique3_in x l : In x (unique3 l) <-> In x l.
Proof. unfold unique3. rewrite sort_in. apply dedup_in, eq3_spec. Qed.
Lemma unique3_nodup l : NoDup (unique3 l).
Proof. apply sort_nodup, dedup_nodup, eq3_spec. Qed.

(** the stations that are read *)
Lemma stations_exact archive N S comp raw sts :
  find_stations archive (as_value N) (as_value S) (Str comp) = Ok (raw, sts) ->
  NoDup sts /\ StronglySorted (le_rel le2) sts /\ NoDup raw /\
  (forall n s, In (n, s) sts <-> exists pn ps, requested archive N S pn ps /\ fnmatch n pn = true /\ fnmatch s ps = true /\ has_data archive comp n s) /\
  (forall n s c, In (n, s, c) raw <-> exists pn ps f, requested archive N S pn ps /\ In f archive /\ f_net f = n /\ f_sta f = s /\
      c = before_dot (f_cha f) /\ fnmatch n pn = true /\ fnmatch s ps = true /\ fnmatch (f_cha f) ("??" ++ comp ++ ".?") = true).
Proof.
  unfold find_stations. destruct (pairs_of archive (as_value N) (as_value S)) as [ps|e] eqn:EP; [|discriminate]. simpl.
  destruct (concatM (translate archive (Str comp)) ps) as [r|e] eqn:EC; [|discriminate]. simpl. intros H. inversion H; subst raw sts. clear H.
  assert (R : forall n s c, In (n, s, c) (unique3 r) <-> exists pn ps f, requested archive N S pn ps /\ In f archive /\ f_net f = n /\ f_sta f = s /\
      c = before_dot (f_cha f) /\ fnmatch n pn = true /\ fnmatch s ps = true /\ fnmatch (f_cha f) ("??" ++ comp ++ ".?") = true).
  { intros n s c. rewrite unique3_in, (concatM_in _ _ _ EC). split.
    - intros (p & ys & Hp & Ht & Hy). apply (pairs_requested _ _ _ _ EP) in Hp as (pn & pst & -> & Hr).
      cbn -[append] in Ht. inversion Ht; subst ys. apply in_map_iff in Hy as (f & E & Hf). inversion E; subst.
      apply filter_In in Hf as [Hf Hm]. rewrite !andb_true_iff in Hm. destruct Hm as [[M1 M2] M3].
      exists pn, pst, f. repeat split; auto.
    - intros (pn & pst & f & Hr & Hf & <- & <- & -> & M1 & M2 & M3). eexists (Str pn, Str pst), _.
      split; [apply (pairs_requested _ _ _ _ EP); exists pn, pst; auto|]. cbn -[append]. split; [reflexivity|].
      apply in_map_iff. exists f. split; auto. apply filter_In. split; auto. now rewrite M1, M2, M3. }
  split; [apply unique2_nodup|]. split; [apply unique2_sorted|]. split; [apply unique3_nodup|]. split; [|exact R].
  intros n s. rewrite unique2_in, in_map_iff. split.
  - intros ([[n' s'] c] & E & Hi). simpl in E. inversion E; subst. apply R in Hi as (pn & pst & f & Hr & Hf & E1 & E2 & _ & M1 & M2 & M3).
    exists pn, pst. repeat split; auto. exists f. auto.
  - intros (pn & pst & Hr & M1 & M2 & f & Hf & E1 & E2 & M3). exists (n, s, before_dot (f_cha f)). split; auto. apply R.
    exists pn, pst, f. repeat split; auto.
Qed.
Lemma stations_total archive N S comp ps : pairs_of archive (as_value N) (as_value S) = Ok ps ->
  exists raw sts, find_stations archive (as_value N) (as_value S) (Str comp) = Ok (raw, sts).
Proof.
  intros EP. unfold find_stations. rewrite EP. simpl.
  destruct (concatM (translate archive (Str comp)) ps) as [r|e] eqn:EC; [simpl; eauto|]. exfalso.
  apply concatM_raise in EC as (p & Hp & E). apply (pairs_requested _ _ _ _ EP) in Hp as (n & s & -> & _). discriminate.
Qed.

(** the options after the construction *)
Lemma station_kept N S : (length (codes N) <> 1 \/ length (codes S) = 1 \/ codes S = []) -> station_after (as_value N) (as_value S) = as_value S.
Proof.
  intros H. unfold station_after. rewrite unwrap_codes. destruct N as [n|[|n [|n' ns]]]; simpl in *; try reflexivity;
  (destruct S as [s|[|s [|s' ss]]]; simpl in *; try reflexivity; destruct H as [H|[H|H]]; try discriminate; now elim H).
Qed.
Lemma second_construction archive n s s' ss comp :
  let S := Texts (s :: s' :: ss) in
  (exists r, find_stations archive (Str n) (as_value S) (Str comp) = Ok r) /\
  find_stations archive (Str n) (station_after (Str n) (as_value S)) (Str comp) = Raise TypeError.
Proof.
  cbv zeta. split; [|reflexivity].
  destruct (stations_total archive (Text n) (Texts (s :: s' :: ss)) comp (map (fun s => (Str n, s)) (map Str (s :: s' :: ss)))) as (raw & sts & E).
  - rewrite pairs_cases. reflexivity.
  - simpl as_value in E. eauto.
Qed.
