(** Proofs about reading from a directory tree: names of files, yearly files *)
From Coq Require Import Permutation Sorted.
From Verif Require Import Lib.Base Lib.Str Lib.StrFacts Lib.Sorting Lib.Time Lib.TimeFacts Model.Archive Spec.ArchiveSpec
  Model.MonitorFiles Model.ReadFiles Spec.ReadFilesSpec Proofs.CalendarFacts Proofs.ReadFilesFacts Proofs.ReadLoopFacts.
Local Open Scope Z_scope.
#[local] Ltac Zify.zify_post_hook ::= Z.div_mod_to_equations.

Lemma day_year t t' : t / day = t' / day -> year_of t = year_of t' /\ doy_of t = doy_of t'.
Proof. intros H. unfold year_of, doy_of, daynum. now rewrite H. Qed.
Lemma day_directive c t t' : ~ In c below_day -> t / day = t' / day -> directive c t = directive c t'.
Proof.
  intros N H. destruct (day_year t t' H) as [Y D]. unfold directive, month_of, dom_of, month_day, weekday.
  rewrite Y, D, H.
  repeat match goal with |- (if (c =? ?a)%char then ?x else _) = (if _ then ?x else _) => destruct (c =? a)%char; [reflexivity|] end.
  repeat match goal with |- (if (c =? ?a)%char then _ else _) = _ => destruct (Ascii.eqb_spec c a) as [->|_];
    [solve [exfalso; apply N; unfold below_day; cbn; auto 10 | reflexivity]|] end. reflexivity.
Qed.
Lemma hour_day t t' : t / (3600 * sec) = t' / (3600 * sec) -> t / day = t' / day /\ hour_of t = hour_of t'.
Proof. unfold hour_of. change (3600 * sec) with 3600000000000. change day with 86400000000000. lia. Qed.
Lemma hour_directive c t t' : ~ In c below_hour -> t / (3600 * sec) = t' / (3600 * sec) -> directive c t = directive c t'.
Proof.
  intros N H. destruct (hour_day t t' H) as [E Ho]. destruct (day_year t t' E) as [Y D].
  unfold directive, month_of, dom_of, month_day, weekday. rewrite Y, D, E, Ho.
  repeat match goal with |- (if (c =? ?a)%char then ?x else _) = (if _ then ?x else _) => destruct (c =? a)%char; [reflexivity|] end.
  repeat match goal with |- (if (c =? ?a)%char then _ else _) = _ => destruct (Ascii.eqb_spec c a) as [->|_];
    [solve [exfalso; apply N; unfold below_hour; cbn; auto 10 | reflexivity]|] end. reflexivity.
Qed.

Lemma substr_tail p c s : is_substr p (String c s) = false -> is_substr p s = false.
Proof. cbn [is_substr]. now intros [_ H]%orb_false_iff. Qed.
Lemma strftime_same cs t t' : (forall c, ~ In c cs -> directive c t = directive c t') -> doy_of t = doy_of t' ->
  forall n f, (String.length f <= n)%nat -> (forall c, In c cs -> is_substr (String "%" (String c "")) f = false) ->
  strftime f t = strftime f t'.
Proof.
  intros H D. induction n as [|n IH]; intros f L N.
  { destruct f; [reflexivity|cbn in L; lia]. }
  destruct f as [|a r]; [reflexivity|]. cbn [strftime]. cbn [String.length] in L.
  assert (R : strftime r t = strftime r t').
  { apply IH; [lia|]. intros c C. eapply substr_tail. now apply N. }
  destruct (Ascii.eqb_spec a "%") as [->|_]; [|now rewrite R].
  destruct r as [|c r']; [reflexivity|]. cbn [String.length] in L.
  destruct (Ascii.eqb_spec c "-") as [->|_].
  - destruct r' as [|j r'']; [now rewrite R|].
    assert (R2 : strftime r'' t = strftime r'' t').
    { apply IH; [cbn in L; lia|]. intros c C. do 3 (eapply substr_tail). now apply N. }
    rewrite R, R2, D. reflexivity.
  - f_equal.
    + apply H. intros C. specialize (N c C). cbn [is_substr] in N. apply orb_false_iff in N as [N _].
      assert (P : is_prefix (String "%" (String c "")) (String "%" (String c r')) = true) by (apply is_prefix_iff; exists r'; reflexivity).
      congruence.
    + apply IH; [lia|]. intros x X. do 2 (eapply substr_tail). now apply N.
Qed.
Lemma not_id q : index_of q IDformat = None -> ~ In q IDformat.
Proof.
  unfold IDformat. cbn [index_of]. intros H I.
  repeat (destruct I as [<-|I]; [cbn in H; discriminate H|]). destruct I.
Qed.
Lemma names_same cs ID fs t t' : (forall c, ~ In c cs -> directive c t = directive c t') -> doy_of t = doy_of t' ->
  without cs fs -> current_filepattern ID t fs = current_filepattern ID t' fs.
Proof.
  intros H D W. unfold current_filepattern. f_equal.
  assert (G : forall fs', incl fs' fs ->
    mapM (fun part => do l <- mapM (fun q => fs_translate q ID t) part; Ok (cat l)) fs' =
    mapM (fun part => do l <- mapM (fun q => fs_translate q ID t') part; Ok (cat l)) fs').
  { induction fs' as [|part fs' IH]; intros I; [reflexivity|]. cbn [mapM].
    assert (E : mapM (fun q => fs_translate q ID t) part = mapM (fun q => fs_translate q ID t') part).
    { assert (Ip : forall q, In q part -> exists P, In P fs /\ In q P) by (intros q Q; exists part; split; [apply I; now left|exact Q]).
      clear I IH. induction part as [|q l IHl]; [reflexivity|]. cbn [mapM].
      rewrite IHl by (intros x X; apply Ip; now right).
      replace (fs_translate q ID t) with (fs_translate q ID t'); [reflexivity|].
      unfold fs_translate. destruct (index_of q IDformat) eqn:NI; [reflexivity|]. apply not_id in NI. f_equal. symmetry.
      destruct (Ip q (or_introl eq_refl)) as (P & P1 & P2).
      apply (strftime_same cs t t' H D (String.length q)); auto. intros c C. apply (W P q c); auto. }
    rewrite E, IH; [reflexivity|]. intros x X. apply I. now right. }
  apply G, incl_refl.
Qed.

Lemma daily_names ID fs p : mem_s p ["%a"; "%A"; "%w"; "%d"; "%j"; "%-j"]%string = true -> without below_day fs -> named_by ID fs p.
Proof.
  intros M W t t' _ _ P.
  assert (E : t / day = t' / day).
  { assert (Q : forall u, period p u = Some (u / day)).
    { intros u. apply mem_in in M. repeat destruct M as [<-|M]; try destruct M; reflexivity. }
    rewrite !Q in P. congruence. }
  apply (names_same below_day); auto; [intros c C; now apply day_directive|]. now apply day_year.
Qed.
Lemma hourly_names ID fs p : mem_s p ["%H"; "%I"]%string = true -> without below_hour fs -> named_by ID fs p.
Proof.
  intros M W t t' _ _ P.
  assert (E : t / (3600 * sec) = t' / (3600 * sec)).
  { assert (Q : forall u, period p u = Some (u / (3600 * sec))).
    { intros u. apply mem_in in M. repeat destruct M as [<-|M]; try destruct M; reflexivity. }
    rewrite !Q in P. congruence. }
  apply (names_same below_hour); auto; [intros c C; now apply hour_directive|]. now apply day_year, hour_day.
Qed.

Lemma translate_ok q ID t : (4 <= length (split_on "." ID))%nat -> exists r, fs_translate q ID t = Ok r.
Proof.
  intros L. unfold fs_translate. destruct (index_of q IDformat) as [i|] eqn:I; [|eauto].
  assert (B : (i < 8)%nat).
  { unfold IDformat in I. cbn [index_of] in I.
    repeat match type of I with context [String.eqb q ?x] => destruct (String.eqb q x); [cbn in I; injection I as <-; lia|] end.
    discriminate. }
  destruct (nth_error (split_on "." ID) (i / 2)) as [r|] eqn:E; [eauto|].
  apply nth_error_None in E. pose proof (Nat.div_lt_upper_bound i 2 4 ltac:(lia) ltac:(lia)). lia.
Qed.
Lemma mapM_exists {A B} (f : A -> result B) l : (forall a, In a l -> exists b, f a = Ok b) -> exists r, mapM f l = Ok r.
Proof.
  induction l as [|a l IH]; intros H; [exists []; reflexivity|]. cbn [mapM].
  destruct (H a (or_introl eq_refl)) as [b ->]. destruct (IH (fun x X => H x (or_intror X))) as [r ->]. cbn [bind]. eauto.
Qed.
Lemma path_ok ID fs : (4 <= length (split_on "." ID))%nat -> forall t, exists pat, current_filepattern ID t fs = Ok pat.
Proof.
  intros L t. unfold current_filepattern.
  destruct (mapM_exists (fun part => do l <- mapM (fun q => fs_translate q ID t) part; Ok (cat l)) fs) as [r ->]; [|cbn [bind]; eauto].
  intros part _. destruct (mapM_exists (fun q => fs_translate q ID t) part) as [r ->]; [|cbn [bind]; eauto].
  intros q _. now apply translate_ok.
Qed.

(** ** SDS *)
Lemma plain_strftime f t : has_char "%" f = false -> strftime f t = f.
Proof.
  induction f as [|a r IH]; cbn [has_char strftime]; auto. intros [A R]%orb_false_iff.
  rewrite A. now rewrite IH.
Qed.
Lemma no_id q : has_char "%" q = false -> index_of q IDformat = None.
Proof.
  intros H. unfold IDformat. cbn [index_of].
  repeat match goal with |- context [String.eqb q ?x] => destruct (String.eqb_spec q x) as [->|_]; [discriminate H|] end. reflexivity.
Qed.
Lemma no_directive q c : has_char "%" q = false -> is_substr (String "%" (String c "")) q = false.
Proof.
  induction q as [|a q IH]; intros H; [reflexivity|]. cbn [has_char] in H. apply orb_false_iff in H as [A B].
  cbn [is_substr]. rewrite IH by exact B. rewrite orb_false_r. cbn [is_prefix].
  destruct (Ascii.eqb_spec "%" a) as [<-|_]; [discriminate A|]. reflexivity.
Qed.
Lemma sds_without base : has_char "%" base = false -> without below_day (sds_structure base).
Proof.
  intros B part q c P Q NI C. unfold sds_structure in P. unfold below_day in C.
  destruct P as [<-|P]; [destruct Q as [<-|[]]; now apply no_directive|].
  repeat (destruct P as [<-|P]; [repeat (destruct Q as [<-|Q]; [first [exfalso; apply NI; unfold IDformat; cbn; tauto|repeat (destruct C as [<-|C]; [vm_compute; reflexivity|]); destruct C]|]); destruct Q|]).
  destruct P.
Qed.
Lemma sds_indicator base : has_char "%" base = false -> last_indicator (sds_structure base) = Some "%j"%string.
Proof. reflexivity. Qed.
(** ** joining *)
Lemma last_app a b : b <> ""%string -> last_char (a ++ b) = last_char b.
Proof.
  intros N. induction a as [|x a IH]; [reflexivity|]. cbn [String.append last_char].
  destruct (a ++ b)%string eqn:E; [|exact IH]. destruct a; cbn in E; [contradiction|discriminate].
Qed.
Lemma last_has b c : has_char c b = false -> last_char b <> Some c.
Proof.
  induction b as [|x b IH]; [discriminate|]. cbn [has_char last_char]. intros [X B]%orb_false_iff. destruct b; [|now apply IH].
  intros E. injection E as ->. now rewrite Ascii.eqb_refl in X.
Qed.
Definition name (b : string) : Prop := b <> ""%string /\ has_char "/" b = false.
Lemma join_one a b : a <> ""%string -> last_char a <> Some "/"%char -> name b ->
  path_join a b = (a ++ "/" ++ b)%string /\ (a ++ "/" ++ b)%string <> ""%string /\
  last_char (a ++ "/" ++ b) <> Some "/"%char.
Proof.
  intros A L [B H].
  assert (N : (a ++ "/" ++ b)%string <> ""%string) by (destruct a; [contradiction|discriminate]).
  split; [|split; [exact N|]].
  - unfold path_join. destruct b as [|x b]; [contradiction|]. cbn [has_char] in H. apply orb_false_iff in H as [X _].
    destruct a as [|y a]; [contradiction|].
    assert (G : match last_char (String y a) with
            | Some "/"%char => String y a ++ String x b | _ => String y a ++ "/" ++ String x b end%string
          = (String y a ++ "/" ++ String x b)%string).
    { destruct (last_char (String y a)) as [[[] [] [] [] [] [] [] []]|]; try reflexivity; contradiction. }
    rewrite G. destruct x as [[] [] [] [] [] [] [] []]; try reflexivity; discriminate X.
  - rewrite last_app by discriminate. change ("/" ++ b)%string with (String "/" b). 
    destruct b as [|x b]; [contradiction|]. change (last_char (String "/" (String x b))) with (last_char (String x b)). now apply last_has.
Qed.
Lemma join_names r : forall a, a <> ""%string -> last_char a <> Some "/"%char -> Forall name r ->
  fold_left path_join r a = join "/" (a :: r).
Proof.
  induction r as [|b r IH]; intros a A L F; [reflexivity|]. cbn [fold_left].
  destruct (join_one a b A L (Forall_inv F)) as (E & N & L'). rewrite E. rewrite IH; auto; [|now apply Forall_inv_tail in F].
  destruct r as [|c r]; [reflexivity|].
  change (join "/" ((a ++ "/" ++ b)%string :: c :: r)) with ((a ++ "/" ++ b) ++ "/" ++ join "/" (c :: r))%string.
  change (join "/" (a :: b :: c :: r)) with (a ++ "/" ++ b ++ "/" ++ join "/" (c :: r))%string.
  now rewrite !append_assoc.
Qed.
Lemma join_base base r : base <> ""%string -> last_char base <> Some "/"%char -> Forall name r ->
  fold_left path_join (base :: r) ""%string = join "/" (base :: r).
Proof.
  intros A L F. cbn [fold_left]. replace (path_join "" base) with base; [now apply join_names|].
  unfold path_join. destruct base as [|[[] [] [] [] [] [] [] []] base]; reflexivity.
Qed.

Lemma sds_fold base net sta loc cha t : has_char "%" base = false ->
  has_char "." net = false -> has_char "." sta = false -> has_char "." loc = false -> has_char "." cha = false ->
  current_filepattern (net ++ "." ++ sta ++ "." ++ loc ++ "." ++ cha) t (sds_structure base) =
  Ok (fold_left path_join (base :: sds_parts net sta loc cha t) "")%string.
Proof.
  intros B N S L C. unfold current_filepattern, sds_structure.
  assert (SP : split_on "." (net ++ "." ++ sta ++ "." ++ loc ++ "." ++ cha) = [net; sta; loc; cha]).
  { etransitivity; [exact (split_on_app "." net _ N)|]. f_equal.
    etransitivity; [exact (split_on_app "." sta _ S)|]. f_equal.
    etransitivity; [exact (split_on_app "." loc _ L)|]. f_equal. now apply split_on_no. }
  assert (T0 : fs_translate base (net ++ "." ++ sta ++ "." ++ loc ++ "." ++ cha) t = Ok base).
  { unfold fs_translate. rewrite no_id by exact B. now rewrite plain_strftime by exact B. }
  cbn [mapM]. rewrite T0. unfold fs_translate. rewrite SP.
  cbn [index_of IDformat String.eqb Ascii.eqb Bool.eqb option_map nth_error Nat.div Nat.divmod fst Nat.odd Nat.even negb bind].
  cbn [strftime Ascii.eqb Bool.eqb directive bind cat fold_right]. rewrite !append_nil_r. reflexivity.
Qed.


Lemma dec_name w n : (0 < w)%nat -> name (dec w n).
Proof.
  intros W. split.
  - intros E. apply (f_equal String.length) in E. rewrite dec_length in E. cbn in E. lia.
  - apply (all_chars_has is_digit); [apply dec_digits|reflexivity].
Qed.
Lemma name_app a b : has_char "/" a = false -> has_char "/" b = false -> (a <> "" \/ b <> "")%string -> name (a ++ b).
Proof. intros A B N. split; [|now rewrite has_char_app, A, B]. destruct a, b, N; cbn; congruence. Qed.
Lemma sds_names net sta loc cha t : name net -> name sta -> has_char "/" loc = false -> has_char "/" cha = false ->
  Forall name (sds_parts net sta loc cha t).
Proof.
  intros [N1 N2] [S1 S2] L C.
  repeat apply Forall_cons; try apply Forall_nil; try (split; assumption).
  - apply dec_name. lia.
  - apply name_app; auto. right. discriminate.
  - pose proof (dec_name 4 (year_of t) ltac:(lia)) as [_ D4]. pose proof (dec_name 3 (doy_of t) ltac:(lia)) as [_ D3].
    apply name_app; auto. rewrite !has_char_app, S2, L, C, D4, D3. reflexivity.
Qed.
Lemma sds_path base net sta loc cha t : base <> ""%string -> has_char "%" base = false -> last_char base <> Some "/"%char ->
  code net -> code sta -> code loc -> code cha -> net <> ""%string -> sta <> ""%string ->
  current_filepattern (net ++ "." ++ sta ++ "." ++ loc ++ "." ++ cha) t (sds_structure base) =
  Ok (join "/" (base :: sds_parts net sta loc cha t)).
Proof.
  intros B P L [N1 N2] [S1 S2] [L1 L2] [C1 C2] N S. rewrite sds_fold by assumption. f_equal.
  apply join_base; auto. apply sds_names; auto; split; auto.
Qed.
Lemma sds_distinct base net sta loc cha t t' : time_ok t -> time_ok t' ->
  base <> ""%string -> has_char "%" base = false -> last_char base <> Some "/"%char ->
  code net -> code sta -> code loc -> code cha -> net <> ""%string -> sta <> ""%string ->
  current_filepattern (net ++ "." ++ sta ++ "." ++ loc ++ "." ++ cha) t (sds_structure base) =
  current_filepattern (net ++ "." ++ sta ++ "." ++ loc ++ "." ++ cha) t' (sds_structure base) ->
  t / day = t' / day.
Proof.
  intros T T' B P L N S Lo C N0 S0. rewrite !sds_path by assumption. intros E. injection E as E.
  change (join "/" (base :: sds_parts net sta loc cha t)) with (base ++ "/" ++ join "/" (sds_parts net sta loc cha t))%string in E.
  change (join "/" (base :: sds_parts net sta loc cha t')) with (base ++ "/" ++ join "/" (sds_parts net sta loc cha t'))%string in E.
  apply append_inj_l in E. apply (append_inj_l "/") in E.
  assert (F : forall u, Forall (fun s => has_char "/" s = false) (sds_parts net sta loc cha u)).
  { intros u. eapply Forall_impl; [|apply sds_names]; [intros a [_ A]; exact A|..]; try (split; [assumption|]); try apply N; try apply S; try apply Lo; apply C. }
  assert (E' : sds_parts net sta loc cha t = sds_parts net sta loc cha t').
  { rewrite <- (split_join "/" (sds_parts net sta loc cha t)) by (try apply F; discriminate).
    rewrite <- (split_join "/" (sds_parts net sta loc cha t')) by (try apply F; discriminate). f_equal. exact E. }
  clear E. unfold sds_parts in E'.
  assert (E1 : dec 4 (year_of t) = dec 4 (year_of t')) by congruence.
  assert (E2 : (net ++ "." ++ sta ++ "." ++ loc ++ "." ++ cha ++ ".D." ++ dec 4 (year_of t) ++ "." ++ dec 3 (doy_of t))%string =
    (net ++ "." ++ sta ++ "." ++ loc ++ "." ++ cha ++ ".D." ++ dec 4 (year_of t') ++ "." ++ dec 3 (doy_of t'))%string) by congruence.
  rewrite E1 in E2. repeat apply append_inj_l in E2.
  pose proof (year_of_range t T). pose proof (year_of_range t' T').
  pose proof (doy_range t T). pose proof (doy_range t' T').
  assert (Y : year_of t = year_of t').
  { apply (f_equal undec) in E1. rewrite !undec_dec in E1 by (change (10 ^ Z.of_nat 4) with 10000; lia). exact E1. }
  assert (D : doy_of t = doy_of t').
  { apply (f_equal undec) in E2. rewrite !undec_dec in E2 by (change (10 ^ Z.of_nat 3) with 1000; destruct (leap (year_of t)), (leap (year_of t')); lia). exact E2. }
  pose proof (lex_year_doy (daynum t) (daynum t')) as X. unfold year_of in Y. unfold doy_of in D. rewrite Y, D, !Z.compare_refl in X.
  pose proof (daynum_range t T). pose proof (daynum_range t' T'). specialize (X ltac:(lia) ltac:(lia)).
  cbn [lex] in X. symmetry in X. apply Z.compare_eq in X. unfold daynum in X. lia.
Qed.

Lemma sorted_reach origin delta s e f w n : 0 < delta -> StronglySorted before f -> (forall w, In w f -> 0 < npts w) ->
  In w f -> no w <= n <= end_no w -> s < time_no origin delta n < e -> reaches origin delta s e f.
Proof.
  intros D SS P W V B.
  destruct f as [|first r] eqn:Ef; [destruct W|]. rewrite <- Ef in *.
  destruct (@exists_last _ f) as (r' & last & El); [rewrite Ef; discriminate|].
  exists first, last, r, r'. split; [exact Ef|]. split; [exact El|].
  assert (F1 : no first <= no w).
  { rewrite Ef in W, SS, P. destruct W as [<-|W]; [lia|]. inversion SS as [|? ? _ FA]; subst. rewrite Forall_forall in FA.
    specialize (FA w W). specialize (P first (or_introl eq_refl)). unfold before, end_no in FA. lia. }
  assert (F2 : end_no w <= end_no last).
  { assert (LI : In last f) by (rewrite El; apply in_app_iff; right; now left).
    pose proof (P last LI) as P1. clear - W SS El P1. subst f. induction r' as [|x r' IH]; cbn in *.
    - destruct W as [<-|[]]. lia.
    - inversion SS as [|? ? S' FA]; subst. destruct W as [<-|W]; [|now apply IH].
      rewrite Forall_forall in FA. specialize (FA last ltac:(apply in_app_iff; right; now left)). unfold before, end_no in *. lia. }
  unfold starttime, endtime. pose proof (proj1 (time_le origin delta D (no first) n) ltac:(lia)).
  pose proof (proj1 (time_le origin delta D n (end_no last)) ltac:(lia)). lia.
Qed.
Theorem sds_read origin delta overlap glob ID base s e fuel :
  0 < delta -> s <= e -> time_ok (s - 7 * day) -> time_ok (e + 7 * day) -> has_char "%" base = false ->
  tidy origin delta glob ID (sds_structure base) "%j" -> (4 <= length (split_on "." ID))%nat ->
  e - s <= Z.of_nat fuel * (3600 * sec) ->
  exists st, read_from_filesystem origin delta overlap glob ID (sds_structure base) s e true fuel = Ok st /\
    (length st <= 1)%nat /\
    (forall n v, s < time_no origin delta n < e ->
       (holds st n v <-> stored origin delta glob ID (sds_structure base) n v)) /\
    (forall n v, holds st n v -> 2 * s - delta <= 2 * time_no origin delta n <= 2 * e + delta).
Proof.
  intros D O S E B T I F.
  assert (N : named_by ID (sds_structure base) "%j") by (apply daily_names; [reflexivity|now apply sds_without]).
  assert (K : period "%j" s <> None) by discriminate.
  destruct (read_ends origin delta overlap glob ID (sds_structure base) s e true "%j" D O S E (sds_indicator base B) eq_refl K N T
    eq_refl (path_ok ID (sds_structure base) I) fuel F) as [st R].
  exists st. split; [exact R|].
  destruct (read_inv origin delta overlap glob ID (sds_structure base) s e true "%j" D O S E (sds_indicator base B) eq_refl K N T fuel st R)
    as (L & So & Co).
  split; [exact L|]. split.
  - intros n v H. split; [intros Q; now apply So|].
    intros [f Q]. apply (Co f n v Q); [|lia]. destruct Q as (pat & w & P & G & W & V).
    assert (TO : time_ok (time_no origin delta n)) by (unfold time_ok in *; change (7 * day) with 604800000000000 in *; lia).
    destruct (T _ pat TO P) as [Tf _]. destruct (Tf f G) as (NE & SS & TW).
    apply (sorted_reach origin delta s e f w n); auto; [|eapply value_range; eauto]. intros x X. now apply TW.
  - intros n v H. destruct (So n v H) as [NR _]; now apply NR.
Qed.

(** ** yearly files *)
Section Yearly.
  Variables (origin delta : Z) (overlap : trace -> trace -> trace) (glob : string -> list (list trace)).
  Variables (ID : string) (fs : list (list string)) (s e : Z) (trim : bool) (p : string).
  Hypothesis Dpos : 0 < delta.
  Hypothesis S_ok : time_ok (s - 7 * day).
  Hypothesis E_ok : time_ok (e + 7 * day).
  Hypothesis Ind : last_indicator fs = Some p.
  Hypothesis Year : is_year_ind p = true.
  Hypothesis Named : named_by ID fs p.
  Hypothesis Tidy : tidy origin delta glob ID fs p.
  Hypothesis Paths : forall t, exists pat, current_filepattern ID t fs = Ok pat.
  Hypothesis Later : year_of s < year_of e.
  Hypothesis Order : s <= e.

  Lemma year_known t : period p t = Some (year_of t).
  Proof. unfold is_year_ind in Year. apply mem_in in Year. destruct Year as [<-|[<-|[]]]; reflexivity. Qed.
  Lemma year_pz t : pz p t = year_of t.
  Proof. unfold pz. now rewrite year_known. Qed.
  Lemma year_step t inc : inc = 1 \/ inc = -1 -> adjacent_time fs t inc = at_date (year_of t - inc) (month_of t) (dom_of t) t.
  Proof.
    intros I. unfold adjacent_time. replace ((inc =? 1) || (inc =? -1)) with true by (destruct I; subst; reflexivity). cbn [negb].
    rewrite Ind. unfold is_year_ind in Year. apply mem_in in Year. destruct Year as [<-|[<-|[]]]; reflexivity.
  Qed.

  Lemma years_back fuel : forall this st, time_ok this -> year_of this <= year_of s -> year_of this <= Z.of_nat fuel ->
    Inv origin delta glob ID fs s e trim p (year_of this) (year_of s) st ->
    later_files origin delta overlap glob ID fs s e trim fuel this st = Raise ValueError.
  Proof.
    assert (EO : time_ok e) by (unfold time_ok in *; change (7 * day) with 604800000000000 in *; lia).
    assert (SO : time_ok s) by (unfold time_ok in *; change (7 * day) with 604800000000000 in *; lia).
    induction fuel as [|fuel IH]; intros this st TO YS YF I; pose proof (year_of_range this TO) as YR; [lia|].
    cbn [later_files].
    replace (ends_early origin delta e st) with true.
    2:{ destruct st as [|w r]; [reflexivity|]. cbn [ends_early]. symmetry. apply Z.ltb_lt.
        destruct (inv_range _ _ _ _ _ _ _ _ _ _ _ _ I w (or_introl eq_refl)) as (_ & _ & Ow & _ & Ew).
        apply (pz_lt p); auto. rewrite (year_pz e). lia. }
    replace (this <? e) with true.
    2:{ symmetry. apply Z.ltb_lt. apply (pz_lt p); auto. rewrite !year_pz. lia. }
    cbn [andb]. rewrite year_step by auto.
    destruct (at_date (year_of this - 1) (month_of this) (dom_of this) this) as [this'|x] eqn:A.
    2:{ apply at_date_raise in A. now subst. }
    cbn [bind]. pose proof (month_day_range this TO) as [MR _].
    pose proof (at_date_time_ok _ _ _ _ _ MR A) as TO'. apply at_date_ok in A as (YE & _); [|exact MR].
    destruct (Paths this') as [pat PT]. rewrite PT. cbn [bind].
    destruct (Z.eqb_spec this' s) as [->|_]; [lia|].
    destruct (read_period origin delta overlap glob ID fs s e trim p) with (t := this') (pat := pat) as (more & RM & IM); auto.
    { rewrite year_known. discriminate. }
    rewrite RM. cbn [bind]. apply IH; auto; try lia.
    rewrite year_pz in IM.
    apply (join_inv origin delta overlap glob ID fs s e trim p Dpos) with (mid := year_of this') (st := more) (st' := st); auto; try lia.
    rewrite YE. replace (year_of this - 1 + 1) with (year_of this) by lia. exact I.
  Qed.

  Theorem yearly fuel pat st : 9999 <= Z.of_nat fuel -> current_filepattern ID s fs = Ok pat ->
    read_filepattern origin delta overlap glob pat s e trim = Ok st -> begins_late origin delta s st = false ->
    read_from_filesystem origin delta overlap glob ID fs s e trim fuel = Raise ValueError.
  Proof.
    intros FU PT R B.
    assert (SO : time_ok s) by (unfold time_ok in *; change (7 * day) with 604800000000000 in *; lia).
    unfold read_from_filesystem, read_at. rewrite PT. cbn [bind]. rewrite R. cbn [bind]. rewrite B. cbn [bind].
    destruct (read_period origin delta overlap glob ID fs s e trim p) with (t := s) (pat := pat) as (st0 & R0 & I0); auto.
    { rewrite year_known. discriminate. }
    rewrite R in R0. injection R0 as <-. rewrite year_pz in I0.
    rewrite years_back; auto; [lia|]. pose proof (year_of_range s SO). lia.
  Qed.
End Yearly.
