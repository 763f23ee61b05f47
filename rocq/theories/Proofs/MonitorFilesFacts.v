(** Selection of correlation files and grouping of dv files. *)
From Coq Require Import Permutation.
From Verif Require Import Lib.Base Lib.Str Lib.StrFacts Model.CorrDB Model.MonitorFiles Spec.MonitorSpec.
Local Open Scope string_scope.
Local Open Scope nat_scope.

(** ** selection *)
Lemma list_eqb_iff a b : list_eqb a b = true <-> a = b.
Proof.
  revert b. induction a as [|x a IH]; destruct b as [|y b]; cbn; split; try discriminate; auto.
  - intros H. apply andb_prop in H as [H1 H2]. apply String.eqb_eq in H1. apply IH in H2. congruence.
  - intros [= -> ->]. rewrite String.eqb_refl. now apply IH.
Qed.

Lemma filter_all {A} (f : A -> bool) l : filter f l = l <-> forall x, In x l -> f x = true.
Proof.
  split.
  - intros E x I. rewrite <- E in I. now apply filter_In in I.
  - induction l as [|y l IH]; cbn; [auto|]. intros H. rewrite (H y) by auto. f_equal. apply IH. auto.
Qed.

Lemma both_match_iff parts p : both_match parts p = true <-> forall c, In c parts -> fnmatch c p = true.
Proof. unfold both_match, fnfilter. rewrite list_eqb_iff. apply filter_all. Qed.

Lemma together_iff l parts : existsb (both_match parts) l = true <-> match_together (FList l) parts.
Proof.
  rewrite existsb_exists. cbn. split; intros (p & I & H); exists p; (split; [exact I|]); now apply both_match_iff.
Qed.

Lemma keep_file_iff net sta name n s f :
  keep_file net sta name = Some (n, s, f) <->
  f = name /\ (exists rest, split_on "." name = n :: s :: rest) /\
  match_together net (split_on "-" n) /\
  (match_together sta (split_on "-" s) \/ (exists l k, net = FList l /\ sta = FList k)).
Proof.
  unfold keep_file. destruct (split_on "." name) as [|a [|b rest]] eqn:E.
  - split; [discriminate|]. intros (_ & (r & H) & _). discriminate.
  - split; [discriminate|]. intros (_ & (r & H) & _). discriminate.
  - split.
    + intros H. destruct net as [p|l].
      * destruct (both_match _ p) eqn:B; [|discriminate]. rewrite both_match_iff in B.
        destruct sta as [q|k].
        -- destruct (both_match (split_on "-" b) q) eqn:B2; [|discriminate]. injection H as <- <- <-. rewrite both_match_iff in B2.
           split; [reflexivity|]. split; [eauto|]. split; [exact B|]. left. exact B2.
        -- rewrite orb_false_r in H. destruct (existsb (both_match (split_on "-" b)) k) eqn:B2; [|discriminate]. injection H as <- <- <-.
           split; [reflexivity|]. split; [eauto|]. split; [exact B|]. left. now apply together_iff.
      * destruct (existsb _ l) eqn:B; [|discriminate]. apply together_iff in B.
        destruct sta as [q|k].
        -- destruct (both_match (split_on "-" b) q) eqn:B2; [|discriminate]. injection H as <- <- <-. rewrite both_match_iff in B2.
           split; [reflexivity|]. split; [eauto|]. split; [exact B|]. left. exact B2.
        -- rewrite orb_true_r in H. injection H as <- <- <-.
           split; [reflexivity|]. split; [eauto|]. split; [exact B|]. right. eauto.
    + intros (-> & (r & [= <- <- <-]) & M1 & M2). destruct net as [p|l].
      * cbn in M1. apply both_match_iff in M1. rewrite M1. destruct M2 as [M2|(l & k & ? & _)]; [|discriminate].
        destruct sta as [q|k]; [cbn in M2; apply both_match_iff in M2|apply together_iff in M2]; rewrite M2; reflexivity.
      * apply together_iff in M1. rewrite M1. destruct sta as [q|k].
        -- destruct M2 as [M2|(l' & k & _ & ?)]; [|discriminate]. cbn in M2. apply both_match_iff in M2. now rewrite M2.
        -- rewrite orb_true_r. reflexivity.
Qed.

Lemma returned_iff net sta listing name :
  returned net sta listing name <->
  In name listing /\ globbed name = true /\
  exists n s rest, split_on "." name = n :: s :: rest /\ match_together net (split_on "-" n) /\
    (match_together sta (split_on "-" s) \/ (exists l k, net = FList l /\ sta = FList k)).
Proof.
  unfold returned, corr_find_filter. split.
  - intros (n & s & I). apply in_flat_map in I as (f & I & H). apply filter_In in I as [I G].
    destruct (keep_file net sta f) as [x|] eqn:K; [|destruct H]. destruct H as [->|[]].
    apply keep_file_iff in K as (-> & (r & S) & M). split; [exact I|]. split; [exact G|]. exists n, s, r. auto.
  - intros (I & G & n & s & r & S & M). exists n, s. apply in_flat_map. exists name. split; [apply filter_In; auto|].
    assert (K : keep_file net sta name = Some (n, s, name)) by (apply keep_file_iff; eauto). rewrite K. now left.
Qed.

(** string filters *)
Lemma find_strings p q listing name :
  returned (FStr p) (FStr q) listing name <->
  In name listing /\ globbed name = true /\ to_be_used (FStr p) (FStr q) name.
Proof.
  rewrite returned_iff. unfold to_be_used. cbn. split; intros (I & G & n & s & r & S & M1 & M2); (split; [exact I|]); (split; [exact G|]);
    exists n, s, r; (split; [exact S|]); split; auto. destruct M2 as [M2|(? & ? & ? & _)]; [auto|discriminate].
Qed.

Lemma together_matches f codes c : match_together f codes -> In c codes -> matches f c.
Proof. destruct f as [p|l]; cbn; [auto|]. intros (p & I & H) C. eauto. Qed.

(** at most one list: what is returned is to be used *)
Lemma find_sound net sta listing name :
  (forall l k, ~ (net = FList l /\ sta = FList k)) ->
  returned net sta listing name -> to_be_used net sta name.
Proof.
  intros NL. rewrite returned_iff. intros (_ & _ & n & s & r & S & M1 & M2). exists n, s, r. split; [exact S|].
  destruct M2 as [M2|(l & k & H)]; [|exfalso; eapply NL; eauto].
  split; intros c C; eapply together_matches; eauto.
Qed.

(** autocorrelations: both codes are equal, then one pattern matches both *)
Lemma find_auto net sta listing name n0 s0 rest :
  (forall l k, ~ (net = FList l /\ sta = FList k)) ->
  In name listing -> globbed name = true -> split_on "." name = (n0 ++ "-" ++ n0) :: (s0 ++ "-" ++ s0) :: rest ->
  has_char "-" n0 = false -> has_char "-" s0 = false ->
  (returned net sta listing name <-> matches net n0 /\ matches sta s0).
Proof.
  intros NL I G S H1 H2. rewrite returned_iff.
  assert (T : forall c, has_char "-" c = false -> split_on "-" (c ++ "-" ++ c) = [c; c]).
  { intros c H. change (c ++ "-" ++ c) with (c ++ String "-" c). rewrite split_on_app by exact H. now rewrite split_on_no. }
  assert (MT : forall f c, match_together f [c; c] <-> matches f c).
  { intros f c. destruct f as [p|l]; cbn.
    - split; [auto|]. intros H x [<-|[<-|[]]]; exact H.
    - split; intros (p & Ip & H); exists p; (split; [exact Ip|]); [auto|]. intros x [<-|[<-|[]]]; exact H. }
  split.
  - intros (_ & _ & n & s & r & S' & M1 & M2). rewrite S in S'. injection S' as <- <- <-. rewrite T in M1, M2 by assumption.
    destruct M2 as [M2|(l & k & H)]; [|exfalso; eapply NL; eauto]. split; now apply MT.
  - intros [M1 M2]. split; [exact I|]. split; [exact G|]. exists (n0 ++ "-" ++ n0), (s0 ++ "-" ++ s0), rest.
    split; [exact S|]. rewrite !T by assumption. split; [now apply MT|]. left. now apply MT.
Qed.

(** two lists: the station list has no effect *)
Lemma find_lists l k k' listing : corr_find_filter (FList l) (FList k) listing = corr_find_filter (FList l) (FList k') listing.
Proof.
  unfold corr_find_filter. apply flat_map_ext. intros f. unfold keep_file.
  destruct (split_on "." f) as [|a [|b r]]; [reflexivity..|].
  destruct (existsb _ l); [|reflexivity]. now rewrite !orb_true_r.
Qed.

(** ** list.remove *)
Definition neqb (x y : string) : bool := negb (String.eqb y x).
Definition mem (x : string) (l : list string) : bool := existsb (String.eqb x) l.
Lemma mem_iff x l : mem x l = true <-> In x l.
Proof.
  unfold mem. rewrite existsb_exists. split.
  - intros (y & I & E). apply String.eqb_eq in E. now subst.
  - intros I. exists x. split; [exact I|apply String.eqb_refl].
Qed.
Lemma mem_false x l : mem x l = false <-> ~ In x l.
Proof. rewrite <- mem_iff. destruct (mem x l); split; intros; try discriminate; auto. exfalso. auto. Qed.

Lemma remove1_in x l : NoDup l -> In x l -> remove1 x l = Ok (filter (neqb x) l).
Proof.
  induction l as [|y l IH]; intros N I; [destruct I|]. apply NoDup_cons_iff in N as [Ny N]. cbn [remove1 filter]. unfold neqb at 1.
  destruct (String.eqb_spec y x) as [->|D]; cbn [negb].
  - f_equal. symmetry. apply filter_all. intros z Z. unfold neqb. destruct (String.eqb_spec z x); [subst; contradiction|reflexivity].
  - destruct I as [I|I]; [congruence|]. rewrite IH by assumption. reflexivity.
Qed.
Lemma remove1_out x l : ~ In x l -> remove1 x l = Raise ValueError.
Proof.
  induction l as [|y l IH]; intros I; [reflexivity|]. cbn [remove1]. destruct (String.eqb_spec y x) as [->|D].
  - exfalso. apply I. now left.
  - rewrite IH; [reflexivity|]. intros H. apply I. now right.
Qed.
Lemma remove_caught_filter l x : NoDup l -> remove_caught l x = filter (neqb x) l.
Proof.
  intros N. unfold remove_caught. destruct (in_dec string_dec x l) as [I|I].
  - now rewrite remove1_in.
  - rewrite remove1_out by exact I. symmetry. apply filter_all. intros z Z. unfold neqb.
    destruct (String.eqb_spec z x); [subst; contradiction|reflexivity].
Qed.
Lemma filter_filter {A} (f g : A -> bool) l : filter f (filter g l) = filter (fun x => g x && f x) l.
Proof.
  induction l as [|x l IH]; [reflexivity|]. cbn [filter]. destruct (g x) eqn:G; cbn [filter andb]; [|exact IH].
  destruct (f x); [f_equal|]; exact IH.
Qed.
Lemma fold_remove fs : forall l, NoDup l -> fold_left remove_caught fs l = filter (fun x => negb (mem x fs)) l.
Proof.
  induction fs as [|f fs IH]; intros l N; cbn [fold_left].
  - symmetry. apply filter_all. reflexivity.
  - rewrite IH by (rewrite remove_caught_filter by exact N; now apply NoDup_filter).
    rewrite remove_caught_filter by exact N. rewrite filter_filter. apply filter_ext. intros x.
    unfold neqb, mem. cbn [existsb]. rewrite negb_orb. reflexivity.
Qed.

(** ** one pass *)
Definition sel (m : av_method) (f : string) : bool :=
  negb (is_substr "av" f) && match wanted_file m f with Ok b => b | Raise _ => false end.

Lemma scan_spec m filtfil todo : forall infiles fffil,
  NoDup infiles -> NoDup todo -> (forall f, In f todo -> In f infiles) -> (forall f, In f todo -> In f filtfil) ->
  (forall f, In f todo -> is_substr "av" f = true \/ exists b, wanted_file m f = Ok b) ->
  scan m filtfil todo infiles fffil =
    if existsb (has_part (av_channel m)) todo
    then Ok (filter (fun x => negb (mem x filtfil)) infiles, [])
    else Ok (filter (fun x => negb (mem x todo && negb (sel m x))) infiles, (fffil ++ filter (sel m) todo)%list).
Proof.
  induction todo as [|f r IH]; intros infiles fffil N Nt S1 S2 W.
  - cbn. rewrite app_nil_r. do 2 f_equal. symmetry. apply filter_all. reflexivity.
  - cbn [scan existsb]. apply NoDup_cons_iff in Nt as [Nf Nt].
    destruct (has_part (av_channel m) f) eqn:HP; cbn [orb]; [now rewrite fold_remove|].
    assert (S1' : forall g, In g r -> In g infiles) by (intros; apply S1; now right).
    assert (S2' : forall g, In g r -> In g filtfil) by (intros; apply S2; now right).
    assert (W' : forall g, In g r -> is_substr "av" g = true \/ exists b, wanted_file m g = Ok b) by (intros; apply W; now right).
    assert (REM : sel m f = false ->
                  (do i <- remove1 f infiles; scan m filtfil r i fffil) =
                  if existsb (has_part (av_channel m)) r
                  then Ok (filter (fun x => negb (mem x filtfil)) infiles, [])
                  else Ok (filter (fun x => negb (mem x (f :: r) && negb (sel m x))) infiles, (fffil ++ filter (sel m) (f :: r))%list)).
    { intros SF. rewrite remove1_in by (try exact N; apply S1; now left). cbn [bind].
      rewrite IH; [|now apply NoDup_filter|exact Nt| |exact S2'|exact W'].
      2:{ intros g G. apply filter_In. split; [now apply S1'|]. unfold neqb. destruct (String.eqb_spec g f); [subst; contradiction|reflexivity]. }
      destruct (existsb _ r).
      - rewrite filter_filter. do 2 f_equal. apply filter_ext_in. intros x _. unfold neqb.
        destruct (String.eqb_spec x f) as [->|D]; [|reflexivity]. cbn [negb andb].
        assert (M : mem f filtfil = true) by (apply mem_iff, S2; now left). now rewrite M.
      - rewrite filter_filter. cbn [filter]. rewrite SF. do 2 f_equal. apply filter_ext_in. intros x _. unfold neqb, mem. cbn [existsb].
        destruct (String.eqb_spec x f) as [->|D]; cbn [negb andb orb]; [now rewrite SF|reflexivity]. }
    destruct (is_substr "av" f) eqn:AV.
    + apply REM. unfold sel. now rewrite AV.
    + destruct (W f (or_introl eq_refl)) as [A|(b & B)]; [congruence|]. rewrite B. cbn [bind].
      assert (SF : sel m f = b) by (unfold sel; now rewrite AV, B).
      destruct b; [|now apply REM].
      rewrite IH by assumption. destruct (existsb _ r); [reflexivity|]. cbn [filter]. rewrite SF.
      rewrite <- app_assoc. cbn [app]. do 2 f_equal. apply filter_ext_in. intros x _. unfold mem. cbn [existsb].
      destruct (String.eqb_spec x f) as [->|D]; cbn [orb andb]; [|reflexivity].
      rewrite SF. cbn. destruct (existsb (String.eqb f) r); reflexivity.
Qed.

Lemma remove_each_spec fs : forall l, NoDup l -> NoDup fs -> (forall f, In f fs -> In f l) ->
  remove_each fs l = Ok (filter (fun x => negb (mem x fs)) l).
Proof.
  induction fs as [|f fs IH]; intros l N Nf S; cbn [remove_each].
  - f_equal. symmetry. apply filter_all. reflexivity.
  - apply NoDup_cons_iff in Nf as [Nf Nfs]. rewrite remove1_in by (try exact N; apply S; now left). cbn [bind].
    rewrite IH; [|now apply NoDup_filter|exact Nfs|].
    + rewrite filter_filter. f_equal. apply filter_ext. intros x. unfold neqb, mem. cbn [existsb]. now rewrite negb_orb.
    + intros g G. apply filter_In. split; [apply S; now right|]. unfold neqb. destruct (String.eqb_spec g f); [subst; contradiction|reflexivity].
Qed.

Definition at_least_two {A} (l : list A) : list (list A) := match l with _ :: _ :: _ => [l] | _ => [] end.

Section Step.
  Variable readable : string -> bool.
  Variable m : av_method.

  Lemma av_step_spec f0 l :
    let L := f0 :: l in
    let class := fnfilter L (base f0 ++ "*") in
    NoDup L -> (forall f, In f L -> is_substr "av" f = true \/ exists b, wanted_file m f = Ok b) ->
    av_step readable m L =
      Ok (filter (fun x => negb (mem x class)) L,
          if existsb (has_part (av_channel m)) class then []
          else at_least_two (filter readable (filter (sel m) class))).
  Proof.
    intros L class N W. unfold av_step. fold L. unfold L at 1. fold class.
    assert (CL : forall f, In f class -> In f L) by (intros f I; unfold class, fnfilter in I; now apply filter_In in I).
    assert (NC : NoDup class) by (apply NoDup_filter; exact N).
    rewrite scan_spec; [|exact N|exact NC|exact CL|auto|intros; apply W; auto].
    destruct (existsb _ class) eqn:EX; cbn [bind]; [reflexivity|]. cbn [app].
    rewrite remove_each_spec; [|now apply NoDup_filter|now apply NoDup_filter|].
    - cbn [bind]. rewrite filter_filter. f_equal. f_equal.
      apply filter_ext. intros x. unfold mem at 2.
      assert (ME : existsb (String.eqb x) (filter (sel m) class) = mem x class && sel m x).
      { apply eq_true_iff_eq. change (mem x (filter (sel m) class) = true <-> mem x class && sel m x = true).
        rewrite mem_iff, filter_In, andb_true_iff, mem_iff. reflexivity. }
      rewrite ME. destruct (mem x class), (sel m x); reflexivity.
    - intros f I. apply filter_In in I as [I SF]. apply filter_In. split; [now apply CL|]. rewrite SF. cbn. now rewrite andb_false_r.
  Qed.
End Step.

(** ** names *)
Lemma split_on_sep c a b : split_on c (a ++ String c b) = (split_on c a ++ split_on c b)%list.
Proof.
  induction a as [|x a IH]; cbn.
  - now rewrite Ascii.eqb_refl.
  - rewrite IH. destruct (Ascii.eqb x c); [reflexivity|].
    pose proof (split_on_nonempty c a) as H. destruct (split_on c a); [contradiction|reflexivity].
Qed.
Lemma join_part sep l p : In p l -> exists a b, join sep l = a ++ p ++ b.
Proof.
  induction l as [|x l IH]; intros I; [destruct I|]. destruct l as [|y l].
  - destruct I as [<-|[]]. exists "", "". cbn. now rewrite append_nil_r.
  - destruct I as [<-|I].
    + exists "", (sep ++ join sep (y :: l)). reflexivity.
    + destruct (IH I) as (a & b & E). exists (x ++ sep ++ a), b. cbn [join] in *. rewrite E, !append_assoc. reflexivity.
Qed.
Lemma split_on_part c s p : In p (split_on c s) -> exists a b, s = a ++ p ++ b.
Proof. intros I. apply (join_part (String c "")) in I. now rewrite join_split in I. Qed.

Lemma substr_trans p q s : is_substr p q = true -> is_substr q s = true -> is_substr p s = true.
Proof.
  rewrite !is_substr_iff. intros (a & b & ->) (c & d & ->). exists (c ++ a), (b ++ d). rewrite !append_assoc. reflexivity.
Qed.

Lemma comp_code_nodot x : file_ok x -> has_char "." (comp_code (what x)) = false.
Proof.
  intros (_ & _ & W). destruct (what x) as [c0 c1|l]; cbn.
  - destruct W as [[H0 _] [H1 _]]. rewrite has_char_app. cbn. now rewrite H0, H1.
  - destruct W as [->|[->| ->]]; reflexivity.
Qed.

Lemma split_pair x : file_ok x -> split_on "." (pair_of x) = (split_on "." (where_ x) ++ [(sta0 x ++ "-" ++ sta1 x)%string])%list.
Proof.
  intros ([H0 _] & [H1 _] & _). unfold pair_of. change ("." ++ sta0 x ++ "-" ++ sta1 x) with (String "." (sta0 x ++ "-" ++ sta1 x)).
  rewrite split_on_sep. f_equal. apply split_on_no. rewrite has_char_app. cbn. now rewrite H0, H1.
Qed.
Lemma split_path x : file_ok x -> split_on "." (path x) = (split_on "." (pair_of x) ++ [comp_code (what x); "npz"])%list.
Proof.
  intros O. unfold path. change ("." ++ comp_code (what x) ++ ".npz") with (String "." (comp_code (what x) ++ ".npz")).
  rewrite split_on_sep. f_equal. change ".npz" with (String "." "npz"). rewrite split_on_app by now apply comp_code_nodot. reflexivity.
Qed.
Lemma base_path x : file_ok x -> base (path x) = pair_of x.
Proof.
  intros O. unfold base. rewrite split_path by exact O. rewrite app_length. cbn [length].
  replace (length (split_on "." (pair_of x)) + 2 - 2)%nat with (length (split_on "." (pair_of x)) + 0)%nat by lia.
  rewrite firstn_app_2. cbn [firstn]. rewrite app_nil_r. apply (join_split "." (pair_of x)).
Qed.
Lemma ends_path x : file_ok x -> from_end 2 (path x) = Ok (comp_code (what x)) /\ from_end 3 (path x) = Ok (sta0 x ++ "-" ++ sta1 x).
Proof.
  intros O. unfold from_end. rewrite split_path, split_pair by exact O. rewrite !rev_app_distr. cbn. split; reflexivity.
Qed.
Lemma split_dash a b : code_ok a -> code_ok b -> split_on "-" (a ++ "-" ++ b) = [a; b].
Proof. intros [_ A] [_ B]. change ("-" ++ b) with (String "-" b). rewrite split_on_app by exact A. now rewrite split_on_no. Qed.

Lemma wanted_path m x c0 c1 : file_ok x -> what x = Components c0 c1 -> wanted_file m (path x) = Ok (for_method m x).
Proof.
  intros O E. unfold wanted_file. destruct (ends_path x O) as [E2 E3]. rewrite E2, E3. cbn [bind]. unfold for_method. rewrite E. cbn [comp_code].
  destruct O as (O0 & O1 & OC). rewrite E in OC. destruct OC as [OC0 OC1].
  rewrite !split_dash by assumption. cbn [second first bind].
  destruct m; cbn; destruct (String.eqb (sta0 x) (sta1 x)), (String.eqb c0 c1); reflexivity.
Qed.

Lemma av_path x l : what x = Averaged l -> file_ok x -> is_substr "av" (path x) = true.
Proof.
  intros E (_ & _ & O). rewrite E in O. apply is_substr_iff. unfold path. rewrite E. cbn [comp_code].
  destruct O as [->|[->| ->]]; [exists (pair_of x ++ "."), ".npz"|exists (pair_of x ++ "."), "-auto.npz"|exists (pair_of x ++ "."), "-xc.npz"];
    rewrite !append_assoc; reflexivity.
Qed.

Lemma sel_path m x : file_ok x -> no_av x -> sel m (path x) = for_method m x.
Proof.
  intros O [_ A]. unfold sel. destruct (what x) as [c0 c1|l] eqn:E.
  - rewrite A. cbn [negb andb]. now rewrite (wanted_path m x c0 c1).
  - rewrite (av_path x l) by assumption. unfold for_method. now rewrite E.
Qed.

Lemma channel_av m : is_substr "av" (av_channel m) = true.
Proof. destruct m; reflexivity. Qed.

Lemma part_path m x : file_ok x -> no_av x -> has_part (av_channel m) (path x) = is_result m x.
Proof.
  intros O [P A]. unfold has_part. rewrite split_path by exact O. rewrite existsb_app.
  assert (F : existsb (String.eqb (av_channel m)) (split_on "." (pair_of x)) = false).
  { destruct (existsb _ _) eqn:X; [exfalso|reflexivity]. apply existsb_exists in X as (p & I & E). apply String.eqb_eq in E. subst p.
    apply split_on_part in I as (a & b & I).
    assert (S : is_substr "av" (pair_of x) = true); [|congruence].
    eapply substr_trans; [apply (channel_av m)|]. apply is_substr_iff. eauto. }
  rewrite F. cbn [orb existsb]. unfold is_result.
  assert (Z : String.eqb (av_channel m) "npz" = false) by (destruct m; reflexivity). rewrite Z, !orb_false_r.
  destruct (what x) as [c0 c1|l] eqn:E; cbn [comp_code].
  - destruct (String.eqb_spec (av_channel m) (c0 ++ "-" ++ c1)) as [D|D]; [exfalso|reflexivity].
    assert (S : is_substr "av" (path x) = true); [|congruence].
    eapply substr_trans; [apply (channel_av m)|]. apply is_substr_iff. exists (pair_of x ++ "."), ".npz".
    unfold path. rewrite E. cbn [comp_code]. rewrite <- D, !append_assoc. reflexivity.
  - replace (av_channel m) with (label m) by (now destruct m). apply String.eqb_sym.
Qed.

(** ** the loop *)
Lemma input_ok_filter f xs : input_ok xs -> input_ok (filter f xs).
Proof.
  intros [N O A P F]. split.
  - clear -N. induction xs as [|x xs IH]; cbn; [constructor|]. cbn in N. apply NoDup_cons_iff in N as [N1 N2]. destruct (f x); [|auto].
    cbn. constructor; [|auto]. intros I. apply N1. apply in_map_iff in I as (y & E & I). apply filter_In in I as [I _].
    rewrite <- E. now apply in_map.
  - intros x I. apply filter_In in I as [I _]. auto.
  - intros x I. apply filter_In in I as [I _]. auto.
  - intros x I. apply filter_In in I as [I _]. auto.
  - intros x y I J. apply filter_In in I as [I _]. apply filter_In in J as [J _]. auto.
Qed.

Lemma filter_map_path (f : string -> bool) xs : filter f (map path xs) = map path (filter (fun x => f (path x)) xs).
Proof. induction xs as [|x xs IH]; [reflexivity|]. cbn. destruct (f (path x)); cbn; now rewrite IH. Qed.

Lemma class_path x0 xs : input_ok xs -> In x0 xs ->
  fnfilter (map path xs) (base (path x0) ++ "*") = map path (filter (fun y => String.eqb (pair_of y) (pair_of x0)) xs).
Proof.
  intros [N O A P F] I. rewrite base_path by auto. unfold fnfilter. rewrite filter_map_path. f_equal. apply filter_ext_in.
  intros y J. rewrite fnmatch_prefix_star by auto. apply eq_true_iff_eq. rewrite String.eqb_eq. split.
  - intros H. symmetry. now apply F.
  - intros E. apply is_prefix_iff. exists ("." ++ comp_code (what y) ++ ".npz"). unfold path. now rewrite E.
Qed.

Lemma at_least_two_iff {A} (l g : list A) : In g (at_least_two l) <-> g = l /\ 2 <= length g.
Proof.
  unfold at_least_two. destruct l as [|a [|b l]]; cbn; split; try (intros []; fail).
  - intros [-> H]. cbn in H. lia.
  - intros [-> H]. cbn in H. lia.
  - intros [<-|[]]. cbn. split; [reflexivity|lia].
  - intros [-> _]. auto.
Qed.

Section Loop.
  Variable readable : string -> bool.
  Variable m : av_method.

  Lemma loop_step x0 r : input_ok (x0 :: r) ->
    let p := pair_of x0 in
    let xs := x0 :: r in
    av_step readable m (map path xs) =
      Ok (map path (filter (fun y => negb (String.eqb (pair_of y) p)) xs),
          if existsb (is_result m) (filter (fun y => String.eqb (pair_of y) p) xs) then []
          else at_least_two (group_of readable m xs p)).
  Proof.
    intros IO p xs. pose proof IO as [N O A P F]. fold xs in IO, N, O, A, P, F.
    change (map path xs) with (path x0 :: map path r). rewrite av_step_spec.
    - change (path x0 :: map path r) with (map path xs). rewrite class_path by (try exact IO; now left). fold p.
      rewrite filter_map_path. f_equal. f_equal.
      + f_equal. apply filter_ext_in. intros y J. f_equal. apply eq_true_iff_eq. rewrite mem_iff, String.eqb_eq, in_map_iff. split.
        * intros (z & E & I). apply filter_In in I as [I Z]. apply String.eqb_eq in Z.
          assert (y = z); [|congruence].
          clear -E I J N. revert N I J. induction xs as [|w l IH]; intros N I J; [destruct I|]. cbn in N. apply NoDup_cons_iff in N as [N1 N2].
          destruct I as [->|I], J as [->|J]; [reflexivity| | |auto].
          -- exfalso. apply N1. rewrite E. now apply in_map.
          -- exfalso. apply N1. rewrite <- E. now apply in_map.
        * intros E. exists y. split; [reflexivity|]. apply filter_In. split; [exact J|]. now apply String.eqb_eq.
      + assert (E1 : existsb (has_part (av_channel m)) (map path (filter (fun y => String.eqb (pair_of y) p) xs)) =
                     existsb (is_result m) (filter (fun y => String.eqb (pair_of y) p) xs)).
        { assert (S : forall y, In y (filter (fun y => String.eqb (pair_of y) p) xs) -> In y xs) by (intros y I; now apply filter_In in I).
          induction (filter _ xs) as [|y l IH]; [reflexivity|]. cbn. rewrite part_path; [|apply O, S; now left|apply A, S; now left].
          f_equal. apply IH. intros; apply S; now right. }
        rewrite E1. destruct (existsb (is_result m) _); [reflexivity|]. f_equal. unfold group_of. f_equal.
        rewrite filter_map_path, filter_filter. f_equal. apply filter_ext_in. intros y J. now rewrite sel_path by auto.
    - exact N.
    - change (path x0 :: map path r) with (map path xs). intros f I. apply in_map_iff in I as (y & <- & I).
      destruct (what y) as [c0 c1|l] eqn:E.
      + right. exists (for_method m y). apply (wanted_path m y c0 c1); auto.
      + left. apply (av_path y l); auto.
  Qed.

  Lemma group_in xs p f : In f (group_of readable m xs p) ->
    exists x, In x xs /\ path x = f /\ pair_of x = p /\ for_method m x = true /\ readable f = true.
  Proof.
    unfold group_of. intros I. apply filter_In in I as [I R]. apply in_map_iff in I as (x & E & I). apply filter_In in I as [I H].
    apply andb_prop in H as [H1 H2]. apply String.eqb_eq in H1. exists x. auto.
  Qed.

  Lemma NoDup_map_filter {A B} (g : A -> B) (f : A -> bool) l : NoDup (map g l) -> NoDup (map g (filter f l)).
  Proof.
    induction l as [|x l IH]; cbn; [auto|]. intros N. apply NoDup_cons_iff in N as [N1 N2]. destruct (f x); [|auto]. cbn.
    constructor; [|auto]. intros I. apply N1. apply in_map_iff in I as (y & E & I). apply filter_In in I as [I _].
    rewrite <- E. now apply in_map.
  Qed.

  Lemma av_loop_spec fuel : forall xs acc, input_ok xs -> length xs <= fuel ->
    exists gs, av_loop readable fuel m (map path xs) acc = Ok (Some (acc ++ gs)%list) /\
      (forall g, In g gs <-> to_average readable m xs g) /\ NoDup (concat gs).
  Proof.
    induction fuel as [|fuel IH]; intros xs acc IO L.
    - destruct xs as [|x xs]; [|cbn in L; lia]. exists []. cbn. rewrite app_nil_r. split; [reflexivity|]. split; [|constructor].
      intros g. split; [intros []|]. intros (p & -> & H & _). cbn in H. lia.
    - destruct xs as [|x0 r].
      { exists []. cbn. rewrite app_nil_r. split; [reflexivity|]. split; [|constructor].
        intros g. split; [intros []|]. intros (p & -> & H & _). cbn in H. lia. }
      pose proof (loop_step x0 r IO) as ST. cbv zeta in ST. set (xs := x0 :: r) in *. set (p0 := pair_of x0) in *.
      set (ys := filter (fun y => negb (String.eqb (pair_of y) p0)) xs) in *.
      assert (LY : length ys <= fuel).
      { unfold ys, xs. cbn [filter]. unfold p0 at 1. rewrite String.eqb_refl. cbn [negb].
        assert (H : forall (f : dvfile -> bool) l, length (filter f l) <= length l).
        { intros f l. induction l as [|y l IHl]; cbn; [lia|]. destruct (f y); cbn; lia. }
        specialize (H (fun y => negb (String.eqb (pair_of y) p0)) r). unfold xs in L. cbn in L. lia. }
      assert (UN : av_loop readable (S fuel) m (map path xs) acc =
                   do r0 <- av_step readable m (map path xs); av_loop readable fuel m (fst r0) (acc ++ snd r0)%list) by reflexivity.
      rewrite UN, ST. cbn [bind fst snd].
      set (new := if existsb (is_result m) (filter (fun y => String.eqb (pair_of y) p0) xs) then [] else at_least_two (group_of readable m xs p0)).
      destruct (IH ys (acc ++ new)%list (input_ok_filter _ _ IO) LY) as (gs & E & G & ND).
      exists (new ++ gs)%list. rewrite E, app_assoc. split; [reflexivity|].
      assert (GR : forall p, p <> p0 -> group_of readable m ys p = group_of readable m xs p).
      { intros p D. unfold group_of. do 2 f_equal. unfold ys. rewrite filter_filter. apply filter_ext. intros y.
        destruct (String.eqb_spec (pair_of y) p) as [Ep|Ep]; cbn [andb]; [|now rewrite andb_false_r].
        destruct (String.eqb_spec (pair_of y) p0); [congruence|reflexivity]. }
      assert (NEW : forall g, In g new <-> g = group_of readable m xs p0 /\ 2 <= length g /\
                              (forall x, In x xs -> pair_of x = p0 -> is_result m x = false)).
      { intros g. unfold new. destruct (existsb _ _) eqn:EX.
        - split; [intros []|]. intros (_ & _ & H). apply existsb_exists in EX as (y & I & R). apply filter_In in I as [I Y].
          apply String.eqb_eq in Y. rewrite H in R; [discriminate|exact I|exact Y].
        - rewrite at_least_two_iff. split.
          + intros [H1 H2]. split; [exact H1|]. split; [exact H2|]. intros x I X.
            destruct (is_result m x) eqn:R; [|reflexivity]. exfalso.
            assert (existsb (is_result m) (filter (fun y => String.eqb (pair_of y) p0) xs) = true); [|congruence].
            apply existsb_exists. exists x. split; [|exact R]. apply filter_In. split; [exact I|now apply String.eqb_eq].
          + tauto. }
      split.
      + intros g. rewrite in_app_iff, NEW, G. unfold to_average. split.
        * intros [(E1 & H2 & H3)|(p & E1 & H2 & H3)]; [exists p0; auto|]. exists p.
          assert (D : p <> p0).
          { intros ->. destruct g as [|f g]; [cbn in H2; lia|].
            assert (I : In f (group_of readable m ys p0)) by (rewrite <- E1; now left).
            apply group_in in I as (x & I & _ & X & _). unfold ys in I. apply filter_In in I as [_ I].
            rewrite X, String.eqb_refl in I. discriminate. }
          rewrite <- GR by exact D. split; [exact E1|]. split; [exact H2|]. intros x I X. apply H3; [|exact X].
          unfold ys. apply filter_In. split; [exact I|]. destruct (String.eqb_spec (pair_of x) p0); [congruence|reflexivity].
        * intros (p & E1 & H2 & H3). destruct (string_dec p p0) as [->|D]; [left; auto|right]. exists p.
          rewrite GR by exact D. split; [exact E1|]. split; [exact H2|]. intros x I X. apply H3; [|exact X].
          unfold ys in I. now apply filter_In in I.
      + rewrite concat_app.
        assert (CN : forall f, In f (concat new) -> In f (group_of readable m xs p0)).
        { intros f I. apply in_concat in I as (g & I & J). apply NEW in I as (-> & _). exact J. }
        assert (NN : NoDup (concat new)).
        { unfold new. destruct (existsb _ _); [constructor|]. unfold at_least_two.
          assert (NG : NoDup (group_of readable m xs p0)).
          { unfold group_of. apply NoDup_filter, NoDup_map_filter. exact (io_nodup _ IO). }
          destruct (group_of readable m xs p0) as [|a [|b l]]; [constructor..|]. cbn. rewrite app_nil_r. exact NG. }
        assert (DJ : forall f, In f (concat new) -> ~ In f (concat gs)).
        { intros f I J. apply CN in I. apply group_in in I as (x & I & X & PX & _).
          apply in_concat in J as (g & J1 & J2). apply G in J1 as (p & -> & _). apply group_in in J2 as (y & J & Y & PY & _).
          unfold ys in J. apply filter_In in J as [J NJ].
          assert (x = y); [|subst y; rewrite PX, String.eqb_refl in NJ; discriminate].
          assert (EP : path x = path y) by congruence. pose proof (io_nodup _ IO) as N. clear -EP I J N.
          revert N I J. generalize xs. intros l. induction l as [|w l IHl]; intros N I J; [destruct I|]. cbn in N. apply NoDup_cons_iff in N as [N1 N2].
          destruct I as [->|I], J as [->|J]; [reflexivity| | |auto].
          - exfalso. apply N1. rewrite EP. now apply in_map.
          - exfalso. apply N1. rewrite <- EP. now apply in_map. }
        clear -NN ND DJ. induction (concat new) as [|f l IHl]; [exact ND|]. cbn. apply NoDup_cons_iff in NN as [N1 N2]. constructor.
        * rewrite in_app_iff. intros [I|I]; [contradiction|]. apply (DJ f); [now left|exact I].
        * apply IHl; [exact N2|]. intros g I. apply DJ. now right.
  Qed.
End Loop.

(** codes of one length are prefix free *)
Lemma prefix_free_same_length n xs : (forall x, In x xs -> String.length (pair_of x) = n) -> prefix_free xs.
Proof.
  intros H x y I J P. apply is_prefix_iff in P as (r & P). unfold path in P.
  symmetry in P. apply append_inj_len in P as [P _]; [exact P|]. now rewrite !H.
Qed.

(** ** names of the methods *)
Lemma parse_named s m : names_method s m -> parse_method s = Ok m.
Proof.
  intros (n & I & E). unfold parse_method. rewrite E. cbn in I. decompose [or] I; try contradiction;
    match goal with H : (_, _) = (n, m) |- _ => injection H as <- <-; reflexivity end.
Qed.
Lemma parse_unnamed s : (forall m, ~ names_method s m) -> parse_method s = Raise ValueError.
Proof.
  intros N. unfold parse_method.
  destruct (String.eqb_spec (lower s) "autocomponents") as [E|_].
  { exfalso. apply (N AutoComponents). exists "AutoComponents". split; [cbn; auto 9|exact E]. }
  destruct (String.eqb_spec (lower s) "crosscomponents") as [E|_].
  { exfalso. apply (N CrossComponents). exists "CrossComponents". split; [cbn; auto 9|exact E]. }
  destruct (String.eqb_spec (lower s) "betweencomponents") as [E|_].
  { exfalso. apply (N CrossComponents). exists "betweenComponents". split; [cbn; auto 9|exact E]. }
  destruct (String.eqb_spec (lower s) "stationwide") as [E|_].
  { exfalso. apply (N StationWide). exists "StationWide". split; [cbn; auto 9|exact E]. }
  destruct (String.eqb_spec (lower s) "crossstations") as [E|_].
  { exfalso. apply (N CrossStations). exists "CrossStations". split; [cbn; auto 9|exact E]. }
  destruct (String.eqb_spec (lower s) "betweenstations") as [E|_].
  { exfalso. apply (N CrossStations). exists "betweenStations". split; [cbn; auto 9|exact E]. }
  reflexivity.
Qed.
