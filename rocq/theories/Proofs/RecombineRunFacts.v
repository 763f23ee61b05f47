(** Runs with recombine_subdivision and delete_subdivision. *)
From Coq Require Import QArith Reals Lia Permutation.
From Verif Require Import Lib.Base Lib.Str Lib.StrFacts Lib.Time Model.H5 Model.CorrTrace Model.CorrDB Model.Rerun Model.WriteOut Spec.HeaderSpec Spec.DBSpec Spec.XCombiSpec
  Model.Gaps Model.MpiMatrix Model.Spectral Model.DataLoop Spec.DataLoopSpec Spec.WindowCorrelationSpec
  Model.RunToFiles Spec.RunToFilesSpec Proofs.H5Facts Proofs.CorrDBFacts Proofs.HistoryFacts Proofs.RunToFilesFacts Proofs.WholeRunFacts Model.Recombine Spec.RecombineSpec Proofs.RecombineFacts.
From Verif Require Proofs.OutputFacts Proofs.RerunFacts Proofs.ComboFacts Proofs.OutputFacts Proofs.RunToFilesFacts.
Local Open Scope string_scope.
Local Open Scope nat_scope.

(** ** files without the group 'subdivision' *)
Definition lacks (g : string) (f : file) : Prop := exists ch, f = Group ch /\ dget ch g = None.
Lemma lacks_create g f p dt f' : lacks g f -> (match p with h :: _ => h <> g | [] => True end) -> create f p dt = Some f' -> lacks g f'.
Proof.
  intros (ch & -> & N) P C. destruct p as [|h [|h2 r]]; cbn in C; [discriminate| |].
  - destruct (dget ch h); [discriminate|]. injection C as <-. eexists. split; [reflexivity|]. rewrite dget_kput_other by congruence. exact N.
  - match type of C with match ?x with _ => _ end = _ => destruct x as [c'|]; [|discriminate] end. injection C as <-. eexists. split; [reflexivity|]. rewrite dget_kput_other by congruence. exact N.
Qed.
Lemma lacks_adding g l : Forall valid_op (adding l) -> (forall x, In x l -> snd x <> g) -> lacks g (exec_all (adding l)).
Proof.
  induction l as [|[t h] l IH] using rev_ind; intros V N.
  - now exists [].
  - rewrite adding_app in *. apply Forall_app in V. destruct V as [V V0]. change (adding [(t, h)]) with [Add t h] in *. inversion V0 as [|? ? VO _]; subst. rewrite exec_snoc.
    assert (L : lacks g (exec_all (adding l))) by (apply IH; [exact V|]; intros x X; apply N, in_or_app; now left).
    cbn [exec]. unfold add_correlation. cbn [fold_left]. unfold add_one. destruct VO as (NO & T1 & T2).
    rewrite trace_path_key by assumption. rewrite comps_slashed.
    2:{ eapply Forall_impl; [intros a; apply name_ok_ok|]. apply kpath_names. now apply key_of_valid. }
    destruct (create _ _ _) as [f'|] eqn:C; [|exact L]. eapply lacks_create; [exact L| |exact C]. cbn. intros E. apply (N (t, h)); [apply in_or_app; right; now left|exact E].
Qed.
Lemma lacks_starttimes g f nc sc cha : ok_name g -> lacks g f -> has_char "*" cha = true -> get_available_starttimes f nc sc g cha = Raise KeyError.
Proof.
  intros G (ch & -> & N) S. unfold get_available_starttimes. rewrite S. cbn [negb]. unfold at_path.
  assert (C : comps ("/" ++ g ++ "/" ++ nc ++ "/" ++ sc) = g :: comps (nc ++ "/" ++ sc)).
  { unfold comps. change ("/" ++ g ++ "/" ++ nc ++ "/" ++ sc) with ("" ++ String "/" (g ++ String "/" (nc ++ "/" ++ sc))). destruct G as [G1 G2].
    rewrite split_on_app by reflexivity. rewrite split_on_app by assumption. cbn [filter]. apply String.eqb_neq in G1. rewrite G1. reflexivity. }
  rewrite C. cbn [lookup]. rewrite N. reflexivity.
Qed.
Lemma existing_raises d g cha : (forall nf, In nf d -> lacks g (snd nf)) -> ok_name g -> has_char "*" cha = true ->
  forall combs ex nc sc, In (nc, sc) combs -> glob_pair d nc sc <> [] -> existing_loop d combs g cha ex = Raise KeyError.
Proof.
  intros LK G S. induction combs as [|[n0 s0] combs IH]; intros ex nc sc I GL; [contradiction|]. cbn [existing_loop].
  destruct (glob_pair d n0 s0) as [|nf fs] eqn:E.
  - destruct I as [I|I]; [injection I as -> ->; contradiction|]. exact (IH ex nc sc I GL).
  - assert (L : lacks g (snd nf)). { apply LK. assert (J : In nf (glob_pair d n0 s0)) by (rewrite E; now left). apply filter_In in J. apply J. }
    cbn [collect]. rewrite lacks_starttimes by assumption. reflexivity.
Qed.

(** the names of the files stay different *)
Lemma options_names r de tag p sep : forall bs d d', write_options_all r de tag p sep d bs = Ok d' -> NoDup (map fst d) -> NoDup (map fst d').
Proof.
  assert (W : forall ws d d', write_all_selected r de tag d ws = Ok d' -> NoDup (map fst d) -> NoDup (map fst d')).
  { induction ws as [|w ws IH]; intros d d' E N; cbn [write_all_selected] in E; [now injection E as <-|]. destruct (write_selected r de tag d w) as [d1|] eqn:E1; [|discriminate]. cbn [bind] in E. apply (IH d1 d' E).
    unfold write_selected in E1. destruct (to_store r de (snd w)) as [q|]; [|discriminate]. cbn [bind] in E1. injection E1 as <-. now apply dset_names. }
  induction bs as [|b bs IH]; intros d d' E N; cbn [write_options_all] in E; [now injection E as <-|]. destruct (write_options r de tag p sep d b) as [d1|] eqn:E1; [|discriminate]. cbn [bind] in E. apply (IH d1 d' E).
  unfold write_options in E1. destruct (mapM _ _) as [l|]; [|discriminate]. cbn [bind] in E1. eapply W; eassumption.
Qed.

Lemma write_nothing r de tag p sep d bs : 0 < p -> concat bs = [] -> write_options_all r de tag p sep d bs = Ok d.
Proof.
  intros P. induction bs as [|b bs IH]; intros E; [reflexivity|]. cbn [concat] in E. apply app_eq_nil in E. destruct E as [-> E]. cbn [write_options_all]. unfold write_options.
  rewrite (mapM_seq _ (fun r => [])) by (intros q Q; rewrite OutputFacts.writes_eq; [|exact P|exact Q|split; intros a; contradiction]; reflexivity). cbn [bind]. replace (concat (map (fun _ => []) (seq 0 p))) with (@nil (string * list ctrace)) by (induction (seq 0 p); [reflexivity|assumption]).
  cbn [write_all_selected bind]. now apply IH.
Qed.

(** all correlations of a batch in one file: stopped before the stacks are written *)
Lemma filter_all {A} (f : A -> bool) l : (forall x, In x l -> f x = true) -> filter f l = l.
Proof. induction l as [|x l IH]; intros H; [reflexivity|]. cbn [filter]. rewrite (H x (or_introl eq_refl)), IH; [reflexivity|intros y Y; apply H; now right]. Qed.
Lemma stopped_one_file tag sep cst : batch_ok cst -> cst <> [] -> (forall a b, In a cst -> In b cst -> own_file sep a = own_file sep b) ->
  exists d, stopped_writing true false tag sep [] cst 0 (length cst) = Ok d /\ NoDup (map fst d) /\ holds sep d cst.
Proof.
  intros BO NE ONE. unfold stopped_writing. rewrite OutputFacts.writes_eq by (assumption || lia). cbn [bind].
  destruct cst as [|a0 r0] eqn:CE; [congruence|]. rewrite <- CE in *. assert (A0 : In a0 cst) by (rewrite CE; now left). clear NE.
  assert (SC : WriteOut.sorted_set (map (WriteOut.code_of sep) cst) = [WriteOut.code_of sep a0]).
  { assert (IN : forall c, In c (WriteOut.sorted_set (map (WriteOut.code_of sep) cst)) <-> c = WriteOut.code_of sep a0).
    { intros c. rewrite OutputFacts.sorted_set_in, in_map_iff. split; [|intros ->; now exists a0]. intros (b & <- & B). apply OutputFacts.file_of_code_inj. rewrite <- !OutputFacts.own_file_eq. now apply ONE. }
    pose proof (OutputFacts.sorted_set_nodup (map (WriteOut.code_of sep) cst)) as ND. destruct (WriteOut.sorted_set _) as [|c l]; [exfalso; now apply (proj2 (IN (WriteOut.code_of sep a0)))|].
    rewrite (proj1 (IN c) (or_introl eq_refl)) in *. destruct l as [|c' l]; [reflexivity|]. inversion ND as [|? ? NI _]; subst. exfalso. apply NI. left. apply IN. right. now left. }
  rewrite SC. change (Partition.my_items 1 0 [WriteOut.code_of sep a0]) with [WriteOut.code_of sep a0]. cbn [map].
  rewrite filter_all by (intros x X; apply String.eqb_eq, OutputFacts.file_of_code_inj; rewrite <- !OutputFacts.own_file_eq; now apply ONE). rewrite <- OutputFacts.own_file_eq.
  cbn [firstn write_all_selected bind nth_error fst snd]. unfold to_store. destruct (stacked_ok cst) as (st & _ & E & _). rewrite E. cbn [bind fst snd dget]. rewrite firstn_all, Nat.sub_diag. cbn [firstn]. unfold add_correlation at 1. cbn [fold_left].
  eexists. split; [reflexivity|]. split; [repeat constructor; intros []|]. intros name. rewrite OutputFacts.dget_dset. cbn [dget]. change H5.empty_file with (exec_all []). rewrite add_exec. cbn [app].
  destruct (String.eqb_spec name (own_file sep a0)) as [->|NE].
  - unfold of_file. rewrite filter_all by (intros x X; apply String.eqb_eq; now apply ONE). rewrite CE. reflexivity.
  - unfold of_file. destruct (filter _ cst) as [|x l] eqn:FE; [reflexivity|]. exfalso. assert (X : In x (filter (fun tr => String.eqb (own_file sep tr) name) cst)) by (rewrite FE; now left). apply filter_In in X. destruct X as [X Q]. apply String.eqb_eq in Q. apply NE. rewrite <- Q. now apply ONE.
Qed.

Section Runs.
  Variables (o : times) (origin dt : Z) (sr len : Q) (center : bool) (method : string) (rc : option (list XCombiSpec.entry)) (K n : nat).
  Variables (proc : Gaps.trace R -> result (option (Gaps.trace R))) (archive : list channel) (f32 : R -> Q) (k : Z).
  Variables (sadd : list cplx -> list cplx -> list cplx) (szero : list cplx) (cadd : result (list R) -> result (list R) -> result (list R)) (czero : result (list R)).
  Hypotheses (S1 : forall x, sadd szero x = x) (S2 : forall x, sadd x szero = x) (C1 : forall x, cadd czero x = x) (C2 : forall x, cadd x czero = x).
  Hypotheses (SENS : sensible o K n) (GRID : read_inc o = (Z.of_nat n * corr_inc o)%Z) (OKS : all_succeed o proc (map ch_trace archive) K).
  Hypotheses (SR : (0 < sr)%Q) (KK : (sr * len == inject_Z k)%Q) (K1 : (1 <= k)%Z) (EV : Z.even (padded_len (Z.to_nat (corr_len o + 1)) sr len) = true).
  Hypotheses (FINE : fine_archive archive) (M : one_each method) (RQ : fine_requests archive rc).
  Variable subdiv : bool.
  Hypotheses (DT : (100000 <= corr_inc o * dt)%Z).
  Hypothesis (TOK : forall t s, In (t, s) (schedule o K n) -> time_ok (origin + s * dt) /\ time_ok (origin + (s + corr_len o) * dt)).
  Variable stations : list (string * string).
  Hypothesis (STS : stations_of archive stations).
  Notation run := (run_batches o origin dt sr len false center method (texts rc) proc archive f32 sadd szero cadd czero subdiv).
  Notation of_run' := (of_run o origin dt sr k method rc K n proc archive f32).
  Notation correlated' := (correlated o method rc K n proc archive).

  Lemma nothing_exists ex : find_existing_times [] stations method (texts rc) "subdivision" "*" = Ok ex -> ex = [].
  Proof.
    intros E. unfold find_existing_times in E. destruct (station_combinations stations method (texts rc)) as [c|]; [|discriminate]. cbn [bind] in E.
    assert (X : existing_loop [] c "subdivision" "*" [] = Ok []) by (clear; induction c as [|[a b] c IH]; [reflexivity|exact IH]). rewrite X in E. now injection E as <-.
  Qed.
  Lemma fresh_run : exists L, find_existing_times [] stations method (texts rc) "subdivision" "*" = Ok [] /\ (forall p flag, 0 < p -> exists bs, run [] p flag = Some (Ok bs) /\ concat bs = L) /\ batch_ok L /\ (forall tr, In tr L -> storable_codes "subdivision" tr) /\
    (forall tr, In tr L -> of_run' tr) /\ (forall t s a b x y, correlated' t s a b x y -> exists tr, In tr L /\ right_correlation o origin dt sr k f32 t s a b x y tr) /\ NoDup (map start_key L).
  Proof.
    destruct (runs_from_plain o origin dt sr len center method rc K n proc archive f32 k sadd szero cadd czero S1 S2 C1 C2 SENS GRID OKS SR KK K1 EV FINE M RQ subdiv DT TOK stations STS [] true (or_intror eq_refl) (or_intror eq_refl)) as (I0 & L0 & I & L & ex & EX & _ & H & N & D & F & R).
    { split; [constructor|]. exists []. repeat split; constructor. }
    assert (L0 = []). { destruct L0 as [|tr L0]; [reflexivity|]. specialize (H (own_file true tr)). unfold of_file in H. cbn [filter] in H. rewrite String.eqb_refl in H. discriminate. } subst L0.
    pose proof (nothing_exists ex EX) as EN. subst ex. cbn [app] in F. set (J := (I0 ++ I)%list) in *.
    assert (DJ : forall i, In i J -> dress o method rc K n proc archive i) by (intros i HI; now apply D).
    destruct (corrs_fine o origin dt sr method rc K n proc archive f32 k FINE TOK J L DJ F) as (BO & ST & CA).
    exists L. split; [exact EX|]. split; [exact R|]. split; [exact BO|]. split; [|split; [|split]].
    - intros tr T. rewrite Forall_forall in ST. destruct (ST tr T) as (X & Y & Z0). exact (conj X (conj Y (conj Z0 (CA tr T)))).
    - intros tr T. destruct (Forall2_right _ _ _ _ F T) as (i & HI & MK). exact (item_run o origin dt sr method rc K n proc archive f32 k i tr (DJ i HI) MK).
    - intros t s a b x y (SI & (c & NA & PA & QA) & (e & NB & PB & QB) & WN).
      assert (AC : channel_of archive c = a) by (unfold channel_of; now apply nth_error_nth). assert (BE : channel_of archive e = b) by (unfold channel_of; now apply nth_error_nth). subst a b.
      assert (DI : dress o method rc K n proc archive ((t, s), (c, e))) by (split; [exact SI|]; split; [now exists x|]; split; [now exists y|exact WN]).
      apply D in DI. destruct (Forall2_left _ _ _ _ F DI) as (tr & T & (_ & _ & MK)). exists tr. split; [exact T|]. now apply MK.
    - apply (Forall2_keys _ start_key J L F N). intros i j a b HI HJ A B E. unfold start_key in E. injection E as E1 E2 E3 E4.
      exact (item_unique o origin dt sr len center method rc K n proc archive f32 k sadd szero cadd czero S1 S2 C1 C2 SENS GRID FINE subdiv DT TOK i j a b (DJ _ HI) (DJ _ HJ) A B E1 E2 E3 E4).
  Qed.
  Lemma dt_pos : (0 < dt)%Z. Proof. destruct SENS as (_ & _ & _ & C & _). nia. Qed.
  Lemma run_alike l : (forall tr, In tr l -> of_run' tr) -> alike l.
  Proof.
    intros H. pose proof dt_pos as P. assert (CL : (0 < corr_len o)%Z) by apply SENS.
    assert (X : forall tr, In tr l -> length (c_data tr) = 2 * Z.to_nat k + 1 /\ c_end tr = (c_start tr + corr_len o * dt)%Z).
    { intros tr T. destruct (H tr T) as (t & s & a & b & x & y & _ & E1 & E2 & (_ & _ & _ & _ & _ & _ & _ & _ & E)). rewrite E, map_length, seq_length, E1, E2. split; [reflexivity|]. lia. }
    split; [intros a b A B; destruct (X a A) as [-> ->]; destruct (X b B) as [-> ->]; split; [reflexivity|lia]|]. intros a A. destruct (X a A) as [_ ->]. nia.
  Qed.
  Hypothesis LOC : forall a, In a archive -> has_char "." (ch_loc a) = false.
  Lemma run_dotless tr : batch_ok [tr] -> of_run' tr -> dotless tr.
  Proof.
    intros (CF & _) (t & s & a & b & x & y & (_ & (c & NA & _) & (e & NB & _) & _) & _ & _ & (_ & _ & NL & _)). destruct (CF tr (or_introl eq_refl)) as ((X & _) & (Y & _) & (Z0 & _)).
    apply nth_error_In in NA. apply nth_error_In in NB. split; [exact X|]. split; [exact Y|]. split; [exact Z0|]. rewrite NL, !has_char_app, (LOC a NA), (LOC b NB). reflexivity.
  Qed.

  Lemma first_last l : (forall tr, In tr l -> of_run' tr) -> forall x, spans l x -> exists h e, first_of l h /\ last_of l e /\ c_start x = c_start h /\ c_end x = c_end e.
  Proof.
    intros H x (h & e & F & IE & ME & S & E & _). exists h, e. split; [exact F|]. split; [|now split]. split; [exact IE|]. intros t T. specialize (ME t T). split; [exact ME|]. destruct (run_alike l H) as [A _]. exact (proj2 (A t e T IE) ME).
  Qed.
  Section One.
    Variables (delete : bool) (tag : string).
    Hypotheses (NT : tag <> "subdivision") (NOK : name_ok tag).
    Lemma run_holds sep bs d : batch_ok (concat bs) -> (forall tr, In tr (concat bs) -> storable_codes "subdivision" tr) -> (forall tr, In tr (concat bs) -> of_run' tr) -> NoDup (map start_key (concat bs)) ->
      stores true delete tag sep d bs -> holds_stacks delete tag sep bs d.
    Proof.
      intros BO ST OR ND H.
      assert (DL : forall tr, In tr (concat bs) -> dotless tr). { intros tr T. apply run_dotless; [|now apply OR]. destruct BO as [B1 B2]. split; [intros a [<-|[]]; now apply B1|intros a b [<-|[]] [<-|[]]; now apply B2]. }
      assert (IB : forall b tr, In b bs -> In tr b -> In tr (concat bs)) by (intros b tr B T; apply in_concat; now exists b).
      assert (IP : forall b tr, In b bs -> forall x, In x (of_pair tr b) -> of_run' x) by (intros b tr B x X; apply filter_In in X; apply OR, (IB b); [exact B|apply X]).
      assert (RS : forall l x, right_stack l x -> right_stack l (stored x)). { intros l x X. unfold right_stack, same_codes, stored, file_time in *. cbn [c_net c_sta c_cha c_start c_end c_lag c_sr c_data]. rewrite !tick_mul. exact X. }
      split; [|split].
      - intros b tr B T NZ. destruct (stacks_spec (of_file sep (own_file sep tr) b)) as (_ & Q2 & _).
        { intros t X. apply DL. apply filter_In in X. exact (IB b t B (proj1 X)). }
        assert (TF : In tr (of_file sep (own_file sep tr) b)) by (apply filter_In; split; [exact T|apply String.eqb_refl]).
        destruct (Q2 tr TF) as (x & X & SC). destruct (stack_in sep bs DL (own_file sep tr) b x B X) as (u & U & UN & SU & SP & R).
        assert (PU : of_pair u b = of_pair tr b). { apply filter_ext. intros y. apply Bool.eq_iff_eq_true. rewrite !same_codes_iff. destruct SC as (A1 & A2 & A3). destruct SU as (B1 & B2 & B3). unfold same_codes. rewrite A1, A2, A3, B1, B2, B3. reflexivity. }
        rewrite PU in *. destruct (first_last (of_pair tr b) (IP b tr B) x SP) as (h & e & F & LA & E1 & E2).
        exists (exec_all (adding (content delete tag sep bs (own_file sep tr)))), h, e, (stored x). split; [apply (file_there delete tag sep bs d tr H); now apply (IB b)|]. split; [exact F|]. split; [exact LA|]. split.
        + assert (XC : In (x, tag) (content delete tag sep bs (own_file sep tr))) by (apply content_in; right; split; [reflexivity|]; now exists b).
          destruct (ST tr (IB b tr B T)) as (_ & _ & _ & CA). destruct SC as (A1 & A2 & A3). rewrite A1, A2, A3 in *.
          assert (IH : In h (concat bs)) by (destruct F as [F _]; apply filter_In in F; exact (IB b h B (proj1 F))). assert (IE : In e (concat bs)) by (destruct LA as [LA _]; apply filter_In in LA; exact (IB b e B (proj1 LA))).
          destruct (ST h IH) as (_ & TH & _). destruct (ST e IE) as (_ & _ & TE & _).
          apply (query_entry delete tag sep bs NT NOK DL ST ND _ (x, tag) XC); cbn [fst snd]; try assumption; now rewrite ?E1, ?E2.
        + apply RS, R; [apply run_alike; exact (IP b tr B)|exact NZ].
      - intros tr T. exists (exec_all (adding (content delete tag sep bs (own_file sep tr)))). split; [now apply (file_there delete tag sep bs d tr H)|]. destruct (ST tr T) as (NO & TS & TE & CA). destruct delete eqn:DE.
        + rewrite history_query; [|apply (content_valid true tag sep bs NOK DL ST)|assumption..]. rewrite spec_adding. destruct (find _ _) as [x|] eqn:F; [|reflexivity]. exfalso. apply find_some in F. destruct F as [I Q].
          match type of Q with key_eqb ?a ?b = true => destruct (key_eqb_spec a b) as [E|]; [|discriminate] end. unfold ekey, key_of in E. injection E as E _. apply content_in in I. destruct I as [(Q1 & _)|(Q1 & _)]; [discriminate|congruence].
        + apply (query_entry false tag sep bs NT NOK DL ST ND _ (tr, "subdivision")); cbn [fst snd]; try assumption; try reflexivity. apply content_in. left. repeat split; assumption.
      - intros name f E net sta cha g st et r N CA TS TE G. rewrite H in E. destruct (of_file sep name (concat bs)); [discriminate|]. injection E as <-.
        destruct (query_other delete tag sep bs NOK DL ST name net sta cha g st et r N CA TS TE G) as (x & X & -> & XG & <- & <- & <- & E1 & E2). apply content_in in X. destruct X as [(D & XS & XI & XN)|(XT & b & B & XI)].
        + apply in_concat in XI. destruct XI as (b & B & XI). exists b, (fst x). do 3 (split; [assumption|]). do 3 (split; [reflexivity|]). left. split; [exact D|]. split; [congruence|]. split; [reflexivity|]. split; congruence.
        + destruct (stack_in sep bs DL name b (fst x) B XI) as (u & U & UN & (B1 & B2 & B3) & SP & R). destruct (first_last (of_pair u b) (IP b u B) (fst x) SP) as (h & e & F & LA & T1 & T2).
          exists b, u. do 3 (split; [assumption|]). do 3 (split; [congruence|]). right. split; [congruence|]. exists h, e, (stored (fst x)). do 2 (split; [assumption|]). do 2 (split; [congruence|]). split; [reflexivity|].
          intros NZ. apply RS, R; [apply run_alike; exact (IP b u B)|exact NZ].
    Qed.
  End One.

  (** *** a run on files without 'subdivision' *)
  Lemma in_combs tr combs : of_run o origin dt sr k method None K n proc archive f32 tr -> station_combinations stations method None = Ok combs -> In (c_net tr, c_sta tr) combs.
  Proof.
    intros (t & s & a & b & x & y & (_ & (c & NA & _) & (e & NB & _) & WN) & _ & _ & (N1 & N2 & _)) E. apply nth_error_In in NA. apply nth_error_In in NB. destruct FINE as (_ & FU & _). destruct (FU a b NA NB) as (LN & LS & _).
    set (u := Combos.mkTr (ch_net a) (ch_sta a) "" (ch_cha a) 0 0). set (v := Combos.mkTr (ch_net b) (ch_sta b) "" (ch_cha b) 0 0).
    assert (I : In (pair_codes (RerunFacts.codes_of u) (RerunFacts.codes_of v)) combs).
    { apply (RerunFacts.combs_cover stations method u v combs E); [apply STS; exists a; split; [exact NA|reflexivity]|apply STS; exists b; split; [exact NB|reflexivity]|exact LN|exact LS|].
      unfold DirSpec.method_pair. cbn [u v Combos.t_net Combos.t_sta]. unfold chosen, wanted, one_station in WN. destruct WN as [[W|[W|[W|W]]] _].
      - left. tauto.
      - right. left. tauto.
      - right. right. left. destruct W as [-> W]. rewrite W. tauto.
      - right. right. right. left. tauto. }
    rewrite RerunFacts.pair_codes_ordered in I by assumption. unfold RerunFacts.ordered in I. cbn [u v Combos.t_net Combos.t_sta Combos.t_cha] in I.
    rewrite (not_flipped archive FINE a b NA NB) in I by (unfold chosen, wanted in WN; tauto). rewrite N1, N2. exact I.
  Qed.
  Lemma in_glob (d : dir) sep tr f : batch_ok [tr] -> In (own_file sep tr, f) d -> glob_pair d (c_net tr) (c_sta tr) <> [].
  Proof.
    intros (CF & _) I E. destruct (CF tr (or_introl eq_refl)) as ((_ & P1) & (_ & P2) & _). assert (J : In (own_file sep tr, f) (glob_pair d (c_net tr) (c_sta tr))).
    { apply filter_In. split; [exact I|]. cbn [fst]. unfold own_file. now apply RerunFacts.name_glob. }
    rewrite E in J. contradiction.
  Qed.
  Lemma combs_there : exists combs, station_combinations stations method None = Ok combs.
  Proof. destruct M as [<-|[<-|[<-|[<-|[]]]]]; eexists; reflexivity. Qed.
  Lemma search_fails d sep tr : of_run o origin dt sr k method None K n proc archive f32 tr -> batch_ok [tr] -> dget d (own_file sep tr) <> None -> (forall nf, In nf d -> lacks "subdivision" (snd nf)) -> find_existing_times d stations method None "subdivision" "*" = Raise KeyError.
  Proof.
    intros OR BO F LK. destruct (dget d (own_file sep tr)) as [f|] eqn:E; [|congruence]. apply dget_some in E. destruct combs_there as (combs & EC). unfold find_existing_times. rewrite EC. cbn [bind].
    apply (existing_raises d "subdivision" "*" LK) with (nc := c_net tr) (sc := c_sta tr); [split; [discriminate|reflexivity]|reflexivity|now apply in_combs|eapply in_glob; eassumption].
  Qed.


  (** *** a run that finds all correlations *)
  Lemma nothing_new sep d I L r de tag : plain_requests rc -> subdiv = false -> NoDup I -> (forall i, In i I <-> dress o method rc K n proc archive i) -> Forall2 (fun i tr => made o origin dt sr proc archive f32 k (fst (fst i)) (snd (fst i)) (snd i) tr) I L -> NoDup (map fst d) -> holds sep d L ->
    forall p flag, 0 < p -> run_options r de tag o origin dt sr len false center method (texts rc) proc archive f32 sadd szero cadd czero subdiv stations d p sep flag = Some (Ok d).
  Proof.
    intros PR SD N D F DN H p flag P.
    destruct (search o origin dt sr len center method rc K n proc archive f32 k sadd szero cadd czero S1 S2 C1 C2 SENS GRID OKS FINE M RQ subdiv DT TOK stations STS I L sep d PR N (fun i => proj1 (D i)) F DN H) as (ex & EX & FD).
    assert (SU : subdiv_used subdiv ex = false) by (rewrite SD; now destruct ex).
    destruct (run_corrs o origin dt sr len center method rc K n proc archive f32 k sadd szero cadd czero S1 S2 C1 C2 SENS GRID OKS SR KK K1 EV FINE M RQ subdiv ex (fun i => In i I) SU FD) as (I1 & L1 & RB & N1 & X1 & F1).
    assert (I1 = []). { destruct I1 as [|[[t s] [c e]] I1]; [reflexivity|]. exfalso. destruct (proj1 (X1 t s c e) (or_introl eq_refl)) as (A & B & C & E & G). apply G, D. split; [exact A|]. split; [exact B|]. split; [exact C|exact E]. }
    subst I1. inversion F1; subst L1. destruct (RB p flag P) as (bs & RE & CE). unfold run_options, with_existing. rewrite EX, RE. cbn [option_map bind]. now rewrite write_nothing.
  Qed.
  (** *** runs on files with stacks *)
  Notation mk := (fun i tr => made o origin dt sr proc archive f32 k (fst (fst i)) (snd (fst i)) (snd i) tr).
  Section Continue.
    Variable tag : string.
    Hypotheses (NT : tag <> "subdivision") (NOK : name_ok tag).
    Lemma content_names sep bs name x : (forall tr, In tr (concat bs) -> dotless tr) -> In x (content false tag sep bs name) -> exists tr, In tr (of_file sep name (concat bs)) /\ same_codes tr (fst x).
    Proof.
      intros DL X. apply content_in in X. destruct X as [(_ & _ & I & E)|(_ & b & B & I)].
      - exists (fst x). split; [|now repeat split]. apply filter_In. split; [exact I|]. now apply String.eqb_eq.
      - destruct (stack_in sep bs DL name b (fst x) B I) as (u & U & UN & SC & _). exists u. split; [|exact SC]. apply filter_In. split; [apply in_concat; now exists b|now apply String.eqb_eq].
    Qed.
    Lemma search_stacks sep bs d I0 : plain_requests rc -> batch_ok (concat bs) -> (forall tr, In tr (concat bs) -> storable_codes "subdivision" tr) -> (forall tr, In tr (concat bs) -> of_run' tr) ->
      NoDup (map fst d) -> stores true false tag sep d bs -> (forall i, In i I0 -> dress o method rc K n proc archive i) -> Forall2 mk I0 (concat bs) ->
      exists ex, find_existing_times d stations method (texts rc) "subdivision" "*" = Ok ex /\ finds o origin dt method rc proc archive ex (fun i => In i I0) (schedule o K n).
    Proof.
      intros PR BO ST OR ND H D F.
      assert (DL : forall tr, In tr (concat bs) -> dotless tr). { intros tr T. apply run_dotless; [|now apply OR]. destruct BO as [B1 B2]. split; [intros a [<-|[]]; now apply B1|intros a b [<-|[]] [<-|[]]; now apply B2]. }
      set (h := map (fun nf : string * file => (fst nf, adding (content false tag sep bs (fst nf)))) d).
      assert (NE : forall nf, In nf d -> exists tr, In tr (of_file sep (fst nf) (concat bs)) /\ snd nf = exec_all (adding (content false tag sep bs (fst nf)))).
      { intros [name f] I. apply (dget_in _ _ _ ND) in I. rewrite H in I. cbn [fst snd]. destruct (of_file sep name (concat bs)) as [|tr r]; [discriminate|]. exists tr. split; [now left|]. now injection I as <-. }
      assert (DH : DirSpec.dir_of h = d). { unfold DirSpec.dir_of, h. rewrite map_map. cbn [fst snd]. rewrite <- (map_id d) at 2. apply map_ext_in. intros [name f] I. destruct (NE _ I) as (_ & _ & E). cbn [fst snd] in *. now rewrite E. }
      assert (SP : forall l key, spec_all (adding l) key <> None <-> exists x, In x l /\ key = ekey x).
      { intros l key. rewrite spec_adding. split.
        - destruct (find _ l) as [x|] eqn:E; [|congruence]. intros _. apply find_some in E. destruct E as [I E]. exists x. split; [exact I|]. now destruct (key_eqb_spec key (ekey x)).
        - intros (x & I & ->). destruct (find _ l) as [y|] eqn:E; [discriminate|]. pose proof (find_none _ _ E x I) as Q. cbn beta in Q. destruct (key_eqb_spec (ekey x) (ekey x)); [discriminate|congruence]. }
      assert (IF : forall name tr, In tr (of_file sep name (concat bs)) -> In tr (concat bs) /\ own_file sep tr = name) by (intros name tr I; apply filter_In in I; destruct I as [I E]; split; [exact I|now apply String.eqb_eq]).
      assert (IC : forall tr, In tr (concat bs) -> In (tr, "subdivision") (content false tag sep bs (own_file sep tr))) by (intros tr T; apply content_in; left; repeat split; exact T).
      rewrite <- DH.
      apply (search_history o origin dt sr len center method rc K n proc archive f32 k sadd szero cadd czero S1 S2 C1 C2 SENS GRID OKS FINE M RQ subdiv DT TOK stations STS I0 (concat bs) sep h PR D F).
      - split; [unfold h; rewrite map_map; exact ND|]. apply Forall_forall. intros nf I. apply in_map_iff in I. destruct I as (nf0 & <- & I). destruct (NE nf0 I) as (tr & T & _). destruct (IF _ _ T) as (T0 & O0).
        split; [cbn [snd]; apply (content_valid false tag sep bs NOK DL ST)|]. split; [cbn [snd]; unfold adding; clear; induction (content false tag sep bs (fst nf0)); [reflexivity|assumption]|].
        exists (c_net tr), (c_sta tr), (c_cha tr). cbn [fst snd]. split; [now rewrite <- O0|].
        destruct (OR tr T0) as (t & s & a & b & x & y & (_ & (c & NA & _) & (e & NB & _) & _) & _ & _ & (N1 & N2 & _)). apply nth_error_In in NA. apply nth_error_In in NB.
        destruct FINE as (_ & FU & _). assert (Z0 : In (channel_of archive 0) archive) by (unfold channel_of; destruct archive; [contradiction|now left]). destruct (FU a _ NA Z0) as (X1 & X2 & _). destruct (FU b _ NB Z0) as (Y1 & Y2 & _).
        rewrite N1, N2. rewrite !length_append, X1, X2, Y1, Y2. split; [cbn [String.length]; lia|]. split; [cbn [String.length]; lia|].
        intros key Q. apply SP in Q. destruct Q as (z & Z1 & ->). destruct (content_names sep bs (fst nf0) z DL Z1) as (u & U & (A1 & A2 & A3)). unfold ekey, key_of. cbn [k_net k_sta k_cha]. rewrite <- N1, <- N2, <- A1, <- A2, <- A3.
        exact (part_files sep (concat bs) (fst nf0) BO tr u T U).
      - intros name ops I. apply in_map_iff in I. destruct I as (nf & E & I). injection E as <- <-. destruct (NE nf I) as (tr & T & _). destruct (IF _ _ T) as (T0 & O0). exists (key_of "subdivision" tr). split; [reflexivity|]. apply SP. exists (tr, "subdivision"). split; [rewrite <- O0; now apply IC|reflexivity].
      - intros key KT. split.
        + intros (name & ops & HI & Q). apply in_map_iff in HI. destruct HI as (nf & E & HI). injection E as <- <-. apply SP in Q. destruct Q as (z & Z1 & ->). apply content_in in Z1. unfold ekey, key_of in KT. cbn [k_tag] in KT. destruct Z1 as [(_ & E & I & _)|(E & _)]; [|congruence].
          exists (fst z). split; [exact I|]. unfold ekey. now rewrite E.
        + intros (tr & T & ->). pose proof (file_there false tag sep bs d tr H T) as E. apply dget_some in E. exists (own_file sep tr), (adding (content false tag sep bs (own_file sep tr))). split.
          * apply in_map_iff. eexists. split; [|exact E]. reflexivity.
          * apply SP. exists (tr, "subdivision"). split; [now apply IC|reflexivity].
    Qed.
    Definition going (sep : bool) (bs : list (list ctrace)) (d : dir) : Prop :=
      (forall tr, In tr (concat bs) -> of_run' tr) /\ NoDup (map start_key (concat bs)) /\ NoDup (map fst d) /\ stores true false tag sep d bs.
    Lemma going_facts sep bs d : going sep bs d -> exists I0, NoDup I0 /\ (forall i, In i I0 -> dress o method rc K n proc archive i) /\ Forall2 mk I0 (concat bs) /\ batch_ok (concat bs) /\ (forall tr, In tr (concat bs) -> storable_codes "subdivision" tr).
    Proof.
      intros (OR & ND & _). destruct (items_of o origin dt sr method rc K n proc archive f32 k (concat bs)) as (I0 & N0 & D0 & F0).
      { now apply Forall_forall. }
      { clear -ND. induction (concat bs) as [|x l IH]; [constructor|]. cbn [map] in *. inversion ND as [|? ? NI N]; subst. constructor; [|now apply IH]. intros I. apply NI. apply in_map_iff in I. destruct I as (y & E & I). apply in_map_iff. exists y. split; [|exact I].
        unfold key_of in E. injection E as E1 E2 E3 E4 _. unfold start_key. now rewrite E1, E2, E3, E4. }
      destruct (corrs_fine o origin dt sr method rc K n proc archive f32 k FINE TOK I0 (concat bs) D0 F0) as (BO & ST & CA). exists I0. split; [exact N0|]. split; [exact D0|]. split; [exact F0|]. split; [exact BO|].
      intros tr T. rewrite Forall_forall in ST. destruct (ST tr T) as (X & Y & Z0). exact (conj X (conj Y (conj Z0 (CA tr T)))).
    Qed.
    Lemma firstn_concat {A} (l : list (list A)) j : exists r, concat l = (concat (firstn j l) ++ r)%list.
    Proof. exists (concat (skipn j l)). rewrite <- concat_app, firstn_skipn. reflexivity. Qed.
    Lemma going_on sep bs d : plain_requests rc -> subdiv = false -> going sep bs d -> exists ex, find_existing_times d stations method (texts rc) "subdivision" "*" = Ok ex /\ forall p flag, 0 < p -> exists new, run ex p flag = Some (Ok new) /\
      (forall t s a b x y, correlated' t s a b x y -> exists tr, In tr (concat (bs ++ new)) /\ right_correlation o origin dt sr k f32 t s a b x y tr) /\
      forall j, exists d', write_options_all true false tag p sep d (firstn j new) = Ok d' /\ going sep (bs ++ firstn j new) d'.
    Proof.
      intros PR SD G. destruct (going_facts sep bs d G) as (I0 & N0 & D0 & F0 & BO & ST). pose proof G as (OR & ND & DN & H).
      destruct (search_stacks sep bs d I0 PR BO ST OR DN H D0 F0) as (ex & EX & FD). exists ex. split; [exact EX|].
      assert (SU : subdiv_used subdiv ex = false) by (rewrite SD; now destruct ex).
      destruct (run_corrs o origin dt sr len center method rc K n proc archive f32 k sadd szero cadd czero S1 S2 C1 C2 SENS GRID OKS SR KK K1 EV FINE M RQ subdiv ex (fun i => In i I0) SU FD) as (I1 & L1 & RB & N1 & X1 & F1).
      intros p flag P. destruct (RB p flag P) as (new & RN & CN). exists new. split; [exact RN|].
      assert (NJ : NoDup (I0 ++ I1)) by (apply ComboFacts.NoDup_app_intro; [exact N0|exact N1|]; intros [[t s] [c e]] A B; apply X1 in B; tauto).
      assert (DJ : forall i, In i (I0 ++ I1)%list <-> dress o method rc K n proc archive i).
      { intros [[t s] [c e]]. rewrite in_app_iff. split.
        - intros [A|A]; [now apply D0|]. apply X1 in A. unfold dress. tauto.
        - intros D. destruct (in_dec item_dec ((t, s), (c, e)) I0) as [A|A]; [now left|right]. apply X1. unfold dress in D. tauto. }
      assert (FJ : Forall2 mk (I0 ++ I1) (concat (bs ++ new))) by (rewrite concat_app, CN; now apply Forall2_app).
      assert (ORJ : forall tr, In tr (concat (bs ++ new)) -> of_run' tr).
      { intros tr T. destruct (Forall2_right _ _ _ _ FJ T) as (i & HI & MK). apply (item_run o origin dt sr method rc K n proc archive f32 k i tr); [now apply DJ|exact MK]. }
      assert (NDJ : NoDup (map start_key (concat (bs ++ new)))).
      { apply (Forall2_keys _ start_key (I0 ++ I1)%list _ FJ NJ). intros i j a b HI HJ A B E. unfold start_key in E. injection E as E1 E2 E3 E4.
        exact (item_unique o origin dt sr len center method rc K n proc archive f32 k sadd szero cadd czero S1 S2 C1 C2 SENS GRID FINE subdiv DT TOK i j a b (proj1 (DJ _) HI) (proj1 (DJ _) HJ) A B E1 E2 E3 E4). }
      split.
      - intros t s a b x y (SI & (c & NA & PA & QA) & (e & NB & PB & QB) & WN).
        assert (AC : channel_of archive c = a) by (unfold channel_of; now apply nth_error_nth). assert (BE : channel_of archive e = b) by (unfold channel_of; now apply nth_error_nth). subst a b.
        assert (DI : In ((t, s), (c, e)) (I0 ++ I1)%list) by (apply DJ; split; [exact SI|]; split; [now exists x|]; split; [now exists y|exact WN]).
        destruct (Forall2_left _ _ _ _ FJ DI) as (tr & T & (_ & _ & MK)). exists tr. split; [exact T|]. now apply MK.
      - intros j. destruct (firstn_concat new j) as (r & RE). rewrite concat_app, RE, app_assoc in ORJ, NDJ.
        destruct (corrs_fine o origin dt sr method rc K n proc archive f32 k FINE TOK (I0 ++ I1)%list _ (fun i => proj1 (DJ i)) FJ) as ((B1 & B2) & _). rewrite concat_app, RE, app_assoc in B1, B2.
        assert (BJ : batch_ok (concat bs ++ concat (firstn j new))) by (split; [intros a A; apply B1, in_or_app; now left|intros a b A B; apply B2; apply in_or_app; now left]).
        destruct (options_all true false tag p sep P (firstn j new) d bs BJ H) as (d' & W & H'). exists d'. split; [exact W|]. split; [|split; [|split; [eapply options_names; eassumption|exact H']]]; rewrite concat_app.
        + intros tr T. apply ORJ, in_or_app. now left.
        + rewrite map_app in NDJ. clear -NDJ. induction (map start_key (concat bs ++ concat (firstn j new))) as [|x l IH]; [constructor|]. cbn [app] in NDJ. inversion NDJ as [|? ? NI N]; subst. constructor; [intros I; apply NI, in_or_app; now left|auto].
    Qed.
  End Continue.
End Runs.
