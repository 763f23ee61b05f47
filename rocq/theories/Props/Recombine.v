(** The options recombine_subdivision and delete_subdivision: the stacks that a run stores, and runs that follow. *)
From Coq Require Import QArith Reals Lra Lia.
From Verif Require Import Lib.Base Lib.Str Lib.Time Model.H5 Model.CorrTrace Model.CorrDB Model.Rerun Model.WriteOut Spec.HeaderSpec Spec.DBSpec Spec.XCombiSpec
  Model.Gaps Model.MpiMatrix Model.Spectral Model.DataLoop Spec.DataLoopSpec Spec.WindowCorrelationSpec
  Model.RunToFiles Spec.RunToFilesSpec Proofs.RunToFilesFacts Proofs.WholeRunFacts Model.Recombine Spec.RecombineSpec Proofs.RecombineFacts Proofs.RecombineRunFacts.
From Verif Require Props.RunToFiles Proofs.OutputFacts.
Local Open Scope string_scope.
Local Open Scope nat_scope.

(** ** C147: for each station pair and each batch a run stores the average of the correlations under the name of the stack, and nothing else *)
Theorem C147_one_run_partial : forall (sadd : list cplx -> list cplx -> list cplx) szero cadd czero,
  (forall x, sadd szero x = x) -> (forall x, sadd x szero = x) -> (forall x, cadd czero x = x) -> (forall x, cadd x czero = x) ->
  forall (o : times) origin dt sr len center method rc K n proc archive stations subdiv f32 k,
  sensible o K n -> read_inc o = (Z.of_nat n * corr_inc o)%Z -> all_succeed o proc (map ch_trace archive) K ->
  (0 < sr)%Q -> (sr * len == inject_Z k)%Q -> (1 <= k)%Z -> Z.even (padded_len (Z.to_nat (corr_len o + 1)) sr len) = true ->
  fine_archive archive -> stations_of archive stations -> one_each method -> fine_requests archive rc ->
  (100000 <= corr_inc o * dt)%Z ->
  (forall t s, In (t, s) (schedule o K n) -> time_ok (origin + s * dt) /\ time_ok (origin + (s + corr_len o) * dt)) ->
  (forall a, In a archive -> has_char "." (ch_loc a) = false) ->
  forall tag, name_ok tag -> tag <> "subdivision" ->
  forall delete p sep flag, 0 < p -> exists bs d,
    run_batches o origin dt sr len false center method (texts rc) proc archive f32 sadd szero cadd czero subdiv [] p flag = Some (Ok bs) /\
    run_options true delete tag o origin dt sr len false center method (texts rc) proc archive f32 sadd szero cadd czero subdiv stations [] p sep flag = Some (Ok d) /\
    (** the batches hold the correlations of the run, each once *)
    (forall t s a b x y, correlated o method rc K n proc archive t s a b x y -> exists tr, In tr (concat bs) /\ right_correlation o origin dt sr k f32 t s a b x y tr) /\
    (forall tr, In tr (concat bs) -> of_run o origin dt sr k method rc K n proc archive f32 tr) /\ NoDup (map start_key (concat bs)) /\
    (** their stacks *)
    holds_stacks delete tag sep bs d.
Proof.
  intros sadd szero cadd czero S1 S2 C1 C2 o origin dt sr len center method rc K n proc archive stations subdiv f32 k SENS GRID OKS SR KK K1 EV FINE STS M RQ DT TOK LOC tag NOK NT delete p sep flag P.
  destruct (fresh_run o origin dt sr len center method rc K n proc archive f32 k sadd szero cadd czero S1 S2 C1 C2 SENS GRID OKS SR KK K1 EV FINE M RQ subdiv DT TOK stations STS) as (L & EX & RB & BO & ST & OR & CO & ND).
  destruct (RB p flag P) as (bs & RE & CE). destruct (options_fresh true delete tag p sep bs P) as (d & W & H); [now rewrite CE|]. exists bs, d. rewrite CE. split; [exact RE|]. split.
  { unfold run_options, with_existing. rewrite EX, RE. cbn [option_map bind]. now rewrite W. }
  split; [exact CO|]. split; [exact OR|]. split; [exact ND|]. rewrite <- CE in *.
  eapply run_holds; eassumption.
Qed.
Print Assumptions C147_one_run_partial.

(** without both options a run is the one of C141 and C143 *)
Theorem C147_options_off : forall tag o origin dt sr len normalize center method rc proc archive f32 sadd szero cadd czero subdiv stations d p sep flag,
  run_options false false tag o origin dt sr len normalize center method rc proc archive f32 sadd szero cadd czero subdiv stations d p sep flag =
  run_files o origin dt sr len normalize center method rc proc archive f32 sadd szero cadd czero subdiv stations d p sep flag.
Proof.
  intros tag o origin dt sr len normalize center method rc proc archive f32 sadd szero cadd czero subdiv stations d p sep flag. unfold run_options, run_files, with_existing. destruct (find_existing_times _ _ _ _ _ _) as [ex|]; [|reflexivity].
  destruct (run_batches _ _ _ _ _ _ _ _ _ _ _ _ _ _ _ _ _ _ _ _) as [[l|]|]; [|reflexivity..]. cbn [option_map bind]. f_equal. revert d. induction l as [|b l IH]; intros d; [reflexivity|].
  cbn [write_options_all write_batches]. unfold write_options, write_batch. destruct (mapM _ _) as [ws|]; [|reflexivity]. cbn [bind].
  assert (W : forall ws d, write_all_selected false false tag d ws = Ok (fold_left write_file ws d)) by (clear; induction ws as [|w ws IH]; intros d; [reflexivity|cbn [write_all_selected]; apply IH]).
  rewrite W. cbn [bind]. apply IH.
Qed.
Print Assumptions C147_options_off.
(** with delete_subdivision only, a run into an empty directory leaves files without any correlation *)
Theorem C147_all_deleted : forall tag o origin dt sr len normalize center method rc proc archive f32 sadd szero cadd czero subdiv stations p sep flag d,
  run_options false true tag o origin dt sr len normalize center method rc proc archive f32 sadd szero cadd czero subdiv stations [] p sep flag = Some (Ok d) ->
  forall name f, dget d name = Some f -> f = H5.empty_file.
Proof.
  intros tag o origin dt sr len normalize center method rc proc archive f32 sadd szero cadd czero subdiv stations p sep flag d. unfold run_options, with_existing. destruct (find_existing_times _ _ _ _ _ _) as [ex|]; [|discriminate].
  destruct (run_batches _ _ _ _ _ _ _ _ _ _ _ _ _ _ _ _ _ _ _ _) as [[l|]|]; [|discriminate..]. cbn [option_map bind]. intros E. injection E as E.
  assert (G : forall d0, (forall name f, dget d0 name = Some f -> f = H5.empty_file) -> write_options_all false true tag p sep d0 l = Ok d -> forall name f, dget d name = Some f -> f = H5.empty_file).
  { clear E. induction l as [|b l IH]; intros d0 H0 E; [injection E as <-; exact H0|]. cbn [write_options_all] in E. unfold write_options in E. destruct (mapM _ _) as [ws|]; [|discriminate]. cbn [bind] in E.
    destruct (write_all_selected false true tag d0 (concat ws)) as [d1|] eqn:W; [|discriminate]. cbn [bind] in E. apply (IH d1); [|exact E]. clear -H0 W. revert d0 H0 W. induction (concat ws) as [|w v IH]; intros d0 H0 W; [injection W as <-; exact H0|].
    cbn [write_all_selected] in W. unfold write_selected, to_store in W. cbn [bind fst snd] in W. apply (fun X => IH _ X W). intros name f. rewrite OutputFacts.dget_dset. destruct (String.eqb_spec name (fst w)) as [->|]; [|apply H0].
    intros Q. injection Q as <-. unfold add_correlation. cbn [fold_left]. match goal with |- match ?x with _ => _ end = _ => destruct x as [g|] eqn:D end; [exact (H0 _ _ D)|reflexivity]. }
  apply (G []); [discriminate|exact E].
Qed.
Print Assumptions C147_all_deleted.

(** what is missing, 1: a batch is what was computed since the files were written last; the same two correlations of a pair give one
    stack or two, depending on when that was *)
Definition hour (h : Z) : ctrace := mkCT "YA-YA" "UV05-UV06" "00-00" "HHZ-HHZ" (1420070400000000000 + h * 3600000000000) (1420070400000000000 + (h + 1) * 3600000000000) (-1) 1 [(inject_Z h + 1)%Q; 2%Q; (-1)%Q].
Theorem C147_batches_refuted : exists f g, let st h := (1420070400000000000 + h * 3600000000000)%Z in
  write_options_all true false "stack_7200" 1 false [] [[hour 0; hour 1]] = Ok [("YA-YA.UV05-UV06.h5", f)] /\
  write_options_all true false "stack_7200" 1 false [] [[hour 0]; [hour 1]] = Ok [("YA-YA.UV05-UV06.h5", g)] /\
  (exists o, get_data f "YA-YA" "UV05-UV06" "HHZ-HHZ" "stack_7200" (Some (st 0%Z)) (Some (st 2%Z)) = Ok [o]) /\
  get_data g "YA-YA" "UV05-UV06" "HHZ-HHZ" "stack_7200" (Some (st 0%Z)) (Some (st 2%Z)) = Raise KeyError /\
  get_data f "YA-YA" "UV05-UV06" "HHZ-HHZ" "stack_7200" (Some (st 1%Z)) (Some (st 2%Z)) = Raise KeyError /\
  exists o, get_data g "YA-YA" "UV05-UV06" "HHZ-HHZ" "stack_7200" (Some (st 1%Z)) (Some (st 2%Z)) = Ok [o].
Proof.
  exists (match write_options_all true false "stack_7200" 1 false [] [[hour 0; hour 1]] with Ok ((_, f) :: _) => f | _ => H5.empty_file end), (match write_options_all true false "stack_7200" 1 false [] [[hour 0]; [hour 1]] with Ok ((_, f) :: _) => f | _ => H5.empty_file end).
  cbv zeta. split; [vm_compute; reflexivity|]. split; [vm_compute; reflexivity|].
  split; [eexists; vm_compute; reflexivity|]. split; [vm_compute; reflexivity|]. split; [vm_compute; reflexivity|]. eexists. vm_compute. reflexivity.
Qed.
Print Assumptions C147_batches_refuted.

(** what is missing, 2: a process that is stopped after the correlations and before the stack leaves a file in which all correlations are
    found, so that no later run computes them again and the stack is never stored *)
Theorem C147_stopped_refuted : forall (sadd : list cplx -> list cplx -> list cplx) szero cadd czero,
  (forall x, sadd szero x = x) -> (forall x, sadd x szero = x) -> (forall x, cadd czero x = x) -> (forall x, cadd x czero = x) ->
  forall (o : times) origin dt sr len center method K n proc archive stations f32 k,
  sensible o K n -> read_inc o = (Z.of_nat n * corr_inc o)%Z -> all_succeed o proc (map ch_trace archive) K ->
  (0 < sr)%Q -> (sr * len == inject_Z k)%Q -> (1 <= k)%Z -> Z.even (padded_len (Z.to_nat (corr_len o + 1)) sr len) = true ->
  fine_archive archive -> stations_of archive stations -> one_each method ->
  (100000 <= corr_inc o * dt)%Z ->
  (forall t s, In (t, s) (schedule o K n) -> time_ok (origin + s * dt) /\ time_ok (origin + (s + corr_len o) * dt)) ->
  forall tag, name_ok tag -> tag <> "subdivision" ->
  forall sep flag cst, run_batches o origin dt sr len false center method None proc archive f32 sadd szero cadd czero false [] 1 flag = Some (Ok [cst]) ->
  cst <> [] -> (forall a b, In a cst -> In b cst -> own_file sep a = own_file sep b) ->
  exists d, stopped_writing true false tag sep [] cst 0 (length cst) = Ok d /\
    (forall p flag, 0 < p -> run_options true false tag o origin dt sr len false center method None proc archive f32 sadd szero cadd czero false stations d p sep flag = Some (Ok d)) /\
    forall tr, In tr cst -> exists f, dget d (own_file sep tr) = Some f /\
      forall st et, time_ok st -> time_ok et -> get_data f (c_net tr) (c_sta tr) (c_cha tr) tag (Some st) (Some et) = Raise KeyError.
Proof.
  intros sadd szero cadd czero S1 S2 C1 C2 o origin dt sr len center method K n proc archive stations f32 k SENS GRID OKS SR KK K1 EV FINE STS M DT TOK tag NOK NT sep flag cst RB NE ONE.
  destruct (runs_from_plain o origin dt sr len center method None K n proc archive f32 k sadd szero cadd czero S1 S2 C1 C2 SENS GRID OKS SR KK K1 EV FINE M (none_fine archive) false DT TOK stations STS [] true (or_intror eq_refl) (or_introl none_plain)) as (I0 & L0 & I & L & ex & EX & _ & H0 & N & D & F & R).
  { split; [constructor|]. exists []. repeat split; constructor. }
  assert (L0 = []). { destruct L0 as [|tr L0]; [reflexivity|]. specialize (H0 (own_file true tr)). unfold of_file in H0. cbn [filter] in H0. rewrite String.eqb_refl in H0. discriminate. } subst L0.
  pose proof (nothing_exists method None stations ex EX) as EN. subst ex. destruct (R 1 flag ltac:(lia)) as (bs & RE & CE). change (texts None) with (@None (list string)) in *. rewrite RB in RE. injection RE as <-. cbn [concat] in CE. rewrite app_nil_r in CE. subst L. cbn [app] in F.
  destruct (corrs_fine o origin dt sr method None K n proc archive f32 k FINE TOK (I0 ++ I)%list cst (fun i => proj1 (D i)) F) as (BO & ST & CA).
  destruct (stopped_one_file tag sep cst BO NE ONE) as (d & W & DN & H). exists d. split; [exact W|]. split.
  - intros p fl P. exact (nothing_new o origin dt sr len center method None K n proc archive f32 k sadd szero cadd czero S1 S2 C1 C2 SENS GRID OKS SR KK K1 EV FINE M (none_fine archive) false DT TOK stations STS sep d (I0 ++ I)%list cst true false tag none_plain eq_refl N D F DN H p fl P).
  - intros tr T. assert (J : In tr (of_file sep (own_file sep tr) cst)) by (apply filter_In; split; [exact T|apply String.eqb_refl]).
    exists (exec_all (adds (of_file sep (own_file sep tr) cst))). split; [rewrite H; destruct (of_file sep (own_file sep tr) cst); [contradiction|reflexivity]|].
    rewrite Forall_forall in ST. destruct (ST tr T) as ((_ & X) & _). intros st et TS TE.
    rewrite HistoryFacts.history_query; [|apply valid_adds, Forall_forall; intros x Y; apply filter_In in Y; now apply ST|exact (conj NOK X)|now apply CA|exact TS|exact TE].
    assert (SN : forall l key, k_tag key = tag -> spec_all (adds l) key = None).
    { intros l key KT. change (adds l) with (map (fun t => Add t "subdivision") l). induction l as [|x l IH] using rev_ind; [reflexivity|]. rewrite map_app. cbn [map]. rewrite HistoryFacts.spec_snoc. cbn [spec]. unfold db_add. rewrite IH.
      destruct (CorrDBFacts.key_eqb_spec key (key_of "subdivision" x)) as [->|]; [|reflexivity]. exfalso. apply NT. rewrite <- KT. reflexivity. }
    now rewrite SN.
Qed.
Print Assumptions C147_stopped_refuted.
(** the other hypotheses for this run: see C143_example *)
Example C147_stopped_example : forall (sadd : list cplx -> list cplx -> list cplx) szero cadd czero center f32,
  (forall x, sadd szero x = x) -> (forall x, sadd x szero = x) -> (forall x, cadd czero x = x) -> (forall x, cadd x czero = x) ->
  name_ok "stack_10" /\ exists cst,
  run_batches RunToFiles.one_window 1420070400000000000 1000000000 1 2 false center "betweenStations" None RunToFiles.keep_all RunToFiles.pair_archive f32 sadd szero cadd czero false [] 1 (fun _ => true) = Some (Ok [cst]) /\
  cst <> [] /\ forall a b, In a cst -> In b cst -> own_file false a = own_file false b.
Proof.
  intros sadd szero cadd czero center f32 S1 S2 C1 C2. split; [repeat split; discriminate|]. destruct (RunToFiles.pair_batches sadd szero cadd czero center f32 S1 S2 C1 C2) as (q & row & B). eexists. split; [exact B|]. split; [discriminate|].
  intros a b [<-|[]] [<-|[]]. reflexivity.
Qed.

(** ** C148: a run that was stopped can be continued *)
(** with recombine_subdivision only, and stopped between two batches, any number of times: the next run stores the remaining correlations
    and their stacks, and what was stored is kept *)
Theorem C148_continue_partial : forall (sadd : list cplx -> list cplx -> list cplx) szero cadd czero,
  (forall x, sadd szero x = x) -> (forall x, sadd x szero = x) -> (forall x, cadd czero x = x) -> (forall x, cadd x czero = x) ->
  forall (o : times) origin dt sr len center method rc K n proc archive stations f32 k,
  sensible o K n -> read_inc o = (Z.of_nat n * corr_inc o)%Z -> all_succeed o proc (map ch_trace archive) K ->
  (0 < sr)%Q -> (sr * len == inject_Z k)%Q -> (1 <= k)%Z -> Z.even (padded_len (Z.to_nat (corr_len o + 1)) sr len) = true ->
  fine_archive archive -> stations_of archive stations -> one_each method -> fine_requests archive rc -> plain_requests rc ->
  (100000 <= corr_inc o * dt)%Z ->
  (forall t s, In (t, s) (schedule o K n) -> time_ok (origin + s * dt) /\ time_ok (origin + (s + corr_len o) * dt)) ->
  (forall a, In a archive -> has_char "." (ch_loc a) = false) ->
  forall tag, name_ok tag -> tag <> "subdivision" -> forall sep bs d,
  resumed (fun d new e => exists p flag j, 0 < p /\
    stopped_between true false tag o origin dt sr len false center method (texts rc) proc archive f32 sadd szero cadd czero false stations d p sep flag j = Some (Ok (new, e))) bs d ->
  forall p flag, 0 < p -> exists new e,
    run_options true false tag o origin dt sr len false center method (texts rc) proc archive f32 sadd szero cadd czero false stations d p sep flag = Some (Ok e) /\
    (forall t s a b x y, correlated o method rc K n proc archive t s a b x y -> exists tr, In tr (concat (bs ++ new)) /\ right_correlation o origin dt sr k f32 t s a b x y tr) /\
    (forall tr, In tr (concat (bs ++ new)) -> of_run o origin dt sr k method rc K n proc archive f32 tr) /\ NoDup (map start_key (concat (bs ++ new))) /\
    holds_stacks false tag sep (bs ++ new) e.
Proof.
  intros sadd szero cadd czero S1 S2 C1 C2 o origin dt sr len center method rc K n proc archive stations f32 k SENS GRID OKS SR KK K1 EV FINE STS M RQ PR DT TOK LOC tag NOK NT sep bs d RS.
  assert (GO : forall bs d, going o origin dt sr method rc K n proc archive f32 k tag sep bs d -> exists ex, find_existing_times d stations method (texts rc) "subdivision" "*" = Ok ex /\ forall p flag, 0 < p -> exists new,
    run_batches o origin dt sr len false center method (texts rc) proc archive f32 sadd szero cadd czero false ex p flag = Some (Ok new) /\
    (forall t s a b x y, correlated o method rc K n proc archive t s a b x y -> exists tr, In tr (concat (bs ++ new)) /\ right_correlation o origin dt sr k f32 t s a b x y tr) /\
    forall j, exists d', write_options_all true false tag p sep d (firstn j new) = Ok d' /\ going o origin dt sr method rc K n proc archive f32 k tag sep (bs ++ firstn j new) d').
  { intros bs0 d0 G. exact (going_on o origin dt sr len center method rc K n proc archive f32 k sadd szero cadd czero S1 S2 C1 C2 SENS GRID OKS SR KK K1 EV FINE M RQ false DT TOK stations STS LOC tag NT NOK sep bs0 d0 PR eq_refl G). }
  assert (G : going o origin dt sr method rc K n proc archive f32 k tag sep bs d).
  { induction RS as [|bs d b e RS IH (p & flag & j & P & E)].
    - split; [intros tr []|]. split; [constructor|]. split; [constructor|]. intros name. reflexivity.
    - destruct (GO bs d IH) as (ex & EX & NX). destruct (NX p flag P) as (new & RE & _ & W). destruct (W j) as (d' & WE & G). unfold stopped_between, with_existing in E. rewrite EX, RE in E. cbn [option_map bind] in E. rewrite WE in E. cbn [bind] in E. injection E as <- <-. exact G. }
  intros p flag P. destruct (GO bs d G) as (ex & EX & NX). destruct (NX p flag P) as (new & RE & CO & W). destruct (W (length new)) as (d' & WE & G'). rewrite firstn_all in WE, G'.
  exists new, d'. split; [unfold run_options, with_existing; rewrite EX, RE; cbn [option_map bind]; now rewrite WE|]. split; [exact CO|].
  destruct (going_facts o origin dt sr method rc K n proc archive f32 k FINE TOK tag sep _ _ G') as (_ & _ & _ & _ & BO & ST). destruct G' as (OR & ND & DN & H). split; [exact OR|]. split; [exact ND|].
  eapply run_holds; eassumption.
Qed.
Print Assumptions C148_continue_partial.

(** with delete_subdivision no later run starts, stopped or not: the existing correlations are looked for in a group that the files do
    not have *)
Theorem C148_delete_refuted : forall (sadd : list cplx -> list cplx -> list cplx) szero cadd czero,
  (forall x, sadd szero x = x) -> (forall x, sadd x szero = x) -> (forall x, cadd czero x = x) -> (forall x, cadd x czero = x) ->
  forall (o : times) origin dt sr len center method K n proc archive stations subdiv f32 k,
  sensible o K n -> read_inc o = (Z.of_nat n * corr_inc o)%Z -> all_succeed o proc (map ch_trace archive) K ->
  (0 < sr)%Q -> (sr * len == inject_Z k)%Q -> (1 <= k)%Z -> Z.even (padded_len (Z.to_nat (corr_len o + 1)) sr len) = true ->
  fine_archive archive -> stations_of archive stations -> one_each method ->
  (100000 <= corr_inc o * dt)%Z ->
  (forall t s, In (t, s) (schedule o K n) -> time_ok (origin + s * dt) /\ time_ok (origin + (s + corr_len o) * dt)) ->
  (forall a, In a archive -> has_char "." (ch_loc a) = false) ->
  forall tag, name_ok tag -> tag <> "subdivision" ->
  forall p sep flag j new d, 0 < p ->
  stopped_between true true tag o origin dt sr len false center method None proc archive f32 sadd szero cadd czero subdiv stations [] p sep flag j = Some (Ok (new, d)) ->
  concat new <> [] ->
  forall r de tag' subdiv' p' sep' flag',
    run_options r de tag' o origin dt sr len false center method None proc archive f32 sadd szero cadd czero subdiv' stations d p' sep' flag' = Some (Raise KeyError).
Proof.
  intros sadd szero cadd czero S1 S2 C1 C2 o origin dt sr len center method K n proc archive stations subdiv f32 k SENS GRID OKS SR KK K1 EV FINE STS M DT TOK LOC tag NOK NT p sep flag j new d P E NE r de tag' subdiv' p' sep' flag'.
  destruct (fresh_run o origin dt sr len center method None K n proc archive f32 k sadd szero cadd czero S1 S2 C1 C2 SENS GRID OKS SR KK K1 EV FINE M (none_fine archive) subdiv DT TOK stations STS) as (L & EX & RB & (B1 & B2) & ST & OR & _ & ND). change (texts None) with (@None (list string)) in *.
  destruct (RB p flag P) as (bs & RE & CE). unfold stopped_between, with_existing in E. rewrite EX, RE in E. cbn [option_map bind] in E.
  assert (IN : forall tr, In tr (concat (firstn j bs)) -> In tr L). { intros tr T. rewrite <- CE, <- (firstn_skipn j bs), concat_app. apply in_or_app. now left. }
  assert (BJ : batch_ok (concat (firstn j bs))) by (split; [intros a A; now apply B1, IN|intros a b A B; now apply B2; apply IN]).
  destruct (options_fresh true true tag p sep (firstn j bs) P BJ) as (d' & W & H). rewrite W in E. cbn [bind] in E. injection E as <- <-.
  assert (DL : forall tr, In tr (concat (firstn j bs)) -> dotless tr).
  { intros tr T. apply (run_dotless o origin dt sr method None K n proc archive f32 k LOC); [|now apply OR, IN]. destruct BJ as [X Y]. split; [intros a [<-|[]]; now apply X|intros a b [<-|[]] [<-|[]]; now apply Y]. }
  destruct (concat (firstn j bs)) as [|tr rest] eqn:TE; [congruence|]. rewrite <- TE in *. assert (T : In tr (concat (firstn j bs))) by (rewrite TE; now left). clear NE TE rest.
  unfold run_options, with_existing. rewrite (search_fails o origin dt sr method K n proc archive f32 k FINE M stations STS d' sep tr); [reflexivity|now apply OR, IN| | |].
  - destruct BJ as [X Y]. split; [intros a [<-|[]]; now apply X|intros a b [<-|[]] [<-|[]]; now apply Y].
  - rewrite (file_there true tag sep (firstn j bs) d' tr H T). discriminate.
  - intros [name f] I. cbn [snd]. apply (dget_in _ _ _ (options_names _ _ _ _ _ _ _ _ W (NoDup_nil _))) in I. rewrite H in I. destruct (of_file sep name (concat (firstn j bs))); [discriminate|]. injection I as <-.
    apply lacks_adding; [apply (content_valid true tag sep (firstn j bs) NOK DL); intros t X; now apply ST, IN|].
    intros x X. apply (content_in true tag sep (firstn j bs)) in X. destruct X as [(Q & _)|(-> & _)]; [discriminate|exact NT].
Qed.
Print Assumptions C148_delete_refuted.
(** the run with two stations and one window: there is a stack, and with delete_subdivision no later run starts *)
Example C147_example : forall (sadd : list cplx -> list cplx -> list cplx) szero cadd czero center f32,
  (forall x, sadd szero x = x) -> (forall x, sadd x szero = x) -> (forall x, cadd czero x = x) -> (forall x, cadd x czero = x) ->
  (forall x, (0 < x)%R -> ~ (f32 x == 0)%Q) ->
  let run delete := run_options true delete "stack_10" RunToFiles.one_window 1420070400000000000 1000000000 1 2 false center "betweenStations" None RunToFiles.keep_all RunToFiles.pair_archive f32 sadd szero cadd czero false RunToFiles.two_stations in
  forall delete, exists d f s, run delete [] 1 false (fun _ => true) = Some (Ok d) /\ dget d "YA-YA.UV05-UV06.h5" = Some f /\
    get_data f "YA-YA" "UV05-UV06" "HHZ-HHZ" "stack_10" (Some 1420070400000000000%Z) (Some 1420070409000000000%Z) = Ok [s] /\ length (c_data s) = 5 /\
    (delete = true -> run delete d 1 false (fun _ => true) = Some (Raise KeyError)).
Proof.
  intros sadd szero cadd czero center f32 S1 S2 C1 C2 F32 run delete.
  destruct RunToFiles.C143_example as (_ & STS & FINE & SENS & EV).
  assert (OKS : all_succeed RunToFiles.one_window RunToFiles.keep_all (map ch_trace RunToFiles.pair_archive) 1) by (intros i c w _ _; now exists (Some w)).
  assert (TOK : forall t s, In (t, s) (schedule RunToFiles.one_window 1 1) -> time_ok (1420070400000000000 + s * 1000000000) /\ time_ok (1420070400000000000 + (s + corr_len RunToFiles.one_window) * 1000000000)).
  { intros t s H. cbn in H. destruct H as [H|[]]. injection H as <- <-. split; vm_compute; split; congruence. }
  assert (LOC : forall a, In a RunToFiles.pair_archive -> has_char "." (ch_loc a) = false) by (intros a [<-|[<-|[]]]; reflexivity).
  assert (NOK : name_ok "stack_10") by (repeat split; discriminate).
  destruct (C147_one_run_partial sadd szero cadd czero S1 S2 C1 C2 RunToFiles.one_window 1420070400000000000 1000000000 1 2 center "betweenStations" None 1 1 RunToFiles.keep_all RunToFiles.pair_archive RunToFiles.two_stations false f32 2
    SENS eq_refl OKS eq_refl eq_refl ltac:(lia) EV FINE STS (or_introl eq_refl) (none_fine _) ltac:(vm_compute; discriminate) TOK LOC "stack_10" NOK ltac:(discriminate) delete 1 false (fun _ => true) ltac:(lia)) as (bs & d & RB & RO & CO & _ & _ & (H1 & _)). change (texts None) with (@None (list string)) in *.
  destruct (RunToFiles.pair_batches sadd szero cadd czero center f32 S1 S2 C1 C2) as (q & row & B). rewrite B in RB. injection RB as <-.
  set (tr := mkCT "YA-YA" "UV05-UV06" "00-00" "HHZ-HHZ" 1420070400000000000 1420070409000000000 q 1 (map f32 row)) in *.
  set (x := RunToFiles.samples 0 [0;1;2;3;4;5;6;7;8;9]%Z). set (y := RunToFiles.samples 0 [7;3;5;5;4;5;6;7;8;9]%Z).
  destruct (CO 0%Z 0%Z (nth 0 RunToFiles.pair_archive (mkCh "" "" "" "" (mkT 0 []))) (nth 1 RunToFiles.pair_archive (mkCh "" "" "" "" (mkT 0 []))) x y) as (tr' & [<-|[]] & RC).
  { split; [cbn; tauto|]. split; [|split].
    - exists 0. split; [reflexivity|]. split; [|exists 5%Z; split; [cbn; lia|]; split; [cbn; lia|cbn; discriminate]]. exists x. split; [|reflexivity]. exists (ch_trace (nth 0 RunToFiles.pair_archive (mkCh "" "" "" "" (mkT 0 [])))). repeat split.
    - exists 1. split; [reflexivity|]. split; [|exists 5%Z; split; [cbn; lia|]; split; [cbn; lia|cbn; discriminate]]. exists y. split; [|reflexivity]. exists (ch_trace (nth 1 RunToFiles.pair_archive (mkCh "" "" "" "" (mkT 0 [])))). repeat split.
    - split; [|intros _ l Q; discriminate Q]. left. split; [reflexivity|]. split; [|intros [_ H]; discriminate H]. right. split; [reflexivity|]. left. reflexivity. }
  destruct RC as (_ & _ & _ & _ & _ & _ & _ & _ & DA).
  assert (LS : (0 < lagged_sum RunToFiles.one_window 0 0 x y (Z.of_nat 2 - 2))%R) by (cbv -[Rplus Rmult IZR Rlt]; lra).
  assert (NZ : not_zero [tr]).
  { exists 2. unfold weighted, qsum. cbn [map fold_right]. rewrite DA. change (2 * Z.to_nat 2 + 1) with 5. cbn [map seq nth]. intros Q. apply (F32 _ LS). set (v := f32 _) in *. clearbody v. clear -Q. unfold tr in Q. cbn [c_start c_end] in Q. rewrite Qplus_0_r in Q.
    apply Qmult_integral in Q. destruct Q as [Q|Q]; [discriminate Q|exact Q]. }
  destruct (H1 [tr] tr (or_introl eq_refl) (or_introl eq_refl)) as (f & h & e & s & DF & (HI & _) & (EI & _) & G & RS).
  { exact NZ. }
  assert (PE : of_pair tr [tr] = [tr]) by reflexivity. rewrite PE in *. destruct HI as [<-|[]]. destruct EI as [<-|[]]. exists d, f, s. split; [exact RO|]. split; [exact DF|]. split; [exact G|]. split.
  - destruct RS as (_ & _ & _ & LE & _). rewrite (LE tr (or_introl eq_refl)), DA, map_length, seq_length. reflexivity.
  - intros ->. apply (C148_delete_refuted sadd szero cadd czero S1 S2 C1 C2 RunToFiles.one_window 1420070400000000000 1000000000 1 2 center "betweenStations" 1 1 RunToFiles.keep_all RunToFiles.pair_archive RunToFiles.two_stations false f32 2
      SENS eq_refl OKS eq_refl eq_refl ltac:(lia) EV FINE STS (or_introl eq_refl) ltac:(vm_compute; discriminate) TOK LOC "stack_10" NOK ltac:(discriminate) 1 false (fun _ => true) 1 [[tr]] d ltac:(lia)); [|discriminate].
    unfold run, run_options, with_existing in RO. unfold stopped_between, with_existing. destruct (find_existing_times [] _ _ _ _ _) as [ex|] eqn:EX; [|discriminate RO]. pose proof (nothing_exists _ None _ _ EX) as EN. subst ex. rewrite B in *. cbn [option_map bind] in *.
    cbn [firstn]. assert (WD : write_options_all true true "stack_10" 1 false [] [[tr]] = Ok d) by (set (w := write_options_all _ _ _ _ _ _ _) in *; clearbody w; congruence). rewrite WD. reflexivity.
Qed.

(** the same archive with delete_subdivision only *)
Example C147_all_deleted_example : forall (sadd : list cplx -> list cplx -> list cplx) szero cadd czero center f32,
  (forall x, sadd szero x = x) -> (forall x, sadd x szero = x) -> (forall x, cadd czero x = x) -> (forall x, cadd x czero = x) ->
  run_options false true "stack_10" RunToFiles.one_window 1420070400000000000 1000000000 1 2 false center "betweenStations" None RunToFiles.keep_all RunToFiles.pair_archive f32 sadd szero cadd czero false RunToFiles.two_stations [] 1 false (fun _ => true) =
  Some (Ok [("YA-YA.UV05-UV06.h5", H5.empty_file)]).
Proof.
  intros sadd szero cadd czero center f32 S1 S2 C1 C2. destruct (RunToFiles.pair_batches sadd szero cadd czero center f32 S1 S2 C1 C2) as (q & row & B).
  unfold run_options, with_existing. change (find_existing_times [] RunToFiles.two_stations "betweenStations" None "subdivision" "*") with (@Ok Combos.ex_dict []). cbn iota. rewrite B. cbn [option_map bind]. generalize (map f32 row). intros data. reflexivity.
Qed.
