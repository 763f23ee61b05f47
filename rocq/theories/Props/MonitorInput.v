(** From the files with the correlations to the matrices of the monitoring. *)
From Coq Require Import QArith Reals Lra Sorted Lia.
From Verif Require Import Lib.Base Lib.Str Lib.Time Model.CorrTrace Model.CorrDB Model.Rerun Model.Gaps Model.MpiMatrix Model.Spectral Model.DataLoop Spec.DataLoopSpec Model.WindowCorrelation
  Spec.WindowCorrelationSpec Proofs.WindowCorrelationFacts Model.RunToFiles Spec.RunToFilesSpec Proofs.WholeRunFacts Model.MonitorFiles Model.MonitorRun Model.MonitorInput Spec.MonitorInputSpec Props.RunToFiles.
From Verif Require Model.CorrStream.
Local Open Scope string_scope.
Local Open Scope nat_scope.

(** ** C145: the monitoring finds every combination of channels that a run has correlated, once, and no other; for each it reads a matrix
    with one row for each window in which both channels had data, in the order of time *)
Theorem C145_monitor_input : forall (sadd : list cplx -> list cplx -> list cplx) szero cadd czero,
  (forall x, sadd szero x = x) -> (forall x, sadd x szero = x) -> (forall x, cadd czero x = x) -> (forall x, cadd x czero = x) ->
  forall (o : times) origin dt sr len center method rc K n proc archive stations f32 k sep,
  sensible o K n -> read_inc o = (Z.of_nat n * corr_inc o)%Z -> all_succeed o proc (map ch_trace archive) K ->
  (0 < sr)%Q -> (sr * len == inject_Z k)%Q -> (1 <= k)%Z -> Z.even (padded_len (Z.to_nat (corr_len o + 1)) sr len) = true ->
  fine_archive archive -> stations_of archive stations -> one_each method -> fine_requests archive rc ->
  (100000 <= corr_inc o * dt)%Z ->
  (forall t s, In (t, s) (schedule o K n) -> time_ok (origin + s * dt) /\ time_ok (origin + (s + corr_len o) * dt)) ->
  (** after any number of runs that were stopped, and one that was not *)
  let stops d e := exists p flag m cut, 0 < p /\ (forall r, snd (cut r) <> Some 0) /\
    stopped_run o origin dt sr len false center method (texts rc) proc archive f32 sadd szero cadd czero false stations d p sep flag m cut = Some (Ok e) in
  forall d, interrupted stops d -> forall p flag, 0 < p -> exists e,
  run_files o origin dt sr len false center method (texts rc) proc archive f32 sadd szero cadd czero false stations d p sep flag = Some (Ok e) /\
  all_found o origin dt sr k method rc K n proc archive f32 sep e.
Proof.
  intros sadd szero cadd czero S1 S2 C1 C2 o origin dt sr len center method rc K n proc archive stations f32 k sep SENS GRID OKS SR KK K1 EV FINE STS M RQ DT TOK stops d R p flag P.
  assert (PT : part_of_run o origin dt sr k method rc K n proc archive f32 sep d).
  { clear p flag P. induction R as [|d e R IH (p & flag & m & cut & P & NZ & E)]; [split; [constructor|]; exists []; repeat split; constructor|].
    destruct (stopped_part o origin dt sr len center method rc K n proc archive f32 k sadd szero cadd czero S1 S2 C1 C2 SENS GRID OKS SR KK K1 EV FINE M RQ false DT TOK stations STS d sep p flag m cut (or_introl eq_refl) IH P NZ) as (e' & E' & X).
    rewrite E' in E. injection E as <-. exact X. }
  exact (run_found o origin dt sr len center method rc K n proc archive f32 k sadd szero cadd czero S1 S2 C1 C2 SENS GRID OKS SR KK K1 EV FINE M RQ false DT TOK stations STS d sep (or_introl eq_refl) PT p flag P).
Qed.
Print Assumptions C145_monitor_input.

(** the archive of C141_example, which meets the hypotheses: station UV06 starts after 7 s and ends after 14 s, so that the matrix of the two
    vertical components has two rows out of four windows *)
Definition ch (i : nat) : channel := nth i net_archive (mkCh "" "" "" "" (mkT 0 [])).
Definition two_rows : list pair_window :=
  [mkPW 0 5 (samples 0 [5;1;7;3;4;5;6;7;8;9]%Z) (samples 7 [107;108;109]%Z);
   mkPW 10 10 (samples 10 [10;11;12;13;14;15;16;17;18;19]%Z) (samples 10 [110;111;112;113;114]%Z)].
Example C145_example : windows_of net_times "betweenStations" None 2 2 keep_all net_archive (ch 1) (ch 2) two_rows /\
  lagged_sum net_times 10 10 (pw_first (nth 1 two_rows (mkPW 0 0 (mkT 0 []) (mkT 0 [])))) (pw_second (nth 1 two_rows (mkPW 0 0 (mkT 0 []) (mkT 0 [])))) 3 = (10 * 113 + 11 * 114)%R.
Proof.
  split; [split|cbv -[Rplus Rmult IZR]; lra]; [repeat constructor; cbn; lia|].
  assert (RD : forall t s i c x, In i [1; 2] -> has_data net_times keep_all net_archive t s c (ch i) x -> c = i /\ Gaps.slice t 10 (ch_trace (ch i)) = Some x /\ exists q, (s <= q < s + 5)%Z /\ (t <= q <= t + 9)%Z /\ at_pos x q <> None).
  { intros t s i c x I (N & (w & (a & NA & SL & _) & PW) & Q). injection PW as <-.
    assert (c = i) as -> by (destruct I as [<- | [<- | []]]; destruct c as [|[|[|c]]]; try reflexivity; try discriminate N; destruct c; discriminate N).
    assert (a = ch_trace (ch i)) as -> by (destruct I as [<- | [<- | []]]; cbn in NA; injection NA as <-; reflexivity). split; [reflexivity|]. split; [exact SL|exact Q]. }
  intros w. split.
  - assert (PR : forall t i x, In i [1; 2] -> Gaps.slice t 10 (ch_trace (ch i)) = Some x -> masked_all (t_data x) = false -> preprocessed net_times keep_all (map ch_trace net_archive) i t x).
    { intros t i x I SL ML. exists x. split; [|reflexivity]. exists (ch_trace (ch i)). split; [destruct I as [<- | [<- | []]]; reflexivity|]. split; [exact SL|exact ML]. }
    assert (WN : chosen None "betweenStations" (ch 1) (ch 2)) by (split; [|intros _ l Q; discriminate Q]; left; split; [reflexivity|]; split; [|intros [_ H]; discriminate H]; right; split; [reflexivity|]; left; reflexivity).
    intros [<- | [<- | []]]; (split; [cbn; tauto|]; split; [|split; [|exact WN]]; [exists 1|exists 2]; (split; [reflexivity|]; split; [apply PR; [cbn; tauto|reflexivity..]|])).
    + exists 5%Z. split; [cbn; lia|]. split; [cbn; lia|cbn; discriminate].
    + exists 7%Z. split; [cbn; lia|]. split; [cbn; lia|cbn; discriminate].
    + exists 10%Z. split; [cbn; lia|]. split; [cbn; lia|cbn; discriminate].
    + exists 10%Z. split; [cbn; lia|]. split; [cbn; lia|cbn; discriminate].
  - intros (SC & (c & A) & (e & B) & _). apply RD in A; [|cbn; tauto]. apply RD in B; [|cbn; tauto]. destruct w as [t s x y]. cbn [pw_read pw_start pw_first pw_second] in *.
    destruct A as (_ & A & _). destruct B as (_ & B & q & Q1 & Q2 & Q3).
    cbn in SC. destruct SC as [E|[E|[E|[E|[]]]]]; injection E as <- <-; cbn in A, B; injection A as <-; injection B as <-.
    + exfalso. apply Q3. unfold at_pos. cbn [t_start trim_pad]. replace (q <? 7)%Z with true by (symmetry; apply Z.ltb_lt; lia). reflexivity.
    + now left.
    + right. now left.
    + exfalso. apply Q3. unfold at_pos. cbn [t_start trim_pad]. replace (q <? 10)%Z with false by (symmetry; apply Z.ltb_ge; lia).
      rewrite nth_overflow; [reflexivity|]. unfold trim_pad. cbn [t_data]. rewrite map_length, seq_length. lia.
Qed.
