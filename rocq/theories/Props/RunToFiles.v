(** From the archive with the raw data to the files with the correlations: what a run stores. *)
From Coq Require Import QArith Qround Reals Lra Permutation Sorted Lia.
From Verif Require Import Lib.Base Lib.Str Lib.StrFacts Lib.Sorting Lib.Time Model.Partition Model.H5 Model.CorrTrace Model.CorrDB Model.Combos Spec.ComboSpec Proofs.ComboFacts
  Model.Rerun Model.Flip Model.WriteOut Model.PxcorrLoop Spec.HeaderSpec Spec.DBSpec Spec.XCombiSpec
  Model.Masking Model.Gaps Model.MpiMatrix Model.Spectral Model.DataLoop Spec.DataLoopSpec Model.WindowCorrelation Spec.WindowCorrelationSpec Proofs.WindowCorrelationFacts Proofs.DataLoopFacts
  Model.RunToFiles Spec.RunToFilesSpec Proofs.RunToFilesFacts Proofs.WholeRunFacts.
Local Open Scope string_scope.
Local Open Scope nat_scope.

(** ** C141: a run stores the correlations of all wanted pairs of channels, each once, in the file of the pair, and nothing else *)
Theorem C141_run_stores : forall (sadd : list cplx -> list cplx -> list cplx) szero cadd czero,
  (forall x, sadd szero x = x) -> (forall x, sadd x szero = x) -> (forall x, cadd czero x = x) -> (forall x, cadd x czero = x) ->
  forall (o : times) origin dt sr len center method rc K n proc archive stations subdiv f32 k,
  sensible o K n -> read_inc o = (Z.of_nat n * corr_inc o)%Z -> all_succeed o proc (map ch_trace archive) K ->
  (0 < sr)%Q -> (sr * len == inject_Z k)%Q -> (1 <= k)%Z -> Z.even (padded_len (Z.to_nat (corr_len o + 1)) sr len) = true ->
  fine_archive archive -> stations_of archive stations -> one_each method -> fine_requests archive rc ->
  (100000 <= corr_inc o * dt)%Z ->
  (forall t s, In (t, s) (schedule o K n) -> time_ok (origin + s * dt) /\ time_ok (origin + (s + corr_len o) * dt)) ->
  (** the files, which are the same for any number [p] of processes and any choice [flag] of the times at which they are written; without
      existing correlations [subdiv], preprocess_subdiv, has no effect *)
  exists files : bool -> string -> option file,
  forall p sep flag, 0 < p -> exists d,
    run_files o origin dt sr len false center method (texts rc) proc archive f32 sadd szero cadd czero subdiv stations [] p sep flag = Some (Ok d) /\
    (forall name, dget d name = files sep name) /\
    complete o origin dt sr k method rc K n proc archive f32 sep d.
Proof.
  intros sadd szero cadd czero S1 S2 C1 C2 o origin dt sr len center method rc K n proc archive stations subdiv f32 k SENS GRID OKS SR KK K1 EV FINE STS M RQ DT TOK.
  assert (N : forall sep, part_of_run o origin dt sr k method rc K n proc archive f32 sep []) by (intros sep; split; [constructor|]; exists []; repeat split; constructor).
  destruct (run_from_part o origin dt sr len center method rc K n proc archive f32 k sadd szero cadd czero S1 S2 C1 C2 SENS GRID OKS SR KK K1 EV FINE M RQ subdiv DT TOK stations STS [] true (or_intror eq_refl) (N true)) as (ft & T).
  destruct (run_from_part o origin dt sr len center method rc K n proc archive f32 k sadd szero cadd czero S1 S2 C1 C2 SENS GRID OKS SR KK K1 EV FINE M RQ subdiv DT TOK stations STS [] false (or_intror eq_refl) (N false)) as (ff & F).
  exists (fun sep : bool => if sep then ft else ff). intros p [|] flag P; [destruct (T p flag P) as (d & A & B & C & _)|destruct (F p flag P) as (d & A & B & C & _)]; exists d; auto.
Qed.
Print Assumptions C141_run_stores.

(** three channels of two stations, one of them with a late start; 1 Hz, windows of 5 s *)
Definition samples (s : Z) (l : list Z) : Gaps.trace R := mkT s (map (fun z => Some (IZR z)) l).
Definition net_archive : list channel :=
  [mkCh "YA" "UV05" "00" "HHN" (samples 0 [0;1;2;3;4;5;6;7;8;9;10;11;12;13;14;15;16;17;18;19]%Z);
   mkCh "YA" "UV05" "00" "HHZ" (samples 0 [5;1;7;3;4;5;6;7;8;9;10;11;12;13;14;15;16;17;18;19]%Z);
   mkCh "YA" "UV06" "00" "HHZ" (samples 7 [107;108;109;110;111;112;113;114]%Z)].
Definition net_times : times := mkTimes 0 20 10 9 5 5.
Definition keep_all (w : Gaps.trace R) : result (option (Gaps.trace R)) := Ok (Some w).
Example C141_example : sensible net_times 2 2 /\ read_inc net_times = (Z.of_nat 2 * corr_inc net_times)%Z /\ all_succeed net_times keep_all (map ch_trace net_archive) 2 /\
  (1 * 2 == inject_Z 2)%Q /\ Z.even (padded_len (Z.to_nat (corr_len net_times + 1)) 1 2) = true /\ fine_archive net_archive /\ one_each "betweenStations" /\
  (100000 <= corr_inc net_times * 1000000000)%Z /\
  (forall t s, In (t, s) (schedule net_times 2 2) -> time_ok (1420070400000000000 + s * 1000000000) /\ time_ok (1420070400000000000 + (s + corr_len net_times) * 1000000000)) /\
  exists x y, correlated net_times "betweenStations" None 2 2 keep_all net_archive 0 5 (nth 1 net_archive (mkCh "" "" "" "" (mkT 0 []))) (nth 2 net_archive (mkCh "" "" "" "" (mkT 0 []))) x y /\
    lagged_sum net_times 0 5 x y 1 = (6 * 107 + 7 * 108 + 8 * 109)%R.
Proof.
  split; [unfold sensible, ceil_of; cbn; lia|]. split; [reflexivity|]. split; [intros k c w _ _; now exists (Some w)|]. split; [reflexivity|]. split; [reflexivity|].
  split.
  { split; [|split].
    - intros a [<-|[<-|[<-|[]]]]; repeat split; discriminate.
    - intros a b [<-|[<-|[<-|[]]]] [<-|[<-|[<-|[]]]]; repeat split; try reflexivity; cbn; discriminate.
    - repeat constructor; cbn; intros H; repeat destruct H as [H|H]; try discriminate H; exact H. }
  split; [now left|]. split; [cbn; lia|]. split.
  { intros t s H. cbn in H. repeat destruct H as [H|H]; try contradiction; injection H as <- <-; split; vm_compute; split; congruence. }
  exists (samples 0 [5;1;7;3;4;5;6;7;8;9]%Z), (samples 7 [107;108;109]%Z). split.
  - split; [cbn; tauto|]. split; [|split].
    + exists 1. split; [reflexivity|]. split; [|exists 5%Z; split; [cbn; lia|]; split; [cbn; lia|cbn; discriminate]].
      exists (samples 0 [5;1;7;3;4;5;6;7;8;9]%Z). split; [|reflexivity]. exists (ch_trace (nth 1 net_archive (mkCh "" "" "" "" (mkT 0 [])))). repeat split.
    + exists 2. split; [reflexivity|]. split; [|exists 7%Z; split; [cbn; lia|]; split; [cbn; lia|cbn; discriminate]].
      exists (samples 7 [107;108;109]%Z). split; [|reflexivity]. exists (ch_trace (nth 2 net_archive (mkCh "" "" "" "" (mkT 0 [])))). repeat split.
    + split; [|intros _ l Q; discriminate Q]. left. split; [reflexivity|]. split; [|intros [_ H]; discriminate H]. right. split; [reflexivity|]. left. reflexivity.
  - cbv -[Rplus Rmult IZR]; lra.
Qed.

(** requests: the vertical channels of the two stations, or all channels of the two stations *)
Definition net_channel (i : nat) : channel := nth i net_archive (mkCh "" "" "" "" (mkT 0 [])).
Definition ask_channels : option (list entry) := Some [mkEntry "YA" "YA" "UV06" "UV05" (Some ("HHZ", "HHZ"))].
Definition ask_stations : option (list entry) := Some [mkEntry "YA" "YA" "UV05" "UV06" None].
Example C141_requests : texts ask_channels = Some ["YA-YA.UV06-UV05.HHZ-HHZ"] /\ fine_requests net_archive ask_channels /\
  chosen ask_channels "betweenStations" (net_channel 1) (net_channel 2) /\ ~ chosen ask_channels "betweenStations" (net_channel 0) (net_channel 2) /\
  fine_requests net_archive ask_stations /\ plain_requests ask_stations /\ chosen ask_stations "betweenStations" (net_channel 0) (net_channel 2).
Proof.
  split; [reflexivity|]. split.
  { intros l e Q. injection Q as <-. intros [<-|[]]. split; [repeat split; discriminate|]. intros a [<-|[<-|[<-|[]]]]; reflexivity. }
  split.
  { split.
    - left. split; [reflexivity|]. split; [|intros [_ H]; discriminate H]. right. split; [reflexivity|]. now left.
    - intros _ l Q. injection Q as <-. eexists. split; [now left|]. right. repeat split. }
  split.
  { intros (_ & H). destruct (H eq_refl _ eq_refl) as (e & [<-|[]] & [A|A]); destruct A as (_ & A & _ & B & C & D); discriminate. }
  split.
  { intros l e Q. injection Q as <-. intros [<-|[]]. split; [repeat split; discriminate|]. intros a [<-|[<-|[<-|[]]]]; reflexivity. }
  split.
  { intros l e Q. injection Q as <-. intros [<-|[]]. split; [reflexivity|]. right. split; [reflexivity|]. discriminate. }
  split.
  - left. split; [reflexivity|]. split; [|intros [_ H]; discriminate H]. right. split; [reflexivity|]. now left.
  - intros _ l Q. injection Q as <-. eexists. split; [now left|]. left. repeat split.
Qed.

(** ** C142: data of every location of a channel are correlated and stored *)
(** The location is not part of the place in the file.  Two locations of one channel: both are correlated with the other station, only
    the first one is stored. *)
Definition two_locations : list channel :=
  [mkCh "YA" "UV05" "00" "HHZ" (samples 0 [0;1;2;3;4;5;6;7;8;9]%Z);
   mkCh "YA" "UV05" "10" "HHZ" (samples 0 [5;1;7;3;4;5;6;7;8;9]%Z);
   mkCh "YA" "UV06" "00" "HHZ" (samples 0 [7;3;5;5;4;5;6;7;8;9]%Z)].
Definition two_stations : list (string * string) := [("YA", "UV05"); ("YA", "UV06")].
Definition one_window : times := mkTimes 0 10 10 9 9 10.
Theorem C142_location_refuted : forall (sadd : list cplx -> list cplx -> list cplx) szero cadd czero center f32,
  (forall x, sadd szero x = x) -> (forall x, sadd x szero = x) -> (forall x, cadd czero x = x) -> (forall x, cadd x czero = x) ->
  exists x y f tr,
    correlated one_window "betweenStations" None 1 1 keep_all two_locations 0 0 (nth 1 two_locations (mkCh "" "" "" "" (mkT 0 []))) (nth 2 two_locations (mkCh "" "" "" "" (mkT 0 []))) x y /\
    run_files one_window 1420070400000000000 1000000000 1 2 false center "betweenStations" None keep_all two_locations f32 sadd szero cadd czero false two_stations [] 1 false (fun _ => true) =
      Some (Ok [("YA-YA.UV05-UV06.h5", f)]) /\
    get_data f "YA-YA" "UV05-UV06" "HHZ-HHZ" "subdivision" (Some 1420070400000000000%Z) (Some 1420070409000000000%Z) = Ok [tr] /\
    c_loc tr = "00-00".
Proof.
  intros sadd szero cadd czero center f32 S1 S2 C1 C2.
  assert (P : forall c, c < 3 -> preprocessed one_window keep_all (map ch_trace two_locations) c 0 (nth c (map ch_trace two_locations) (mkT 0 []))).
  { intros c H. exists (nth c (map ch_trace two_locations) (mkT 0 [])). destruct c as [|[|[|c]]]; [| | |lia]; (split; [|reflexivity]; eexists; repeat split). }
  set (w c := trim_pad 0 10 (trim_pad 0 9 (trim_pad 0 10 (nth c (map ch_trace two_locations) (mkT 0 []))))).
  assert (WW : correlation_windows one_window keep_all (map ch_trace two_locations) false 1 0 = Some [(0%Z, [(0, w 0); (1, w 1); (2, w 2)])]) by (cbv -[IZR]; reflexivity).
  assert (W : forall c, window_of one_window 0 0 (nth c (map ch_trace two_locations) (mkT 0 [])) (w c)) by (intros c; unfold w; apply (window_made one_window 1 1); unfold sensible, ceil_of; cbn; lia).
  destruct (window_rows sadd szero cadd czero S1 S2 C1 C2 one_window keep_all (map ch_trace two_locations) 0 0 [(0, w 0); (1, w 1); (2, w 2)] center 1 2 2 [(0, 2); (1, 2)]) as (rows & E & F);
    [reflexivity| |reflexivity..|lia|reflexivity|repeat constructor|].
  { intros c v [H|[H|[H|[]]]]; injection H as <- <-; eexists; (split; [apply P; lia|apply W]). }
  specialize (E 1 ltac:(lia)). inversion F as [|? r1 ? l1 (row1 & -> & _) F1]; subst. inversion F1 as [|? r2 ? l2 (row2 & -> & _) F2]; subst. inversion F2; subst. clear F F1 F2.
  assert (R : exists q1 q2, window_correlations 1420070400000000000 1000000000 1 2 false center "betweenStations" None two_locations f32 sadd szero cadd czero [] 1 [(0, w 0); (1, w 1); (2, w 2)] =
    Ok [mkCT "YA-YA" "UV05-UV06" "00-00" "HHZ-HHZ" 1420070400000000000 1420070409000000000 q1 1 (map f32 row1);
        mkCT "YA-YA" "UV05-UV06" "10-00" "HHZ-HHZ" 1420070400000000000 1420070409000000000 q2 1 (map f32 row2)]).
  { do 2 eexists. unfold window_correlations.
    replace (select_pairs _ _ _ _) with (Ok (pair_heads 1420070400000000000 1000000000 two_locations [(0, w 0); (1, w 1); (2, w 2)], [(0, 2); (1, 2)])) by reflexivity.
    cbn [bind fst snd]. 
    replace (map _ (pair_heads _ _ _ _)) with [(0, w 0); (1, w 1); (2, w 2)] by reflexivity.
    rewrite E. cbn [bind combine mapM fst snd]. reflexivity. }
  destruct R as (q1 & q2 & R).
  exists (nth 1 (map ch_trace two_locations) (mkT 0 [])), (nth 2 (map ch_trace two_locations) (mkT 0 [])).
  eexists. eexists. split; [|split; [|split]].
  - split; [now left|]. split; [|split].
    + exists 1. split; [reflexivity|]. split; [apply P; lia|]. exists 0%Z. split; [cbn; lia|]. split; [cbn; lia|discriminate].
    + exists 2. split; [reflexivity|]. split; [apply P; lia|]. exists 0%Z. split; [cbn; lia|]. split; [cbn; lia|discriminate].
    + split; [|intros _ l Q; discriminate Q]. left. split; [reflexivity|]. split; [right; split; [reflexivity|left; reflexivity]|]. intros [_ H]. discriminate H.
  - unfold run_files, with_existing. replace (find_existing_times [] _ _ _ _ _) with (Ok ([] : ex_dict)) by reflexivity. unfold run_batches. cbn [subdiv_used]. rewrite WW. cbn [option_map mapM snd]. rewrite R. cbn [bind]. vm_compute. reflexivity.
  - vm_compute. reflexivity.
  - reflexivity.
Qed.
Print Assumptions C142_location_refuted.

(** ** C143: runs that are stopped and started again end with the same correlations as one run *)
(** [cut r]: how far process [r] got in the batch that was being written *)
Theorem C143_restart_partial : forall (sadd : list cplx -> list cplx -> list cplx) szero cadd czero,
  (forall x, sadd szero x = x) -> (forall x, sadd x szero = x) -> (forall x, cadd czero x = x) -> (forall x, cadd x czero = x) ->
  forall (o : times) origin dt sr len center method rc K n proc archive stations f32 k sep,
  sensible o K n -> read_inc o = (Z.of_nat n * corr_inc o)%Z -> all_succeed o proc (map ch_trace archive) K ->
  (0 < sr)%Q -> (sr * len == inject_Z k)%Q -> (1 <= k)%Z -> Z.even (padded_len (Z.to_nat (corr_len o + 1)) sr len) = true ->
  fine_archive archive -> stations_of archive stations -> one_each method -> fine_requests archive rc ->
  (100000 <= corr_inc o * dt)%Z ->
  (forall t s, In (t, s) (schedule o K n) -> time_ok (origin + s * dt) /\ time_ok (origin + (s + corr_len o) * dt)) ->
  (** runs that are stopped anywhere but between the creation of a file and its first correlation *)
  let stops d e := exists p flag m cut, 0 < p /\ (forall r, snd (cut r) <> Some 0) /\
    stopped_run o origin dt sr len false center method (texts rc) proc archive f32 sadd szero cadd czero false stations d p sep flag m cut = Some (Ok e) in
  forall d, interrupted stops d ->
  (** no run that starts from there raises before it is stopped *)
  (forall p flag m cut, 0 < p -> (forall r, snd (cut r) <> Some 0) -> exists e,
     stopped_run o origin dt sr len false center method (texts rc) proc archive f32 sadd szero cadd czero false stations d p sep flag m cut = Some (Ok e)) /\
  (** a run that is not stopped completes the directory, whatever the number of processes and the times of writing; one more run
      changes no file, and computes no correlation if the requests are for stations in the order of the files (others are computed again, see C10) *)
  exists files : string -> option file, forall p flag, 0 < p -> exists e,
    run_files o origin dt sr len false center method (texts rc) proc archive f32 sadd szero cadd czero false stations d p sep flag = Some (Ok e) /\
    (forall name, dget e name = files name) /\
    complete o origin dt sr k method rc K n proc archive f32 sep e /\
    (forall p' flag', 0 < p' -> exists e', run_files o origin dt sr len false center method (texts rc) proc archive f32 sadd szero cadd czero false stations e p' sep flag' = Some (Ok e') /\
       (forall name, dget e' name = files name) /\
       (plain_requests rc -> e' = e /\ exists bs, with_existing method (texts rc) stations e
          (fun ex => run_batches o origin dt sr len false center method (texts rc) proc archive f32 sadd szero cadd czero false ex p' flag') = Some (Ok bs) /\ concat bs = [])).
Proof.
  intros sadd szero cadd czero S1 S2 C1 C2 o origin dt sr len center method rc K n proc archive stations f32 k sep SENS GRID OKS SR KK K1 EV FINE STS M RQ DT TOK stops d R.
  assert (PT : part_of_run o origin dt sr k method rc K n proc archive f32 sep d).
  { induction R as [|d e R IH (p & flag & m & cut & P & NZ & E)]; [split; [constructor|]; exists []; repeat split; constructor|].
    destruct (stopped_part o origin dt sr len center method rc K n proc archive f32 k sadd szero cadd czero S1 S2 C1 C2 SENS GRID OKS SR KK K1 EV FINE M RQ false DT TOK stations STS d sep p flag m cut (or_introl eq_refl) IH P NZ) as (e' & E' & X).
    rewrite E' in E. injection E as <-. exact X. }
  split.
  - intros p flag m cut P NZ.
    destruct (stopped_part o origin dt sr len center method rc K n proc archive f32 k sadd szero cadd czero S1 S2 C1 C2 SENS GRID OKS SR KK K1 EV FINE M RQ false DT TOK stations STS d sep p flag m cut (or_introl eq_refl) PT P NZ) as (e & E & _). now exists e.
  - exact (run_from_part_again o origin dt sr len center method rc K n proc archive f32 k sadd szero cadd czero S1 S2 C1 C2 SENS GRID OKS SR KK K1 EV FINE M RQ false DT TOK stations STS d sep eq_refl PT).
Qed.
Print Assumptions C143_restart_partial.

(** two stations, one window *)
Definition pair_archive : list channel :=
  [mkCh "YA" "UV05" "00" "HHZ" (samples 0 [0;1;2;3;4;5;6;7;8;9]%Z);
   mkCh "YA" "UV06" "00" "HHZ" (samples 0 [7;3;5;5;4;5;6;7;8;9]%Z)].
(** the only batch of its run *)
Lemma pair_batches (sadd : list cplx -> list cplx -> list cplx) szero cadd czero center f32 :
  (forall x, sadd szero x = x) -> (forall x, sadd x szero = x) -> (forall x, cadd czero x = x) -> (forall x, cadd x czero = x) ->
  exists q1 row1, run_batches one_window 1420070400000000000 1000000000 1 2 false center "betweenStations" None keep_all pair_archive f32 sadd szero cadd czero false [] 1 (fun _ => true) =
    Some (Ok [[mkCT "YA-YA" "UV05-UV06" "00-00" "HHZ-HHZ" 1420070400000000000 1420070409000000000 q1 1 (map f32 row1)]]).
Proof.
  intros S1 S2 C1 C2.
  assert (P : forall c, c < 2 -> preprocessed one_window keep_all (map ch_trace pair_archive) c 0 (nth c (map ch_trace pair_archive) (mkT 0 []))).
  { intros c H. exists (nth c (map ch_trace pair_archive) (mkT 0 [])). destruct c as [|[|c]]; [| |lia]; (split; [|reflexivity]; eexists; repeat split). }
  set (w c := trim_pad 0 10 (trim_pad 0 9 (trim_pad 0 10 (nth c (map ch_trace pair_archive) (mkT 0 []))))).
  assert (WW : correlation_windows one_window keep_all (map ch_trace pair_archive) false 1 0 = Some [(0%Z, [(0, w 0); (1, w 1)])]) by (cbv -[IZR]; reflexivity).
  assert (W : forall c, window_of one_window 0 0 (nth c (map ch_trace pair_archive) (mkT 0 [])) (w c)) by (intros c; unfold w; apply (window_made one_window 1 1); unfold sensible, ceil_of; cbn; lia).
  destruct (window_rows sadd szero cadd czero S1 S2 C1 C2 one_window keep_all (map ch_trace pair_archive) 0 0 [(0, w 0); (1, w 1)] center 1 2 2 [(0, 1)]) as (rows & E & F);
    [reflexivity| |reflexivity..|lia|reflexivity|repeat constructor|].
  { intros c v [H|[H|[]]]; injection H as <- <-; eexists; (split; [apply P; lia|apply W]). }
  specialize (E 1 ltac:(lia)). inversion F as [|? r1 ? l1 (row1 & -> & _) F1]; subst. inversion F1; subst. clear F F1.
  assert (R : exists q1, window_correlations 1420070400000000000 1000000000 1 2 false center "betweenStations" None pair_archive f32 sadd szero cadd czero [] 1 [(0, w 0); (1, w 1)] =
    Ok [mkCT "YA-YA" "UV05-UV06" "00-00" "HHZ-HHZ" 1420070400000000000 1420070409000000000 q1 1 (map f32 row1)]).
  { eexists. unfold window_correlations.
    replace (select_pairs _ _ _ _) with (Ok (pair_heads 1420070400000000000 1000000000 pair_archive [(0, w 0); (1, w 1)], [(0, 1)])) by reflexivity.
    cbn [bind fst snd]. 
    replace (map _ (pair_heads _ _ _ _)) with [(0, w 0); (1, w 1)] by reflexivity.
    rewrite E. cbn [bind combine mapM fst snd]. reflexivity. }
  destruct R as (q1 & R).
  exists q1, row1. unfold run_batches. cbn [subdiv_used]. rewrite WW. cbn [option_map mapM snd]. rewrite R. reflexivity.
Qed.
(** what is missing in C143_restart_partial: a process that is stopped after it created a file and before the first correlation is in
    it leaves a file with which no later run starts *)
Theorem C143_empty_file_refuted : forall (sadd : list cplx -> list cplx -> list cplx) szero cadd czero center f32,
  (forall x, sadd szero x = x) -> (forall x, sadd x szero = x) -> (forall x, cadd czero x = x) -> (forall x, cadd x czero = x) ->
  let stopped d m cut := stopped_run one_window 1420070400000000000 1000000000 1 2 false center "betweenStations" None keep_all pair_archive f32 sadd szero cadd czero false two_stations d 1 false (fun _ => true) m cut in
  exists d e,
    (** stopped before the file is created: the directory is empty and the next run completes it *)
    stopped [] 0 (fun _ => (0, None)) = Some (Ok []) /\ stopped [] 1 (fun _ => (0, None)) = Some (Ok e) /\ dget e "YA-YA.UV05-UV06.h5" <> None /\
    (** stopped a moment later *)
    stopped [] 0 (fun _ => (0, Some 0)) = Some (Ok d) /\
    forall p flag, run_files one_window 1420070400000000000 1000000000 1 2 false center "betweenStations" None keep_all pair_archive f32 sadd szero cadd czero false two_stations d p false flag = Some (Raise KeyError).
Proof.
  intros sadd szero cadd czero center f32 S1 S2 C1 C2 stopped. destruct (pair_batches sadd szero cadd czero center f32 S1 S2 C1 C2) as (q1 & row1 & B).
  assert (ST : forall m cut, stopped [] m cut = Some (stopped_batches 1 false [] [[mkCT "YA-YA" "UV05-UV06" "00-00" "HHZ-HHZ" 1420070400000000000 1420070409000000000 q1 1 (map f32 row1)]] m cut)).
  { intros m cut. unfold stopped, stopped_run, with_existing. replace (find_existing_times [] _ _ _ _ _) with (Ok ([] : ex_dict)) by reflexivity. rewrite B. reflexivity. }
  exists [("YA-YA.UV05-UV06.h5", H5.empty_file)], [("YA-YA.UV05-UV06.h5", add_correlation H5.empty_file [mkCT "YA-YA" "UV05-UV06" "00-00" "HHZ-HHZ" 1420070400000000000 1420070409000000000 q1 1 (map f32 row1)] "subdivision")].
  rewrite !ST. split; [vm_compute; reflexivity|]. split; [vm_compute; reflexivity|]. split; [vm_compute; discriminate|]. split; [vm_compute; reflexivity|].
  intros p flag. unfold run_files, with_existing. replace (find_existing_times _ _ _ _ _ _) with (Raise KeyError : result ex_dict) by (vm_compute; reflexivity). reflexivity.
Qed.
Print Assumptions C143_empty_file_refuted.
(** the other hypotheses: see C141_example *)
Example C143_example : stations_of net_archive two_stations /\ stations_of pair_archive two_stations /\ fine_archive pair_archive /\
  sensible one_window 1 1 /\ Z.even (padded_len (Z.to_nat (corr_len one_window + 1)) 1 2) = true.
Proof.
  split; [|split; [|split; [|split; [unfold sensible, ceil_of; cbn; lia|reflexivity]]]].
  - intros p. split; [intros [<-|[<-|[]]]; [exists (nth 0 net_archive (mkCh "" "" "" "" (mkT 0 [])))|exists (nth 2 net_archive (mkCh "" "" "" "" (mkT 0 [])))]; split; cbn; auto|]. intros (a & [<-|[<-|[<-|[]]]] & ->); cbn; auto.
  - intros p. split; [intros [<-|[<-|[]]]; [exists (nth 0 pair_archive (mkCh "" "" "" "" (mkT 0 [])))|exists (nth 1 pair_archive (mkCh "" "" "" "" (mkT 0 [])))]; split; cbn; auto|]. intros (a & [<-|[<-|[]]] & ->); cbn; auto.
  - split; [|split].
    + intros a [<-|[<-|[]]]; repeat split; discriminate.
    + intros a b [<-|[<-|[]]] [<-|[<-|[]]]; repeat split; try reflexivity; cbn; discriminate.
    + repeat constructor; cbn; intros H; repeat destruct H as [H|H]; try discriminate H; exact H.
Qed.

(** ** C144: the data are preprocessed as the options say, whether or not there are correlations already *)
(** Preprocessing that removes the mean.  Both stations recorded the same; the second five samples are ten larger than the first. *)
Definition centred (w : Gaps.trace R) : Gaps.trace R :=
  let v := flat_map (fun x => match x with Some z => [z] | None => [] end) (Gaps.t_data w) in
  mkT (Gaps.t_start w) (map (option_map (fun z => z - rsum (length v) (fun i => nth i v 0) / IZR (Z.of_nat (length v)))%R) (Gaps.t_data w)).
Definition demean (w : Gaps.trace R) : result (option (Gaps.trace R)) := Ok (Some (centred w)).
Definition record : Gaps.trace R := samples 0 [0;2;1;0;2;10;12;11;10;12]%Z.
Definition two_records : list channel := [mkCh "YA" "UV05" "00" "HHZ" record; mkCh "YA" "UV06" "00" "HHZ" record].
Definition two_windows : times := mkTimes 0 10 10 9 5 5.
(** preprocess_subdiv is set.  One run: the whole read is preprocessed.  A run that is stopped after the first window was written and
    started again: the second window is preprocessed on its own, and another correlation is stored for it. *)
Theorem C144_restart_refuted : forall (sadd : list cplx -> list cplx -> list cplx) szero cadd czero center f32,
  (forall x, sadd szero x = x) -> (forall x, sadd x szero = x) -> (forall x, cadd czero x = x) -> (forall x, cadd x czero = x) ->
  (forall z, (0 <= z <= 1000)%Z -> f32 (IZR z) == inject_Z z)%Q ->
  let run := run_files two_windows 1420070400000000000 1000000000 1 2 false center "betweenStations" None demean two_records f32 sadd szero cadd czero true two_stations in
  let first i := Nat.eqb i 0 in
  exists once d twice f g t1 t2,
    run [] 1 false first = Some (Ok once) /\
    stopped_run two_windows 1420070400000000000 1000000000 1 2 false center "betweenStations" None demean two_records f32 sadd szero cadd czero true two_stations [] 1 false first 1 (fun _ => (0, None)) = Some (Ok d) /\
    run d 1 false first = Some (Ok twice) /\
    dget once "YA-YA.UV05-UV06.h5" = Some f /\ dget twice "YA-YA.UV05-UV06.h5" = Some g /\
    get_data f "YA-YA" "UV05-UV06" "HHZ-HHZ" "subdivision" (Some 1420070405000000000%Z) (Some 1420070410000000000%Z) = Ok [t1] /\
    get_data g "YA-YA" "UV05-UV06" "HHZ-HHZ" "subdivision" (Some 1420070405000000000%Z) (Some 1420070410000000000%Z) = Ok [t2] /\
    (nth 2 (c_data t1) 0 == 129)%Q /\ (nth 2 (c_data t2) 0 == 4)%Q.
Proof.
  intros sadd szero cadd czero center f32 S1 S2 C1 C2 F32 run first.
  set (T := 1420070400000000000%Z). set (D := 1000000000%Z).
  (* whole read *)
  assert (P : forall c, c < 2 -> preprocessed two_windows demean (map ch_trace two_records) c 0 (centred record)).
  { intros c H. exists record. destruct c as [|[|c]]; [| |lia]; (split; [|reflexivity]; eexists; repeat split). }
  set (w s := trim_pad s 6 (trim_pad s 5 (trim_pad 0 10 (centred record)))).
  assert (WW : correlation_windows two_windows demean (map ch_trace two_records) false 1 0 = Some [(0%Z, [(0, w 0%Z); (1, w 0%Z)]); (5%Z, [(0, w 5%Z); (1, w 5%Z)])]) by (cbv -[IZR Rplus Rminus Rdiv]; reflexivity).
  assert (W : forall s, (s = 0 \/ s = 5)%Z -> window_of two_windows 0 s (centred record) (w s)) by (intros s H; unfold w; apply (window_made two_windows 1 2); unfold sensible, ceil_of; cbn; lia).
  assert (RR : forall s, (s = 0 \/ s = 5)%Z -> exists q row, window_correlations T D 1 2 false center "betweenStations" None two_records f32 sadd szero cadd czero [] 1 [(0, w s); (1, w s)] =
      Ok [mkCT "YA-YA" "UV05-UV06" "00-00" "HHZ-HHZ" (T + s * D) (T + (s + 5) * D) q 1 (map f32 row)] /\ length row = 5 /\ nth 2 row 0%R = lagged_sum two_windows 0 s (centred record) (centred record) 0).
  { intros s H.
    destruct (window_rows sadd szero cadd czero S1 S2 C1 C2 two_windows demean (map ch_trace two_records) 0 s [(0, w s); (1, w s)] center 1 2 2 [(0, 1)]) as (rows & E & F);
      [reflexivity| |reflexivity..|lia|reflexivity|repeat constructor|].
    { intros c v [J|[J|[]]]; injection J as <- <-; eexists; (split; [apply P; lia|now apply W]). }
    specialize (E 1 ltac:(lia)). inversion F as [|? r1 ? l1 (row & -> & LR & V) F1]; subst. inversion F1; subst. clear F F1.
    do 2 eexists. split; [|split; [exact LR|apply (V _ _ (P 0 ltac:(lia)) (P 1 ltac:(lia)) 2); cbn; lia]]. unfold window_correlations.
    replace (select_pairs _ _ _ _) with (Ok (pair_heads T D two_records [(0, w s); (1, w s)], [(0, 1)])) by (destruct H as [-> | ->]; reflexivity).
    cbn [bind fst snd].
    replace (map _ (pair_heads _ _ _ _)) with [(0, w s); (1, w s)] by reflexivity.
    rewrite E. cbn [bind combine mapM fst snd]. destruct H as [-> | ->]; reflexivity. }
  destruct (RR 0%Z (or_introl eq_refl)) as (q0 & row0 & R0 & _). destruct (RR 5%Z (or_intror eq_refl)) as (q1 & row1 & R1 & L1 & V1).
  set (a0 := mkCT "YA-YA" "UV05-UV06" "00-00" "HHZ-HHZ" (T + 0 * D) (T + (0 + 5) * D) q0 1 (map f32 row0)) in *.
  set (a1 := mkCT "YA-YA" "UV05-UV06" "00-00" "HHZ-HHZ" (T + 5 * D) (T + (5 + 5) * D) q1 1 (map f32 row1)) in *.
  assert (B : run_batches two_windows T D 1 2 false center "betweenStations" None demean two_records f32 sadd szero cadd czero true [] 1 first = Some (Ok [[a0]; [a1]])).
  { unfold run_batches. cbn [subdiv_used]. rewrite WW. cbn [option_map mapM snd]. rewrite R0. cbn [bind]. rewrite R1. reflexivity. }
  set (f1 := add_correlation H5.empty_file [a0] "subdivision").
  (* the second window on its own *)
  set (ex := [("YA.UV05", [("YA.UV06", [("HHZ-HHZ", ["2015001T000000.0000Z"])])])] : ex_dict).
  assert (EX : find_existing_times [("YA-YA.UV05-UV06.h5", f1)] two_stations "betweenStations" None "subdivision" "*" = Ok ex) by (vm_compute; reflexivity).
  set (x' := centred (samples 5 [10;12;11;10;12]%Z)). set (y' := centred (samples 0 [0;2;1;0;2]%Z)).
  set (v s (x : Gaps.trace R) := trim_pad s 6 (trim_pad s 5 (trim_pad 0 10 x))).
  assert (WW' : correlation_windows two_windows demean (map ch_trace two_records) true 1 0 = Some [(0%Z, [(0, v 0%Z y'); (1, v 0%Z y')]); (5%Z, [(0, v 5%Z x'); (1, v 5%Z x')])]) by (cbv -[IZR Rplus Rminus Rdiv]; reflexivity).
  assert (P' : forall c, c < 2 -> preprocessed two_windows keep_all [x'; x'] c 0 x').
  { intros c H. exists x'. destruct c as [|[|c]]; [| |lia]; (split; [|reflexivity]; exists x'; repeat split). }
  assert (R' : exists q row, window_correlations T D 1 2 false center "betweenStations" None two_records f32 sadd szero cadd czero ex 1 [(0, v 5%Z x'); (1, v 5%Z x')] =
      Ok [mkCT "YA-YA" "UV05-UV06" "00-00" "HHZ-HHZ" (T + 5 * D) (T + (5 + 5) * D) q 1 (map f32 row)] /\ length row = 5 /\ nth 2 row 0%R = lagged_sum two_windows 0 5 x' x' 0).
  { destruct (window_rows sadd szero cadd czero S1 S2 C1 C2 two_windows keep_all [x'; x'] 0 5 [(0, v 5%Z x'); (1, v 5%Z x')] center 1 2 2 [(0, 1)]) as (rows & E & F);
      [reflexivity| |reflexivity..|lia|reflexivity|repeat constructor|].
    { intros c u [J|[J|[]]]; injection J as <- <-; eexists; (split; [apply P'; lia|unfold v; apply (window_made two_windows 1 2); unfold sensible, ceil_of; cbn; lia]). }
    specialize (E 1 ltac:(lia)). inversion F as [|? r1 ? l1 (row & -> & LR & V) F1]; subst. inversion F1; subst. clear F F1.
    do 2 eexists. split; [|split; [exact LR|apply (V _ _ (P' 0 ltac:(lia)) (P' 1 ltac:(lia)) 2); cbn; lia]]. unfold window_correlations.
    replace (select_pairs _ _ _ _) with (Ok (pair_heads T D two_records [(0, v 5%Z x'); (1, v 5%Z x')], [(0, 1)])) by reflexivity.
    cbn [bind fst snd].
    replace (map _ (pair_heads _ _ _ _)) with [(0, v 5%Z x'); (1, v 5%Z x')] by reflexivity.
    rewrite E. cbn [bind combine mapM fst snd]. reflexivity. }
  destruct R' as (q2 & row2 & R2 & L2 & V2).
  assert (R0' : window_correlations T D 1 2 false center "betweenStations" None two_records f32 sadd szero cadd czero ex 1 [(0, v 0%Z y'); (1, v 0%Z y')] = Ok []).
  { assert (Q : forall c, c < 2 -> preprocessed two_windows keep_all [y'; y'] c 0 y').
    { intros c H. exists y'. destruct c as [|[|c]]; [| |lia]; (split; [|reflexivity]; exists y'; repeat split). }
    destruct (window_rows sadd szero cadd czero S1 S2 C1 C2 two_windows keep_all [y'; y'] 0 0 [(0, v 0%Z y'); (1, v 0%Z y')] center 1 2 2 []) as (rows & E & F); [reflexivity| |reflexivity..|lia|reflexivity|constructor|].
    { intros c u [J|[J|[]]]; injection J as <- <-; eexists; (split; [apply Q; lia|unfold v; apply (window_made two_windows 1 2); unfold sensible, ceil_of; cbn; lia]). }
    specialize (E 1 ltac:(lia)). inversion F; subst. unfold window_correlations.
    replace (select_pairs _ _ _ _) with (Ok (pair_heads T D two_records [(0, v 0%Z y'); (1, v 0%Z y')], [] : list (nat * nat))) by reflexivity. cbn [bind fst snd].
    replace (map _ (pair_heads _ _ _ _)) with [(0, v 0%Z y'); (1, v 0%Z y')] by reflexivity. rewrite E. reflexivity. }
  set (a2 := mkCT "YA-YA" "UV05-UV06" "00-00" "HHZ-HHZ" (T + 5 * D) (T + (5 + 5) * D) q2 1 (map f32 row2)) in *.
  assert (B' : run_batches two_windows T D 1 2 false center "betweenStations" None demean two_records f32 sadd szero cadd czero true ex 1 first = Some (Ok [[a2]])).
  { unfold run_batches. change (subdiv_used true ex) with true. rewrite WW'. cbn [option_map mapM snd]. rewrite R0'. cbn [bind]. rewrite R2. reflexivity. }
  subst T D.
  exists [("YA-YA.UV05-UV06.h5", add_correlation f1 [a1] "subdivision")], [("YA-YA.UV05-UV06.h5", f1)], [("YA-YA.UV05-UV06.h5", add_correlation f1 [a2] "subdivision")], (add_correlation f1 [a1] "subdivision"), (add_correlation f1 [a2] "subdivision").
  exists a1, a2.
  split; [unfold run, run_files, with_existing; replace (find_existing_times [] _ _ _ _ _) with (Ok ([] : ex_dict)) by reflexivity; rewrite B; vm_compute; reflexivity|].
  split; [unfold stopped_run, with_existing; replace (find_existing_times [] _ _ _ _ _) with (Ok ([] : ex_dict)) by reflexivity; rewrite B; vm_compute; reflexivity|].
  split; [unfold run, run_files, with_existing; rewrite EX, B'; vm_compute; reflexivity|].
  split; [reflexivity|]. split; [reflexivity|]. split; [vm_compute; reflexivity|]. split; [vm_compute; reflexivity|].
  unfold a1, a2. cbn [c_data]. clear - F32 V1 V2 L1 L2.
  destruct row1 as [|z1 [|z2 [|z3 r]]]; try discriminate L1. destruct row2 as [|u1 [|u2 [|u3 r']]]; try discriminate L2. cbn [map nth] in V1, V2 |- *. subst z3 u3.
  replace (lagged_sum two_windows 0 5 (centred record) (centred record) 0) with 129%R by (cbv -[Rplus Rminus Rmult Rdiv IZR]; lra).
  replace (lagged_sum two_windows 0 5 x' x' 0) with 4%R by (cbv -[Rplus Rminus Rmult Rdiv IZR]; lra).
  split; apply F32; lia.
Qed.
Print Assumptions C144_restart_refuted.
(** for every run into an empty directory the option is ignored *)
Theorem C144_ignored_refuted : forall o origin dt sr len normalize center method rc proc archive f32 sadd szero cadd czero stations p sep flag,
  run_files o origin dt sr len normalize center method rc proc archive f32 sadd szero cadd czero true stations [] p sep flag =
  run_files o origin dt sr len normalize center method rc proc archive f32 sadd szero cadd czero false stations [] p sep flag.
Proof.
  intros. unfold run_files, with_existing, find_existing_times. destruct (station_combinations stations method rc) as [c|e]; [|reflexivity]. cbn [bind].
  assert (X : existing_loop [] c "subdivision" "*" [] = Ok []) by (induction c as [|[a b] c IH]; [reflexivity|exact IH]). now rewrite X.
Qed.
Print Assumptions C144_ignored_refuted.
