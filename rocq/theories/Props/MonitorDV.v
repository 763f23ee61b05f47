(** From the archive with the raw data to the velocity changes. *)
From Coq Require Import QArith Qreals Reals Lra Sorted Lia.
From Verif Require Import Lib.Base Lib.Str Lib.Time Model.CorrTrace Model.CorrDB Model.Rerun Model.Gaps Model.LagMatrix Model.MpiMatrix Model.Spectral Model.DataLoop Spec.DataLoopSpec Model.WindowCorrelation
  Spec.WindowCorrelationSpec Proofs.WindowCorrelationFacts Model.RunToFiles Spec.RunToFilesSpec Proofs.WholeRunFacts Model.MonitorFiles Model.MonitorRun Model.MonitorInput Spec.MonitorInputSpec Props.RunToFiles Props.MonitorInput
  Model.Similarity Model.Reference Model.VelocityChange Spec.VelocityChangeSpec Spec.ShiftSpec Model.MonitorDV Spec.MonitorDVSpec Proofs.MonitorDVFacts.
From Verif Require Spec.MonitorRunSpec Model.Shift Props.Shift Props.VelocityChange.
Local Open Scope string_scope.
Local Open Scope nat_scope.

(** ** C146: the velocity changes that the monitoring writes after a run are those of the matrices whose rows are the averages, over the windows
    of each date, of the scaled correlations of the preprocessed data *)
Theorem C146_dates : forall (sadd : list cplx -> list cplx -> list cplx) szero cadd czero,
  (forall x, sadd szero x = x) -> (forall x, sadd x szero = x) -> (forall x, cadd czero x = x) -> (forall x, cadd x czero = x) ->
  forall (o : times) origin dt sr len center method rc K n proc archive stations f32 k sep,
  (** the conditions of C145 *)
  sensible o K n -> read_inc o = (Z.of_nat n * corr_inc o)%Z -> all_succeed o proc (map ch_trace archive) K ->
  (0 < sr)%Q -> (sr * len == inject_Z k)%Q -> (1 <= k)%Z -> Z.even (padded_len (Z.to_nat (corr_len o + 1)) sr len) = true ->
  fine_archive archive -> stations_of archive stations -> one_each method -> fine_requests archive rc ->
  (100000 <= corr_inc o * dt)%Z ->
  (forall t s, In (t, s) (DataLoopSpec.schedule o K n) -> time_ok (origin + s * dt) /\ time_ok (origin + (s + corr_len o) * dt)) ->
  let stops d e := exists p flag m cut, 0 < p /\ (forall r, snd (cut r) <> Some 0) /\
    stopped_run o origin dt sr len false center method (texts rc) proc archive f32 sadd szero cadd czero false stations d p sep flag m cut = Some (Ok e) in
  forall d, interrupted stops d -> forall p flag, 0 < p -> exists e,
  run_files o origin dt sr len false center method (texts rc) proc archive f32 sadd szero cadd czero false stations d p sep flag = Some (Ok e) /\
  (** the monitoring: dates in whole 0.1 ms; a lapse time window of at least ten samples that is part of the correlations, on the samples *)
  forall sp gap_row extract filt (c : config) wlen starts ends B E,
  (forall x, length (filt x) = length x) -> c_sides c <> Single -> 0 < c_steps c -> c_tt c = false -> c_len c = Some wlen -> (c_start c + wlen <= len)%Q ->
  (c_start c * sr == inject_Z B)%Q -> ((c_start c + wlen) * sr == inject_Z (Z.of_nat E))%Q -> (0 <= B < Z.of_nat E)%Z -> 10 <= E ->
  (forall row v, length (gap_row row v) = length row) ->
  (forall cb, b_rows cb <> [] -> (forall row, In row (b_rows cb) -> length row = 2 * Z.to_nat k + 1) -> forall r, extract cb = Ok r -> length r = 2 * Z.to_nat k + 1) ->
  starts <> [] -> length ends = length starts -> (forall t, In t starts \/ In t ends -> (t mod 100000 = 0)%Z) ->
  exists l, plist (opened e) (corr_find_filter (FStr "*") (FStr "*") (map fst e)) = Ok l /\
  (** for any number of processes, in whatever order they get on *)
  forall q t before, 0 < q -> MonitorRunSpec.schedule (shares q l) t ->
    right_results o origin dt k f32 filt method rc K n proc archive sr (two_pass sp gap_row extract c (Z.to_nat k) (c_start c) (c_start c + wlen) None) starts ends
      (dir before) (dir (attempts (compute sp gap_row extract filt c len (fun _ => None) starts ends e) before t)).
Proof.
  intros sadd szero cadd czero S1 S2 C1 C2 o origin dt sr len center method rc K n proc archive stations f32 k sep SENS GRID OKS SR KK K1 EV FINE STS M RQ DT TOK stops d R p flag P.
  destruct (C145_monitor_input sadd szero cadd czero S1 S2 C1 C2 o origin dt sr len center method rc K n proc archive stations f32 k sep SENS GRID OKS SR KK K1 EV FINE STS M RQ DT TOK d R p flag P) as (e & RE & FO).
  exists e. split; [exact RE|]. intros sp gap_row extract filt c wlen starts ends B E FL SD ST TT CL FIT HB HE BE E10 LG LE NE LN MD.
  apply (all_dates o origin dt sr k method rc K n proc archive f32 sp gap_row extract filt c len wlen starts ends B E) with (sep := sep); try assumption. now rewrite Qmult_comm.
Qed.
Print Assumptions C146_dates.

(** If the correlations of two channels are the same in all windows, the velocity change is zero and the similarity is one on all dates with
    data; there is no value on the others.  The reference is the mean of all correlations. *)
Theorem C146_steady : forall o origin dt sr method rc K n proc archive f32 k sp gap_row filt (c : config) wlen starts ends before after a b r t0 s0 x0 y0,
  right_results o origin dt k f32 filt method rc K n proc archive sr
    (two_pass sp gap_row (fun b => extract_trace (b_rows b) (b_hdr b) Mean) c (Z.to_nat k) (c_start c) (c_start c + wlen) None) starts ends before after ->
  (forall x, length (filt x) = length x) -> (forall v m, gap_row (repeat None m) v = repeat None m) -> through_samples sp ->
  3 <= c_steps c -> Nat.even (c_steps c) = false -> length ends = length starts -> length starts <> 1 ->
  (** the correlations, which are not silent in the lapse time window and not like themselves stretched *)
  correlated o method rc K n proc archive t0 s0 a b x0 y0 -> (exists ab, In ab (combine starts ends) /\ (fst ab <= origin + s0 * dt < snd ab)%Z) ->
  (forall t s x y, correlated o method rc K n proc archive t s a b x y -> correlation o k f32 (mkPW t s x y) = r) ->
  (forall lag, (lag == - inject_Z k / sr)%Q -> let h := mkH lag sr (2 * Z.to_nat k + 1) starts ends in let m := filt (scale r) in
     forall u, In u (tested c) ->
       (let z := windowed (c_sides c) h (c_start c) (c_start c + wlen) (Shift.stretched_ref sp (INR (Z.to_nat k)) m u) in dot z z <> 0%R) /\
       (likeness sp (c_sides c) h (c_start c) (c_start c + wlen) (INR (Z.to_nat k)) m m u = Some 1%R -> u = 0%R)) ->
  exists res, after (result_name a b) = Some (mkDV starts ends res) /\ length res = length starts /\
    forall i sd ed, nth_error (combine starts ends) i = Some (sd, ed) ->
      ((exists t s x y, correlated o method rc K n proc archive t s a b x y /\ (sd <= origin + s * dt < ed)%Z) -> nth_error res i = Some (Some 1%R, Some 0%R)) /\
      (~ (exists t s x y, correlated o method rc K n proc archive t s a b x y /\ (sd <= origin + s * dt < ed)%Z) -> nth_error res i = Some (None, None)).
Proof.
  intros o origin dt sr method rc K n proc archive f32 k sp gap_row filt c wlen starts ends before after a b r t0 s0 x0 y0 (RR & _) FL GAP TS S3 OD LN L1 C0 (ab0 & I0 & D0) SAME UN.
  destruct (RR a b) as (ws & lag & (_ & WS) & LAG & AF); [now exists t0, s0, x0, y0|]. set (m := filt (scale r)) in *. set (N := 2 * Z.to_nat k + 1) in *.
  assert (SW : forall w, In w ws -> correlation o k f32 w = r) by (intros [t s x y] W; apply SAME, WS in W || (apply WS in W; exact (SAME _ _ _ _ W))).
  assert (DR : forall ab, date_row o origin dt k f32 filt ws ab = match during origin dt ab ws with [] => repeat None N | _ => map Some m end) by (intros ab; now apply same_dates).
  assert (DU : forall sd ed, during origin dt (sd, ed) ws <> [] <-> exists t s x y, correlated o method rc K n proc archive t s a b x y /\ (sd <= origin + s * dt < ed)%Z).
  { intros sd ed. split.
    - intros D. destruct (during origin dt (sd, ed) ws) as [|w l] eqn:E; [contradiction|]. assert (W : In w (during origin dt (sd, ed) ws)) by (rewrite E; now left). unfold during in W. apply filter_In in W. destruct W as (W & Q). apply WS in W.
      apply andb_true_iff in Q. cbn [fst snd] in Q. rewrite Z.leb_le, Z.ltb_lt in Q. exists (pw_read w), (pw_start w), (pw_first w), (pw_second w). split; [exact W|lia].
    - intros (t & s & x & y & C & Q) E. assert (W : In (mkPW t s x y) (during origin dt (sd, ed) ws)); [|rewrite E in W; contradiction].
      unfold during. apply filter_In. split; [now apply WS|]. apply andb_true_iff. cbn [fst snd pw_start]. rewrite Z.leb_le, Z.ltb_lt. lia. }
  assert (LM : length m = N).
  { unfold m. rewrite FL. rewrite <- (SAME _ _ _ _ C0). apply scaled_length. }
  set (cb := mkB (mkH lag sr N starts ends) (map (date_row o origin dt k f32 filt ws) (combine starts ends))) in *.
  assert (RW : forall row, In row (b_rows cb) -> steady_row N m row).
  { intros row I. cbn [cb b_rows] in I. apply in_map_iff in I. destruct I as (ab & <- & _). rewrite DR. destruct (during origin dt ab ws); [now right|now left]. }
  assert (ON : In (map Some m) (b_rows cb)).
  { cbn [cb b_rows]. apply in_map_iff. exists ab0. split; [|exact I0]. rewrite DR. destruct ab0 as [sd ed]. cbn [fst snd] in D0.
    assert (X : during origin dt (sd, ed) ws <> []) by (apply DU; now exists t0, s0, x0, y0). destruct (during origin dt (sd, ed) ws); [contradiction|reflexivity]. }
  assert (LC : length (combine starts ends) = length starts) by (rewrite combine_length; lia).
  destruct (steady sp gap_row (fun b => extract_trace (b_rows b) (b_hdr b) Mean) c (Z.to_nat k) (c_start c) (c_start c + wlen) m cb) as (res & TP & LR & VA); try assumption.
  - cbn [cb b_rows]. rewrite map_length. lia.
  - intros v. apply GAP.
  - intros bk _ RB OB. cbn [extract_trace]. f_equal. now apply (mean_of_steady N).
  - intros u U. apply (UN lag LAG u U).
  - intros u U. apply (UN lag LAG u U).
  - exists res. rewrite TP in AF. split; [exact AF|]. split; [rewrite LR; cbn [cb b_rows]; rewrite map_length; exact LC|].
    intros i sd ed NI. specialize (VA i (date_row o origin dt k f32 filt ws (sd, ed))). cbn [cb b_rows] in VA. rewrite nth_error_map, NI in VA. specialize (VA eq_refl). rewrite DR in VA.
    split; intros X.
    + apply DU in X. destruct (during origin dt (sd, ed) ws); [contradiction|]. now apply VA.
    + destruct (during origin dt (sd, ed) ws) eqn:E; [now apply VA|]. exfalso. apply X. apply DU. rewrite E. discriminate.
Qed.
Print Assumptions C146_steady.

(** ** an example: UV05 records an impulse and UV06 a ramp in each of two windows of 24 samples; the third date has no data *)
Definition pulse : list Z := [0;0;0;0;0;0;0;0;0;0;0;1;0;0;0;0;0;0;0;0;0;0;0;0]%Z.
Definition ramp : list Z := map (fun i => Z.of_nat (1 + i)) (seq 0 24).
Definition dv_archive : list channel :=
  [mkCh "YA" "UV05" "00" "HHZ" (samples 0 (pulse ++ pulse)%list); mkCh "YA" "UV06" "00" "HHZ" (samples 0 (ramp ++ ramp)%list)].
Definition dv_stations : list (string * string) := [("YA", "UV05"); ("YA", "UV06")].
Definition dv_times : times := mkTimes 0 48 24 23 24 24.
Definition dv_origin : Z := 1420070400000000000.
Definition second : Z := 1000000000.
Definition dv_starts : list Z := map (fun i => dv_origin + i * 24 * second)%Z [0; 1; 2]%Z.
Definition dv_ends : list Z := map (fun i => dv_origin + i * 24 * second)%Z [1; 2; 3]%Z.
Definition whole_part (r : R) : Q := inject_Z (Int_part r).
Definition amplify (x : list R) : list R := map (Rmult 23) x.
Definition dv_ch (i : nat) : channel := nth i dv_archive (mkCh "" "" "" "" (mkT 0 [])).

Lemma dv_conditions : sensible dv_times 2 1 /\ read_inc dv_times = (Z.of_nat 1 * corr_inc dv_times)%Z /\ all_succeed dv_times keep_all (map ch_trace dv_archive) 2 /\
  (1 * 11 == inject_Z 11)%Q /\ Z.even (padded_len (Z.to_nat (corr_len dv_times + 1)) 1 11) = true /\ fine_archive dv_archive /\ stations_of dv_archive dv_stations /\ one_each "betweenStations" /\
  (100000 <= corr_inc dv_times * second)%Z /\
  (forall t s, In (t, s) (DataLoopSpec.schedule dv_times 2 1) -> time_ok (dv_origin + s * second) /\ time_ok (dv_origin + (s + corr_len dv_times) * second)).
Proof.
  split; [unfold sensible, ceil_of; cbn; lia|]. split; [reflexivity|]. split; [intros k c w _ _; now exists (Some w)|]. split; [reflexivity|]. split; [reflexivity|].
  split.
  { split; [|split].
    - intros a [<- | [<- | []]]; repeat split; discriminate.
    - intros a b [<- | [<- | []]] [<- | [<- | []]]; repeat split; try reflexivity; cbn; discriminate.
    - repeat constructor; cbn; intros H; repeat destruct H as [H|H]; try discriminate H; exact H. }
  split.
  { intros p. split.
    - intros [<- | [<- | []]]; [exists (dv_ch 0)|exists (dv_ch 1)]; split; cbn; tauto.
    - intros (a & [<- | [<- | []]] & ->); cbn; tauto. }
  split; [now left|]. split; [cbv; discriminate|].
  intros t s H. cbn in H. repeat destruct H as [H|H]; try contradiction; injection H as <- <-; split; vm_compute; split; congruence.
Qed.

Lemma dv_data t s i c x : In i [0; 1] -> has_data dv_times keep_all dv_archive t s c (dv_ch i) x -> Gaps.slice t 24 (ch_trace (dv_ch i)) = Some x.
Proof.
  intros I (N & (w & (a & NA & SL & _) & PW) & Q). injection PW as <-.
  assert (c = i) as -> by (destruct I as [<- | [<- | []]]; destruct c as [|[|c]]; try reflexivity; try discriminate N; destruct c; discriminate N).
  assert (a = ch_trace (dv_ch i)) as -> by (destruct I as [<- | [<- | []]]; cbn in NA; injection NA as <-; reflexivity). exact SL.
Qed.
Lemma dv_windows t s x y : correlated dv_times "betweenStations" None 2 1 keep_all dv_archive t s (dv_ch 0) (dv_ch 1) x y ->
  (t = 0 \/ t = 24)%Z /\ s = t /\ x = samples t pulse /\ y = samples t ramp.
Proof.
  intros (SC & (c & A) & (e & B) & _). apply dv_data in A; [|cbn; tauto]. apply dv_data in B; [|cbn; tauto].
  cbn in SC. destruct SC as [E|[E|[]]]; injection E as <- <-; cbn in A, B; injection A as <-; injection B as <-; (split; [tauto|]); repeat split.
Qed.
Lemma dv_correlated : correlated dv_times "betweenStations" None 2 1 keep_all dv_archive 0 0 (dv_ch 0) (dv_ch 1) (samples 0 pulse) (samples 0 ramp) /\
  correlated dv_times "betweenStations" None 2 1 keep_all dv_archive 24 24 (dv_ch 0) (dv_ch 1) (samples 24 pulse) (samples 24 ramp).
Proof.
  assert (PR : forall t i x, In i [0; 1] -> Gaps.slice t 24 (ch_trace (dv_ch i)) = Some x -> masked_all (t_data x) = false -> preprocessed dv_times keep_all (map ch_trace dv_archive) i t x).
  { intros t i x I SL ML. exists x. split; [|reflexivity]. exists (ch_trace (dv_ch i)). split; [destruct I as [<- | [<- | []]]; reflexivity|]. split; [exact SL|exact ML]. }
  assert (WN : chosen None "betweenStations" (dv_ch 0) (dv_ch 1)) by (split; [|intros _ l Q; discriminate Q]; left; split; [reflexivity|]; split; [|intros [_ H]; discriminate H]; right; split; [reflexivity|]; left; reflexivity).
  split; (split; [cbn; tauto|]; split; [|split; [|exact WN]]; [exists 0|exists 1]; (split; [reflexivity|]; split; [apply PR; [cbn; tauto|reflexivity..]|])).
  1,2: exists 0%Z; split; [cbn; lia|]; split; [cbn; lia|cbn; discriminate].
  1,2: exists 24%Z; split; [cbn; lia|]; split; [cbn; lia|cbn; discriminate].
Qed.
(** the correlation is 1, 2, .., 23 in both windows *)
Definition dv_corr : list R := map (fun i => IZR (Z.of_nat (1 + i))) (seq 0 23).
Lemma int_part_IZR z : Int_part (IZR z) = z.
Proof. unfold Int_part. rewrite <- (up_tech (IZR z) z); [lia|lra|]. rewrite plus_IZR. lra. Qed.
Lemma dv_same t s x y : correlated dv_times "betweenStations" None 2 1 keep_all dv_archive t s (dv_ch 0) (dv_ch 1) x y -> correlation dv_times 11 whole_part (mkPW t s x y) = dv_corr.
Proof.
  intros C. destruct (dv_windows _ _ _ _ C) as (T & -> & -> & ->). unfold correlation, dv_corr. change (2 * Z.to_nat 11 + 1) with 23. apply map_ext_in. intros i I. apply in_seq in I.
  cbn [pw_read pw_start pw_first pw_second]. unfold whole_part.
  assert (E : lagged_sum dv_times t t (samples t pulse) (samples t ramp) (Z.of_nat i - 11) = IZR (Z.of_nat (1 + i))).
  { do 23 (destruct i as [|i]; [destruct T as [-> | ->]; cbv -[Rplus Rmult IZR]; lra|]). lia. }
  rewrite E, int_part_IZR. unfold Q2R, inject_Z. cbn [Qnum Qden]. lra.
Qed.
Lemma dv_scaled : amplify (scale dv_corr) = ShiftSpec.sampled 23 Props.VelocityChange.ex_f.
Proof.
  assert (M : TimeDomain.rmax (map Rabs dv_corr) = 23%R).
  { assert (A : map Rabs dv_corr = dv_corr) by (unfold dv_corr; rewrite map_map; apply map_ext; intros i; apply Rabs_pos_eq, IZR_le; lia). rewrite A.
    unfold dv_corr. cbn [map seq Nat.add Z.of_nat Pos.of_succ_nat Pos.succ]. unfold TimeDomain.rmax. cbn [fold_left]. repeat match goal with |- context [Rmax (IZR ?a) (IZR ?b)] => rewrite (Rmax_right (IZR a) (IZR b)) by lra end. reflexivity. }
  unfold amplify, scale. rewrite M. unfold dv_corr, ShiftSpec.sampled. rewrite !map_map. apply map_ext. intros i. destruct (Req_EM_T 23 0) as [H|_]; [lra|].
  unfold Props.VelocityChange.ex_f. rewrite <- INR_IZR_INZ, plus_INR. cbn [INR]. field.
Qed.
(** the time axis of the result is that of the example of C104 *)
Lemma dv_windowed lag st en s x : (lag == - inject_Z 11 / 1)%Q -> windowed s (mkH lag 1 23 st en) 0 (0 + 10) x = windowed s Props.VelocityChange.ex_h 0 (0 + 10) x.
Proof.
  intros L. unfold windowed. cbn [h_npts h_lag h_sr Props.VelocityChange.ex_h]. apply map_ext. intros i.
  assert (E : (lag + inject_Z (Z.of_nat i) / 1 == -11 + inject_Z (Z.of_nat i) / 1)%Q) by (rewrite L; reflexivity).
  assert (W : forall u v, (u == v)%Q -> in_window s 0 (0 + 10) u = in_window s 0 (0 + 10) v) by (intros u v H; destruct s; cbn [in_window]; unfold in_lags; now rewrite ?H).
  now rewrite (W _ _ E).
Qed.
Example C146_example : forall (sadd : list cplx -> list cplx -> list cplx) szero cadd czero center sep p flag q,
  (forall x, sadd szero x = x) -> (forall x, sadd x szero = x) -> (forall x, cadd czero x = x) -> (forall x, cadd x czero = x) -> 0 < p -> 0 < q ->
  exists e l,
    run_files dv_times dv_origin second 1 11 false center "betweenStations" None keep_all dv_archive whole_part sadd szero cadd czero false dv_stations [] p sep flag = Some (Ok e) /\
    plist (opened e) (corr_find_filter (FStr "*") (FStr "*") (map fst e)) = Ok l /\
    forall t before, MonitorRunSpec.schedule (shares q l) t ->
      dir (attempts (compute Props.Shift.linear Props.VelocityChange.ex_gap (fun b => extract_trace (b_rows b) (b_hdr b) Mean) amplify (Props.VelocityChange.ex_c Both) 11 (fun _ => None) dv_starts dv_ends e) before t)
        "DV-YA-YA.UV05-UV06.HHZ-HHZ.npz" = Some (mkDV dv_starts dv_ends [(Some 1%R, Some 0%R); (Some 1%R, Some 0%R); (None, None)]).
Proof.
  intros sadd szero cadd czero center sep p flag q S1 S2 C1 C2 P Q. destruct dv_conditions as (SENS & GRID & OKS & KK & EV & FINE & STS & M & DT & TOK).
  destruct (C146_dates sadd szero cadd czero S1 S2 C1 C2 dv_times dv_origin second 1 11 center "betweenStations" None 2 1 keep_all dv_archive dv_stations whole_part 11 sep SENS GRID OKS eq_refl KK ltac:(lia) EV FINE STS M (none_fine _) DT TOK
    [] (at_first _) p flag P) as (e & RE & X).
  destruct (X Props.Shift.linear Props.VelocityChange.ex_gap (fun b => extract_trace (b_rows b) (b_hdr b) Mean) amplify (Props.VelocityChange.ex_c Both) 10%Q dv_starts dv_ends 0%Z 10) as (l & PL & Y); clear X.
  all: try solve [reflexivity | discriminate | cbn; lia | cbn; unfold Qle; cbn; lia].
  - intros x. apply map_length.
  - intros cb NB W r EX. cbn [extract_trace] in EX. injection EX as <-. unfold mean_trace, width. rewrite map_length, seq_length. destruct (b_rows cb) as [|row rows];
    [contradiction|apply W; now left].
  - intros t I. cbn in I. repeat destruct I as [I|I]; try contradiction; now subst t.
  - exists e, l. split; [exact RE|]. split; [exact PL|]. intros t before SC. specialize (Y q t before Q SC).
    destruct dv_correlated as (K1 & K2).
    destruct (C146_steady _ _ _ _ _ _ _ _ _ _ _ _ _ _ _ _ _ _ _ _ _ (dv_ch 0) (dv_ch 1) dv_corr 0%Z 0%Z (samples 0 pulse) (samples 0 ramp) Y) as (res & AF & LR & VA).
    + intros x. apply map_length.
    + reflexivity.
    + exact Props.Shift.linear_through.
    + apply le_n.
    + reflexivity.
    + reflexivity.
    + discriminate.
    + exact K1.
    + exists (nth 0 (combine dv_starts dv_ends) (0, 0)%Z). split; [now left|]. split; [vm_compute; discriminate|reflexivity].
    + exact dv_same.
    + intros lag LAG h m u IU. subst h m. rewrite Props.VelocityChange.ex_tested in IU. rewrite dv_scaled. unfold likeness. cbn [c_start c_sides Props.VelocityChange.ex_c].
      rewrite !dv_windowed by exact LAG. split; [apply Props.VelocityChange.ex_audible|]. intros L. apply Props.VelocityChange.ex_unique; [exact IU|].
      replace (ShiftSpec.sampled 23 (ShiftSpec.stretched (INR 11) 0 Props.VelocityChange.ex_f)) with (ShiftSpec.sampled 23 Props.VelocityChange.ex_f); [exact L|].
      apply map_ext. intros i. unfold stretched. rewrite Ropp_0, exp_0. f_equal. ring.
    + change (result_name (dv_ch 0) (dv_ch 1)) with "DV-YA-YA.UV05-UV06.HHZ-HHZ.npz" in AF. rewrite AF. do 2 f_equal.
      destruct (VA 0 _ _ eq_refl) as (A & _). destruct (VA 1 _ _ eq_refl) as (B & _). destruct (VA 2 _ _ eq_refl) as (_ & N).
      specialize (A ltac:(do 4 eexists; split; [exact K1|split; [vm_compute; discriminate|reflexivity]])). specialize (B ltac:(do 4 eexists; split; [exact K2|split; [vm_compute; discriminate|reflexivity]])).
      assert (N' : nth_error res 2 = Some (None, None)).
      { apply N. intros (t' & s' & x' & y' & C & D). destruct (dv_windows _ _ _ _ C) as ([-> | ->] & -> & _); destruct D as [D _]; vm_compute in D; now apply D. }
      clear -A B N' LR. destruct res as [|r0 [|r1 [|r2 [|r3 res]]]]; try discriminate. cbn in A, B, N'. now injection A as ->; injection B as ->; injection N' as ->.
Qed.
