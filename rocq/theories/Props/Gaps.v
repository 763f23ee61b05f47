(** Streams with gaps: the parts between gaps keep their times, short gaps, short traces, windows. *)
From Coq Require Import Reals Qreals Lra Lia.
From Verif Require Import Lib.Base Model.Masking Spec.MaskSpec Model.Gaps Spec.GapsSpec Proofs.GapsFacts Proofs.WindowFacts.
Local Open Scope Z_scope.

(** ** C87: parts between gaps are treated one by one and keep their times *)
Theorem C87_filter : forall f t, (forall x, length (f x) = length x) ->
  each_part (fun _ => True) (fun x y => y = f x) (at_pos t) (at_opt (filter_trace f t)).
Proof. exact filter_parts. Qed.
Print Assumptions C87_filter.
Theorem C87_filter_nothing : forall f t, filter_trace f t = None <-> forall p, at_pos t p = None.
Proof. exact filter_none. Qed.
Print Assumptions C87_filter_nothing.
(** gap_handler, for traces of one channel that do not overlap: the traces [l1] are those of the input after joining traces that
    follow each other directly; [l2] are these with their short gaps interpolated; each part of [l2] that is long enough
    is tapered, all others are removed. *)
Theorem C87_gap_handler : forall max retain len n sr l o, (0 < len)%Q -> in_order l -> gap_handler max retain len n sr l = Ok o ->
  exists l1 l2, (separate l1 /\ (forall p, at_stream l1 p = at_stream l p) /\ (forall p, (exists t, In t l1 /\ inside t p) <-> exists t, In t l /\ inside t p)) /\
    Forall2 (interpolated max) l1 l2 /\
    each_part (longer sr retain) (tapered n) (at_stream (map real_trace l2)) (at_opt o).
Proof. exact gap_handler_spec. Qed.
Print Assumptions C87_gap_handler.
(** With the lengths of preprocess_stream (four tapers are retained) each part that is retained is long enough for both tapers. *)
Theorem C87_retained : forall (tl sr : Q) n (x : list R), (0 < sr)%Q -> (inject_Z (Z.of_nat n) <= tl * sr + (1 # 2))%Q -> longer sr (tl * 4) x -> (2 * n <= length x)%nat.
Proof. exact retained_tapers. Qed.
Print Assumptions C87_retained.
Example C87_example :
  let t := mkT 10 [None; Some 1; Some 2; None; Some 3]%R in
  part (at_pos t) 11 [1; 2]%R /\ at_opt (filter_trace (map (fun v => v * 2)%R) t) 12 = Some (2 * 2)%R /\ at_opt (filter_trace (map (fun v => v * 2)%R) t) 13 = None.
Proof.
  cbv zeta. split; [|split; reflexivity]. split; [discriminate|]. split; [|split; reflexivity]. intros k K. cbn in K.
  assert (k = 0 \/ k = 1)%nat as [-> | ->] by lia; reflexivity.
Qed.
Example C87_gap_example :
  let l := [mkT 0 [Some 1; None; Some 3; Some 4]; mkT 4 [Some 5]; mkT 9 [Some 7]]%Q in
  in_order l /\ exists o, gap_handler 1 2 1 1 1 l = Ok (Some o) /\ t_start o = 0 /\ length (t_data o) = 5%nat /\ at_pos o 9 = None /\ at_pos o 2 = Some (Q2R 3 * 1)%R.
Proof. cbv zeta. split; [cbn; lia|]. eexists. split; [reflexivity|]. repeat split. Qed.

(** ** C88: detrending and tapering at gaps keep the times of the samples *)
(** If the first sample of the trace exists. *)
Theorem C88_detrend_partial : forall dt t, (forall x, length (dt x) = length x) -> masked_before t 0 ->
  exists u, detrend_trace dt t = Ok u /\ each_part (fun _ => True) (fun x y => y = dt x) (at_pos t) (at_pos u).
Proof.
  intros dt t L M. destruct (detrend_moves dt t 0 L M) as (u & w & E & [W1 W2] & MV). exists u. split; [assumption|]. assert (X : forall p, at_pos u p = w p) by (intros p; rewrite MV; f_equal; lia). split.
  - intros p N. rewrite X. auto.
  - intros a x P. destruct (W2 a x P) as [H3 H4]. split; [|intros C; now destruct C]. intros K. destruct (H3 K) as (y & Y & LY & V). exists y. repeat split; try assumption. intros. rewrite X. auto.
Qed.
Print Assumptions C88_detrend_partial.
(** Otherwise all samples are moved to earlier times, by the number of samples that are masked before the first one. *)
Theorem C88_detrend_refuted : forall dt t d, (forall x, length (dt x) = length x) -> masked_before t d ->
  exists u w, detrend_trace dt t = Ok u /\ each_part (fun _ => True) (fun x y => y = dt x) (at_pos t) w /\ moved (- d) w (at_pos u).
Proof. exact detrend_moves. Qed.
Print Assumptions C88_detrend_refuted.
Theorem C88_taper_refuted : forall len n t d, (0 < len)%Q -> masked_before t d ->
  exists u w, taper_at_masked len n t = Ok u /\ each_part (fun _ => True) (tapered n) (at_pos t) w /\ moved (- d) w (at_pos u).
Proof. exact masked_taper_moves. Qed.
Print Assumptions C88_taper_refuted.
(** A taper without length is refused. *)
Theorem C88_length : forall len n t, (len <= 0)%Q -> taper_at_masked len n t = Raise ValueError.
Proof. intros len n t H. unfold taper_at_masked. now rewrite (proj2 (Qle_bool_iff _ _) H). Qed.
Print Assumptions C88_length.
(** A trace without samples is an IndexError. *)
Theorem C88_nothing_refuted : forall dt t e, detrend_trace dt t = Raise e <-> e = IndexError /\ forall p, at_pos t p = None.
Proof. exact detrend_fails. Qed.
Print Assumptions C88_nothing_refuted.
Example C88_example : let t := mkT 100 [None; None; Some 5]%R in
  masked_before t 2 /\ detrend_trace (fun x => x) t = Ok (mkT 100 [Some 5]%R) /\ at_pos t 102 = Some 5%R.
Proof.
  cbv zeta. split; [|split; reflexivity]. split; [lia|]. split; [discriminate|]. intros p P. unfold at_pos. cbn [t_start t_data] in *. destruct (Z.ltb_spec p 100); [reflexivity|].
  assert (p = 100 \/ p = 101) as [-> | ->] by lia; reflexivity.
Qed.

(** ** C89: gap_handler interpolates short gaps *)
(** Gaps of masked samples inside of a trace: C42 and C87_gap_handler.  For one trace that is retained: *)
Theorem C89_inside_partial : forall max retain len sr t o s m k a b, (0 < len)%Q -> gap_handler max retain len 0 sr [t] = Ok o ->
  is_gap (t_data t) s m -> short max m -> (0 < s)%nat -> nth_error (t_data t) (s - 1) = Some (Some a) -> nth_error (t_data t) (s + m) = Some (Some b) -> (k < m)%nat ->
  exists d v, interpolate_gaps max (t_data t) = Ok d /\ on_line (s - 1) a (s + m) b (s + k) v /\ nth_error d (s + k) = Some (Some v) /\
    forall c x i, part (at_pos (real_trace (mkT (t_start t) d))) c x -> (i < length x)%nat -> c + Z.of_nat i = t_start t + Z.of_nat (s + k) -> longer sr retain x ->
      at_opt o (t_start t + Z.of_nat (s + k)) = Some (Q2R v).
Proof.
  intros max retain len sr t o s m k a b L G GAP SH S0 A B K.
  unfold gap_handler in G. cbn [joined mapM bind] in G. destruct (interpolate_gaps max (t_data t)) as [d|] eqn:E; cbn [bind] in G; [|discriminate].
  pose proof (MaskFacts.interpolate_gaps_spec _ _ _ E) as (LD & _ & V). destruct (V s m GAP (s + k)%nat ltac:(lia)) as [V1 _]. destruct (V1 SH a b S0 A B) as (v & D & ON).
  exists d, v. repeat split; try assumption. intros c x i P Ii C LG.
  clear - D C P Ii LG G E L.
  assert (EP : each_part (longer sr retain) (tapered 0) (at_pos (real_trace (mkT (t_start t) d))) (at_opt o)).
  { set (t' := real_trace (mkT (t_start t) d)) in *.
    pose proof (each_part_merged (fun x => negb (too_short sr retain (length x))) (taper_run len 0) (t_start t' - 1) (split t') (at_pos t') (taper_run_length len 0) (runs_apart _ _) (split_at t')) as M.
    cbn [map concat t_start t_data] in G. rewrite app_nil_r in G. assert (Ho : o = merge (map (fun r => (fst r, taper_run len 0 (snd r))) (filter (fun r => negb (too_short sr retain (length (snd r)))) (split t')))) by (unfold t', real_trace; cbn [t_start t_data]; congruence).
    cbv beta in M. rewrite <- Ho in M. revert M. apply each_part_impl.
    - intros y. unfold too_short, longer. rewrite negb_true_iff. split; intros H.
      + apply Qnot_le_lt. intros Q. apply Qle_bool_iff in Q. congruence.
      + destruct (Qle_bool _ _) eqn:Q; [|reflexivity]. apply Qle_bool_iff in Q. now apply Qlt_not_le in H.
    - intros y z ->. now apply taper_run_spec. }
  destruct EP as [_ EP]. destruct (EP c x P) as [H _]. destruct (H LG) as (y & [T _] & LY & Y). rewrite (T (or_introl eq_refl)) in Y. specialize (Y i Ii). rewrite C in Y. rewrite Y.
  destruct P as (_ & P & _). specialize (P i Ii). rewrite C in P. rewrite <- P. unfold at_pos, real_trace. cbn [t_start t_data]. destruct (Z.ltb_spec (t_start t + Z.of_nat (s + k)) (t_start t)); [lia|].
  replace (Z.to_nat (t_start t + Z.of_nat (s + k) - t_start t)) with (s + k)%nat by lia. apply nth_error_nth. now rewrite nth_error_map, D.
Qed.
Print Assumptions C89_inside_partial.
(** Gaps between the traces of a stream are never interpolated, however short they are. *)
Theorem C89_between_refuted : forall max retain len n sr l o p, (0 < len)%Q -> in_order l -> gap_handler max retain len n sr l = Ok o ->
  (forall t, In t l -> ~ inside t p) -> at_opt o p = None.
Proof. exact gap_between. Qed.
Print Assumptions C89_between_refuted.
(** the same samples in one trace with a masked sample, and in two traces *)
Example C89_example : 
  (exists o, gap_handler 1 0 1 0 1 [mkT 0 [Some 1; None; Some 3]%Q] = Ok (Some o) /\ length (t_data o) = 3%nat /\ exists v, at_pos o 1 = Some (Q2R v) /\ v == 2) /\
  (exists o, gap_handler 1 0 1 0 1 [mkT 0 [Some 1]; mkT 2 [Some 3]]%Q = Ok (Some o) /\ at_pos o 1 = None).
Proof.
  split; eexists; (split; [reflexivity|]); [|reflexivity]. split; [reflexivity|]. eexists. split; [reflexivity|]. vm_compute. reflexivity.
Qed.

(** ** C90: short traces and traces without data are removed, and only these *)
Theorem C90_short : forall T (npts : T -> nat) (sr : T -> Q) (same : T -> T -> bool) len l, same_shape npts sr same ->
  discard_traces same (fun t => too_short (sr t) len (npts t)) l = filter (fun t => negb (Qle_bool (inject_Z (Z.of_nat (npts t)) / sr t) len)) l.
Proof. intros T npts sr same len l [R S]. apply discard_filter; [assumption|]. intros x y E. destruct (S x y E) as [-> ->]. auto. Qed.
Print Assumptions C90_short.
Theorem C90_valid : forall T (samples_of : T -> list (option R)) (same : T -> T -> bool) l, (forall x, same x x = true) -> (forall x y, same y x = true -> masked_all (samples_of x) = true -> masked_all (samples_of y) = true) ->
  forall t, In t (discard_traces same (fun t => masked_all (samples_of t)) l) <-> In t l /\ exists v, In (Some v) (samples_of t).
Proof.
  intros T sa same l R S t. rewrite (discard_filter _ _ _ R S), filter_In. unfold masked_all. split.
  - intros [I H]. split; [assumption|]. induction (sa t) as [|[v|] r IH]; [discriminate|exists v; now left|]. destruct IH as [v V]; [exact H|]. exists v. now right.
  - intros [I [v V]]. split; [assumption|]. apply negb_true_iff, not_true_iff_false. intros F. rewrite forallb_forall in F. specialize (F _ V). discriminate.
Qed.
Print Assumptions C90_valid.
Example C90_example : discard_traces Nat.eqb (fun n => too_short 1 3 n) [2; 5; 3; 4; 2; 2; 9]%nat = [5; 4; 9]%nat.
Proof. reflexivity. Qed.

(** ** C91: windows *)
(** For traces that start at the same time: the windows start every [inc] samples from there on, before the last sample of
    all traces; each holds exactly the traces with a sample in it, padded to [len] samples. *)
Theorem C91_windows_partial : forall (A : Type) ri len inc (st : list (trace A)) s0 e, st <> [] -> (forall t, In t st -> t_start t = s0) -> ends_at st e -> 0 < len -> 0 < inc ->
  let ws := generate_corr_inc ri len inc st in
  Z.of_nat (length ws) = Z.max 0 (- ((- (e - s0)) / inc)) /\
  forall i s traces, nth_error ws i = Some (s, traces) ->
    s = Some (s0 + Z.of_nat i * inc) /\ NoDup (map fst traces) /\
    forall j w, In (j, w) traces <-> exists t, nth_error st j = Some t /\ is_window (s0 + Z.of_nat i * inc) len t w /\ has_data (s0 + Z.of_nat i * inc) len t.
Proof. exact @windows_spec. Qed.
Print Assumptions C91_windows_partial.
Theorem C91_cover_partial : forall (A : Type) ri len inc (st : list (trace A)) s0 e j t p, (forall t, In t st -> t_start t = s0) -> ends_at st e -> 0 < inc <= len ->
  nth_error st j = Some t -> at_pos t p <> None -> p < e ->
  exists i traces w, nth_error (generate_corr_inc ri len inc st) i = Some (Some (s0 + Z.of_nat i * inc), traces) /\ In (j, w) traces /\ at_pos w p = at_pos t p.
Proof. exact @windows_cover. Qed.
Print Assumptions C91_cover_partial.
(** A process without data goes through as many windows as [read_inc], all without start and traces. *)
Theorem C91_no_data : forall (A : Type) ri len inc, length (generate_corr_inc ri len inc (@nil (trace A))) = ri /\
  forall w, In w (generate_corr_inc ri len inc (@nil (trace A))) -> w = (None, []).
Proof. intros A ri len inc. cbn. split; [apply repeat_length|]. intros w I. now apply repeat_spec in I. Qed.
Print Assumptions C91_no_data.
(** The last sample may be in no window. *)
Theorem C91_last_refuted : exists (st : list (trace nat)) t, In t st /\ at_pos t 4 <> None /\
  forall s traces, In (s, traces) (generate_corr_inc 2 2 2 st) -> forall j w, In (j, w) traces -> at_pos w 4 = None.
Proof.
  exists [mkT 0 [Some 1; Some 2; Some 3; Some 4; Some 5]%nat], (mkT 0 [Some 1; Some 2; Some 3; Some 4; Some 5]%nat). split; [now left|]. split; [discriminate|].
  intros s traces I j w J. vm_compute in I. destruct I as [I|[I|[]]]; injection I as <- <-; destruct J as [J|[]]; injection J as <- <-; reflexivity.
Qed.
Print Assumptions C91_last_refuted.
(** Traces that start at different times: windows are cut relative to the earliest trace and then trimmed relative to the first
    trace of the stream.  All samples may be lost. *)
Theorem C91_start_refuted : exists st : list (trace nat), length st = 2%nat /\ (forall t, In t st -> (10 <= length (t_data t))%nat /\ ~ In None (t_data t)) /\
  forall s traces, In (s, traces) (generate_corr_inc 3 5 5 st) -> traces = [].
Proof.
  exists [mkT 5 (map Some (seq 0 10)); mkT 0 (map Some (seq 0 10))]. split; [reflexivity|]. split.
  - intros t I. assert (t_data t = map Some (seq 0 10)) as -> by (destruct I as [<-|[<-|[]]]; reflexivity). split; [cbn; lia|]. intros C. apply in_map_iff in C. destruct C as (x & C & _). discriminate.
  - intros s traces I. vm_compute in I. repeat (destruct I as [I|I]; [injection I as <- <-; reflexivity|]). contradiction.
Qed.
Print Assumptions C91_start_refuted.
(** A gap longer than a window: windows without data are skipped but not counted, and the samples after the gap are lost. *)
Theorem C91_gap_refuted : exists st : list (trace nat), (forall t, In t st -> t_data t = [Some 1; Some 2; Some 3; Some 4; Some 5]%nat) /\ In (mkT 15 [Some 1; Some 2; Some 3; Some 4; Some 5]%nat) st /\
  forall s traces, In (s, traces) (generate_corr_inc 4 5 5 st) -> forall j w, In (j, w) traces -> j = 0%nat.
Proof.
  exists [mkT 0 [Some 1; Some 2; Some 3; Some 4; Some 5]%nat; mkT 15 [Some 1; Some 2; Some 3; Some 4; Some 5]%nat]. split; [|split; [right; now left|]].
  - intros t [<-|[<-|[]]]; reflexivity.
  - intros s traces I j w J. vm_compute in I. destruct I as [I|[I|[]]]; injection I as <- <-; [|contradiction]. destruct J as [J|[]]. congruence.
Qed.
Print Assumptions C91_gap_refuted.
(** The number of windows of a process depends on its data: a process without data goes through [ri] windows, one whose data end early through fewer. *)
Theorem C91_count_refuted : exists ri len inc (st : list (trace nat)), st <> [] /\ length (generate_corr_inc ri len inc (@nil (trace nat))) <> length (generate_corr_inc ri len inc st).
Proof. exists 4%nat, 5, 5, [mkT 0 (map Some (seq 0 10))]. split; [discriminate|]. vm_compute. discriminate. Qed.
Print Assumptions C91_count_refuted.
Example C91_example : let st := [mkT 7 [Some 1; Some 2; Some 3; Some 4; Some 5]; mkT 7 [None; None; None; Some 9]]%nat in
  ends_at st 11 /\ generate_corr_inc 2 3 2 st =
    [(Some 7%Z, [(0, mkT 7 [Some 1; Some 2; Some 3])]); (Some 9%Z, [(0, mkT 9 [Some 3; Some 4; Some 5]); (1, mkT 9 [None; Some 9; None])])]%nat.
Proof.
  cbv zeta. split; [|reflexivity]. split; [eexists; split; [now left|reflexivity]|]. intros t [<-|[<-|[]]]; vm_compute; discriminate.
Qed.
