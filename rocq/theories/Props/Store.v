(** C110 - C113: the waveform client and its archive over time. *)
From Coq Require Import Sorted.
From Verif Require Import Lib.Base Lib.Time Model.Archive Model.StoreClient Spec.ArchiveSpec Spec.StoreSpec
  Proofs.ArchiveFacts Proofs.StoreFacts Proofs.StoreReadFacts Proofs.StoreGapFacts.
Local Open Scope Z_scope.

(** an archive of hourly samples from 1970-01-01 on *)
Definition ex_h : Z := 3600 * sec.
Definition ex_trace (lo n : nat) : trc := mkT (Z.of_nat lo) (map Z.of_nat (seq lo n)).

(** ** C110 *)
(** Whatever is requested and downloaded, and whichever of the requests fail: what is in the archive stays there, *)
Theorem C110_kept : forall t0 delta buffer d ops n v, 0 < delta <= day -> in_order t0 delta d -> (forall o, In o ops -> sound_op o) ->
  archived d n v -> archived (history t0 delta buffer d ops) n v.
Proof. intros t0 delta buffer d ops n v D I S. apply (history_grows t0 delta buffer D ops S d I). Qed.
Print Assumptions C110_kept.
(** what is added was sent by the server, *)
Theorem C110_origin : forall t0 delta buffer d ops n v, 0 < delta <= day -> in_order t0 delta d -> (forall o, In o ops -> sound_op o) ->
  archived (history t0 delta buffer d ops) n v -> archived d n v \/ exists o, In o ops /\ sends o n v.
Proof. intros t0 delta buffer d ops n v D I S. apply (history_grows t0 delta buffer D ops S d I). Qed.
Print Assumptions C110_origin.
(** and every sample remains in the file of its day. *)
Theorem C110_order : forall t0 delta buffer d ops, 0 < delta <= day -> in_order t0 delta d -> (forall o, In o ops -> sound_op o) ->
  in_order t0 delta (history t0 delta buffer d ops).
Proof. intros t0 delta buffer d ops D I S. apply (history_grows t0 delta buffer D ops S d I). Qed.
Print Assumptions C110_order.
(** Hence reading from the archive finds every sample of the window, *)
Theorem C110_found : forall t0 delta buffer d ops s e n v, 0 < delta <= day -> 0 < buffer -> in_order t0 delta d -> (forall o, In o ops -> sound_op o) ->
  (forall m u u', archived d m u \/ (exists o, In o ops /\ sends o m u) -> archived d m u' \/ (exists o, In o ops /\ sends o m u') -> u = u') ->
  archived (history t0 delta buffer d ops) n v -> s <= stime t0 delta n <= e ->
  In (n, v) (read_samples t0 delta buffer (history t0 delta buffer d ops) s e).
Proof.
  intros t0 delta buffer d ops s e n v D B I S T A W. pose proof (C110_origin t0 delta buffer d ops) as O.
  destruct (read_finds t0 delta buffer D B _ s e n v (C110_order t0 delta buffer d ops D I S) A W) as (v' & R & A').
  rewrite (T n v v'); [exact R| |]; apply O; auto.
Qed.
Print Assumptions C110_found.
(** and nothing else, up to half a sample at the ends. *)
Theorem C110_only : forall t0 delta buffer d ops s e n v, 0 < delta <= day -> in_order t0 delta d -> (forall o, In o ops -> sound_op o) ->
  In (n, v) (read_samples t0 delta buffer (history t0 delta buffer d ops) s e) ->
  archived (history t0 delta buffer d ops) n v /\ 2 * s - delta <= 2 * stime t0 delta n <= 2 * e + delta.
Proof.
  intros t0 delta buffer d ops s e n v D I S. apply (read_only_archived t0 delta buffer D). now apply C110_order.
Qed.
Print Assumptions C110_only.
(** A request for which the server has sent data without gap is answered from the archive from then on, with these data. *)
Theorem C110_repeat : forall t0 delta buffer d tr s e d' r, 0 < delta <= day -> 0 < buffer -> in_order t0 delta d -> (2 <= length (t_vals tr))%nat ->
  stime t0 delta (t_lo tr) - delta <= s -> e <= stime t0 delta (t_lo tr + Z.of_nat (length (t_vals tr)) - 1) + delta ->
  (exists n v, In (n, v) (all_of tr) /\ s <= stime t0 delta n <= e) ->
  (forall n u u', archived d n u \/ In (n, u) (all_of tr) -> archived d n u' \/ In (n, u') (all_of tr) -> u = u') ->
  get_waveforms t0 delta buffer false s e (Some [tr]) d = (d', Ok r) ->
  (exists n v, In (n, v) (concat r) /\ ~ archived d n v) ->
  forall read_only answer, exists st, get_waveforms t0 delta buffer read_only s e answer d' = (d', Ok st) /\
    (forall n v, In (n, v) (all_of tr) -> s <= stime t0 delta n <= e -> In (n, v) (concat st)) /\
    (forall n v, In (n, v) (concat st) -> archived d n v \/ In (n, v) (all_of tr)).
Proof.
  intros t0 delta buffer d tr s e d' r D B I L C1 C2 W T E NEW ro answer.
  assert (N : t_vals tr <> []) by (intros X; rewrite X in L; cbn in L; lia).
  exists (runs (read_samples t0 delta buffer d' s e)).
  split; [exact (repeated t0 delta buffer D B d tr s e d' r I L C1 C2 W E ro answer)|]. rewrite runs_concat.
  unfold get_waveforms in E. cbv zeta in E. destruct (use_local _ _ _ _).
  { exfalso. injection E as <- <-. rewrite runs_concat in NEW. destruct NEW as (n & v & J & K). apply K, (read_only_archived t0 delta buffer D d s e n v I J). }
  cbn [length Nat.eqb negb andb] in E.
  destruct (write_local_grows t0 delta D [tr]) with (d := d) as [(G1 & G2 & G3) K]; [intros x [<-|[]]; exact N|exact I|].
  destruct (write_local t0 delta d [tr]) as [d1 [x|]]; [discriminate|]. injection E as <- _. cbn [fst snd] in *.
  assert (G3' : forall n v, archived d1 n v -> archived d n v \/ In (n, v) (all_of tr)).
  { intros n v A. destruct (G3 n v A) as [H|(x & [<-|[]] & H)]; auto. }
  split.
  - intros n v J V. destruct (read_finds t0 delta buffer D B d1 s e n v G1) as (v' & R & A).
    + apply (K eq_refl tr); auto. now left.
    + exact V.
    + rewrite (T n v v'); [exact R|now right|now apply G3'].
  - intros n v J. apply G3', (read_only_archived t0 delta buffer D d1 s e n v G1 J).
Qed.
Print Assumptions C110_repeat.
(** hourly samples from 22:00 to 04:00: the data come from the server, are stored in the files of two days and are found there *)
Example C110_example :
  let tr := ex_trace 22 7 in let s := 22 * ex_h in let e := 28 * ex_h in
  let d := fst (get_waveforms 0 ex_h (30 * sec) false s e (Some [tr]) []) in
  in_order 0 ex_h [] /\ sound_op (Request false s e (Some [tr])) /\
  d = [((1970, 2), all_of (ex_trace 24 5)); ((1970, 1), all_of (ex_trace 22 3))] /\
  get_waveforms 0 ex_h (30 * sec) true s e None d = (d, Ok [all_of tr]) /\
  get_waveforms 0 ex_h (30 * sec) true s (30 * ex_h) None d = (d, Ok []).
Proof.
  cbv zeta. split; [intros k p F; discriminate|]. split; [intros tr [<-|[]]; discriminate|]. split; [vm_compute; reflexivity|].
  split; vm_compute; reflexivity.
Qed.

(** ** C111 *)
(** On days without a file the traces from the server are written without error and returned, if no two of them are on the same day.
    Missing: several traces of one day, days with a file (false, below). *)
Theorem C111_new_days_partial : forall t0 delta buffer d trs s e, 0 < delta < day -> 0 < buffer -> trs <> [] ->
  Forall (fun tr => t_vals tr <> [] /\ time_ok (stime t0 delta (t_lo tr))) trs ->
  ForallOrdPairs (fun a b => forall n v m u, In (n, v) (all_of a) -> In (m, u) (all_of b) -> file_of (stime t0 delta n) <> file_of (stime t0 delta m)) trs ->
  (forall tr n v, In tr trs -> In (n, v) (all_of tr) -> file d (file_of (stime t0 delta n)) = None) ->
  in_order t0 delta d -> (forall n v, archived d n v -> ~ (2 * s - delta <= 2 * stime t0 delta n <= 2 * e + delta)) ->
  snd (get_waveforms t0 delta buffer false s e (Some trs) d) = Ok (map all_of trs).
Proof.
  intros t0 delta buffer d trs s e D B N G O F I A. apply new_days_several; auto; [lia|lia|]. eapply Forall_impl; [|exact G]. intros tr [X T]. split; [exact X|]. destruct T. lia.
Qed.
Print Assumptions C111_new_days_partial.
Example C111_example :
  snd (get_waveforms 0 ex_h (30 * sec) false 0 (5 * ex_h) (Some [ex_trace 0 6]) [((1970, 3), all_of (ex_trace 48 2))]) = Ok [all_of (ex_trace 0 6)] /\
  snd (get_waveforms 0 ex_h (30 * sec) false 0 (40 * ex_h) (Some [ex_trace 0 6; ex_trace 30 5]) [((1970, 3), all_of (ex_trace 48 2))]) = Ok [all_of (ex_trace 0 6); all_of (ex_trace 30 5)] /\
  ForallOrdPairs (fun a b => forall n v m u, In (n, v) (all_of a) -> In (m, u) (all_of b) -> file_of (stime 0 ex_h n) <> file_of (stime 0 ex_h m)) [ex_trace 0 6; ex_trace 30 5].
Proof.
  split; [vm_compute; reflexivity|]. split; [vm_compute; reflexivity|]. constructor; [|constructor; constructor]. constructor; [|constructor].
  intros n v m u I J. vm_compute in I, J. repeat destruct I as [I|I]; try contradiction; injection I as <- <-;
  repeat destruct J as [J|J]; try contradiction; injection J as <- <-; vm_compute; discriminate.
Qed.
(** If the server sends two traces of one day with a gap between them, the request fails with NotImplementedError, each time it is
    repeated; only the first trace is stored. *)
Theorem C111_gap_refuted : forall t0 delta buffer a b s e, 0 < delta <= day -> 0 < buffer ->
  (2 <= length (t_vals a))%nat -> (2 <= length (t_vals b))%nat -> t_lo a + Z.of_nat (length (t_vals a)) < t_lo b ->
  same_day (stime t0 delta (t_lo a)) (stime t0 delta (t_lo b + Z.of_nat (length (t_vals b)) - 1)) ->
  stime t0 delta (t_lo a + Z.of_nat (length (t_vals a)) - 1) + delta < e ->
  forall k, let d := history t0 delta buffer [] (repeat (Request false s e (Some [a; b])) k) in
    snd (get_waveforms t0 delta buffer false s e (Some [a; b]) d) = Raise NotImplementedError /\
    forall n v, archived d n v -> In (n, v) (all_of a).
Proof.
  intros t0 delta buffer a b s e D B La Lb G S Te k d.
  assert (Hd : d = [] \/ d = [(file_of (stime t0 delta (t_lo a)), all_of a)]).
  { unfold d, history. assert (H : forall k0 x, x = [] \/ x = [(file_of (stime t0 delta (t_lo a)), all_of a)] ->
      fold_left (step t0 delta buffer) (repeat (Request false s e (Some [a; b])) k0) x = [] \/
      fold_left (step t0 delta buffer) (repeat (Request false s e (Some [a; b])) k0) x = [(file_of (stime t0 delta (t_lo a)), all_of a)]).
    { induction k0 as [|k0 IH]; intros x X; [exact X|]. cbn [repeat fold_left step]. apply IH. right.
      now rewrite (gap_request t0 delta buffer D a b s e x false La Lb G S Te X). }
    apply H. now left. }
  clearbody d. rewrite (gap_request t0 delta buffer D a b s e d false La Lb G S Te Hd eq_refl). split; [reflexivity|].
  intros n v (q & p & F & I). destruct Hd as [-> | ->]; [discriminate|]. unfold file in F. cbn [find fst] in F.
  destruct (key_eqb _ q); [|discriminate]. now injection F as <-.
Qed.
Print Assumptions C111_gap_refuted.
Example C111_gap_example :
  let a := ex_trace 2 3 in let b := ex_trace 7 3 in
  t_lo a + Z.of_nat (length (t_vals a)) < t_lo b /\ same_day (stime 0 ex_h 2) (stime 0 ex_h 9) /\
  get_waveforms 0 ex_h (30 * sec) false (2 * ex_h) (9 * ex_h) (Some [a; b]) [] = ([((1970, 1), all_of a)], Raise NotImplementedError) /\
  snd (get_waveforms 0 ex_h (30 * sec) true (2 * ex_h) (9 * ex_h) (Some [a; b]) []) = Ok [all_of a; all_of b].
Proof.
  cbv zeta. split; [reflexivity|]. split; [exists 0; unfold stime, ex_h, day, sec; lia|]. split; vm_compute; reflexivity.
Qed.

(** ** C112 *)
(** A mass download that begins at midnight stores all samples of the server on days that have no file yet. *)
Theorem C112_complete : forall t0 delta data s e d n v, 0 < delta <= day -> ascending data -> is_midnight s -> time_ok s -> in_order t0 delta d ->
  In (n, v) data -> s <= stime t0 delta n < e -> file d (file_of (stime t0 delta n)) = None -> archived (download t0 delta data s e d) n v.
Proof. intros t0 delta data s e d n v D A M T. apply download_complete; auto. destruct T. lia. Qed.
Print Assumptions C112_complete.
(** It changes no file that exists. *)
Theorem C112_unchanged : forall t0 delta data s e d k p, file d k = Some p -> file (download t0 delta data s e d) k = Some p.
Proof. exact download_keeps. Qed.
Print Assumptions C112_unchanged.
(** 60 hours from 1970-01-01 on; the second day is in the archive already *)
Example C112_example :
  download 0 ex_h (all_of (ex_trace 0 60)) 0 (60 * ex_h) [((1970, 2), all_of (ex_trace 30 2))] =
  [((1970, 3), all_of (ex_trace 48 12)); ((1970, 1), all_of (ex_trace 0 25)); ((1970, 2), all_of (ex_trace 30 2))].
Proof. vm_compute. reflexivity. Qed.

(** ** C113 *)
(** What a download that begins at midnight has stored is found by reading.  Missing: other times, days with a file (false, below). *)
Theorem C113_midnight_partial : forall t0 delta buffer data s e d n v s' e', 0 < delta <= day -> 0 < buffer -> ascending data -> is_midnight s -> time_ok s ->
  in_order t0 delta d -> (forall m u u', archived d m u \/ In (m, u) data -> archived d m u' \/ In (m, u') data -> u = u') ->
  In (n, v) data -> s <= stime t0 delta n < e -> file d (file_of (stime t0 delta n)) = None -> s' <= stime t0 delta n <= e' ->
  In (n, v) (read_samples t0 delta buffer (download t0 delta data s e d) s' e').
Proof.
  intros t0 delta buffer data s e d n v s' e' D B A M T I C J W F W'.
  apply (C110_found t0 delta buffer d [Download s e data] s' e' n v D B I); [| |cbn; now apply C112_complete|exact W'].
  - intros o [<-|[]]. split; assumption.
  - intros m u u' [H|(o & [<-|[]] & H)] [H'|(o' & [<-|[]] & H')]; eapply C; eauto.
Qed.
Print Assumptions C113_midnight_partial.
(** A download that begins at noon stores the data of the following morning in the file of the first day, where they are not found. *)
Theorem C113_noon_refuted : exists data s e n v, let d := download 0 ex_h data s e [] in
  archived d n v /\ s <= stime 0 ex_h n <= e /\ forall s' e', s' <= stime 0 ex_h n <= e' -> 24 * ex_h + 501 * sec <= s' ->
  ~ In (n, v) (read_samples 0 ex_h (500 * sec) d s' e').
Proof.
  exists (all_of (ex_trace 0 48)), (12 * ex_h), (36 * ex_h), 26, 26. cbv zeta.
  assert (D : download 0 ex_h (all_of (ex_trace 0 48)) (12 * ex_h) (36 * ex_h) [] = [((1970, 1), all_of (ex_trace 12 25))]) by (vm_compute; reflexivity).
  rewrite D. split; [|split; [unfold stime, ex_h, sec; lia|]].
  - exists (1970, 1), (all_of (ex_trace 12 25)). split; [reflexivity|]. vm_compute. tauto.
  - intros s' e' W L I. apply read_in in I as [_ I]. apply first_value_some in I as (p & I & _). apply in_map_iff in I as (k & F & K).
    unfold file in F. cbn [find fst] in F. destruct (key_eqb_spec (1970, 1) k) as [E1|]; [|discriminate]. rewrite <- E1 in K.
    unfold searched in K. apply in_map_iff in K as (t & E & K). assert (T : 24 * ex_h < t).
    { apply in_app_iff in K as [K|[<-|[]]]; [|unfold stime, ex_h, sec in *; lia]. unfold arange in K. apply in_map_iff in K as (i & <- & _).
      rewrite day_val. unfold ex_h, sec in *. lia. }
    assert (Q : file_of t = file_of 0) by (rewrite E; reflexivity). apply file_of_inj in Q.
    + rewrite day_val in Q. unfold ex_h, sec in *. change (0 / 86400000000000) with 0 in Q. pose proof (Z.div_le_mono 86400000000000 t 86400000000000). 
      change (86400000000000 / 86400000000000) with 1 in H. lia.
    + unfold epoch_day. rewrite day_val. unfold ex_h, sec in *. lia.
    + unfold epoch_day. rewrite day_val. lia.
Qed.
Print Assumptions C113_noon_refuted.
(** A day of which the archive has only a part is never completed. *)
Theorem C113_started_refuted : forall t0 delta data s e d k p n v, file d k = Some p -> ~ archived d n v -> file_of (stime t0 delta n) = k ->
  is_midnight s -> ~ is_midnight (stime t0 delta n) -> time_ok s -> 0 < delta <= day -> ascending data -> in_order t0 delta d ->
  s <= stime t0 delta n ->
  ~ archived (download t0 delta data s e d) n v.
Proof.
  intros t0 delta data s e d k p n v F A K M NM T D AS I L (k' & p' & F' & J).
  destruct (download_grows t0 delta D data s e d AS M I) as (O & _).
  destruct (O k' p' F') as (_ & _ & P). destruct (P n v J) as (t & E & [SD|[MN _]]); [|contradiction].
  assert (KK : k' = k) by (rewrite <- E, <- K; now apply same_day_file). rewrite KK in F'. rewrite (download_keeps t0 delta data s e d k p F) in F'. injection F' as <-.
  apply A. exists k, p. auto.
Qed.
Print Assumptions C113_started_refuted.
Example C113_started_example :
  let d := [((1970, 2), all_of (ex_trace 30 2))] in
  file d (1970, 2) = Some (all_of (ex_trace 30 2)) /\ file_of (stime 0 ex_h 33) = (1970, 2) /\ is_midnight 0 /\ ~ is_midnight (stime 0 ex_h 33) /\
  In (33, 33) (all_of (ex_trace 0 60)).
Proof.
  cbv zeta. split; [reflexivity|]. split; [vm_compute; reflexivity|]. split; [exists 0; reflexivity|]. split; [|vm_compute; tauto].
  intros [q Q]. unfold stime, ex_h, day, sec in Q. lia.
Qed.
