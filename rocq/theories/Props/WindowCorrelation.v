(** Masked samples in the matrix that is correlated, and the correlations of a whole run. *)
From Coq Require Import QArith Qfield Qround Qreals Reals Lra Lia.
From Verif Require Import Lib.Base Model.Masking Model.Gaps Model.MpiMatrix Model.Spectral Model.DataLoop Spec.DataLoopSpec Proofs.DataLoopFacts Proofs.SpectralFacts
  Model.WindowCorrelation Spec.SpectralSpec Spec.WindowCorrelationSpec Props.Correlation Proofs.WindowCorrelationFacts.
Local Open Scope R_scope.

(** ** C133: samples that are masked do not enter the correlations *)
(** Gaps that obspy fills count as 0.  Missing: samples masked by stream_mask_at_utc. *)
Theorem C133_gaps_partial : forall npts (l : list (option R)) i, (length l <= npts)%nat -> (i < npts)%nat ->
  length (matrix_row npts (map cell_of l)) = npts /\
  nth i (matrix_row npts (map cell_of l)) 0 = match nth i l None with Some v => v | None => 0 end.
Proof.
  intros npts l i L I. unfold matrix_row. rewrite map_map, map_length. cbn [below cell_of]. split; [rewrite app_length, map_length, repeat_length; lia|].
  destruct (Nat.lt_ge_cases i (length l)) as [H|H].
  - rewrite app_nth1 by now rewrite map_length. change 0 with ((fun v : option R => match v with Some v => v | None => 0 end) None) at 2. rewrite map_nth. reflexivity.
  - rewrite app_nth2, map_length, nth_repeat by now rewrite map_length. now rewrite (nth_overflow l) by lia.
Qed.
Print Assumptions C133_gaps_partial.
Example C133_gaps_example : matrix_row 5 (map cell_of [Some 1; None; Some 3; None]) = [1; 0; 3; 0; 0].
Proof. reflexivity. Qed.
(** Every row of the matrix comes from a window with a sample that is not masked. *)
Theorem C133_windows_partial : forall ws, exists npts, matrix_of ws = map (matrix_row npts) (filter valid_window ws) /\
  forall l, In l (filter valid_window ws) <-> In l ws /\ exists c, In c l /\ visible c <> None.
Proof.
  intros ws. eexists. split; [reflexivity|]. intros l. rewrite filter_In. apply and_iff_compat_l. unfold valid_window, masked_all. rewrite Bool.negb_true_iff.
  induction l as [|c l IH]; [split; [discriminate|intros (c & [] & _)]|]. cbn [map forallb]. destruct (visible c) as [v|] eqn:V; cbn [is_some negb andb].
  - split; [intros _|reflexivity]. exists c. split; [now left|congruence].
  - rewrite IH. split; intros (d & I & D); exists d; (split; [|assumption]); [now right|]. destruct I as [<-|I]; [congruence|assumption].
Qed.
Print Assumptions C133_windows_partial.
(** Masking changes nothing: the row of a masked window is the row of the window before, whatever intervals are masked. *)
Theorem C133_mask_ignored_refuted : forall start delta ints rv npts (l : list cell),
  matrix_row npts (mask_cells (mask_at start delta (length l) ints rv) l) = matrix_row npts l.
Proof. intros. apply row_below, mask_cells_below, mask_at_length. Qed.
Print Assumptions C133_mask_ignored_refuted.
(** A sample that is masked, inside of a window that is not masked altogether, and that has its old value in the matrix. *)
Theorem C133_masked_used_refuted : exists start delta ints (l : list (option R)) i, let m := mask_cells (mask_at start delta (length l) ints false) (map cell_of l) in
  valid_window m = true /\ nth i (map visible m) (Some 0) = None /\ exists row, matrix_of [m] = [row] /\ nth i row 0 = 7.
Proof.
  exists 0%Z, 10%Z, [(20, 40)%Z], [Some 1; Some 2; Some 3; Some 7; Some 5; Some 6], 3%nat. split; [reflexivity|]. split; [reflexivity|].
  exists [1; 2; 3; 7; 5; 6]. split; reflexivity.
Qed.
Print Assumptions C133_masked_used_refuted.

(** Masks add up: after masking, exactly the samples that were masked before or are masked now are hidden.  Missing: that the hidden
    samples are not used, see above. *)
Theorem C133_masks_partial : forall mask (l : list cell), length mask = length l ->
  length (mask_cells mask l) = length l /\
  forall i, (i < length l)%nat -> (visible (nth i (mask_cells mask l) (cell_of None)) = None <-> nth i mask false = true \/ visible (nth i l (cell_of None)) = None).
Proof.
  intros mask l. revert mask. induction l as [|c l IH]; intros [|m mask] L; try discriminate; [split; [reflexivity|cbn; lia]|]. injection L as L. destruct (IH mask L) as [A B].
  unfold mask_cells in *. cbn [map2 length]. split; [now rewrite A|]. intros [|i] I; cbn [nth]; [|apply B; cbn in I; lia].
  unfold visible. cbn [hidden below]. destruct m, (hidden c); cbn [orb]; split; intros H; tauto || (now left) || (now right) || (destruct H as [H|H]; [discriminate|exact H]).
Qed.
Print Assumptions C133_masks_partial.
Example C133_masks_example : map visible (mask_cells [false; false; true; false] [mkCell true (Some 7); mkCell false (Some 1); mkCell false (Some 2); cell_of None]) = [None; Some 1; None; None].
Proof. reflexivity. Qed.

(** ** C134: a correlation of a run is the sum of the products of the two channels' samples in the window *)
(** From the archive to the correlations: preprocessing of whole reads, no channel fails, no time or frequency domain functions and no
    normalisation, any number of processes [p].  Missing: odd padded lengths and lengthToSave that is not a whole number of samples, see C46. *)
Theorem C134_lagged_sum_partial : forall (sadd : list cplx -> list cplx -> list cplx) szero cadd czero,
  (forall x, sadd szero x = x) -> (forall x, sadd x szero = x) -> (forall x, cadd czero x = x) -> (forall x, cadd x czero = x) ->
  forall (o : times) K n proc archive p r center sr len k,
  sensible o K n -> all_succeed o proc archive K -> (r < p)%nat ->
  (0 < sr)%Q -> (sr * len == inject_Z k)%Q -> (1 <= k)%Z -> Z.even (padded_len (Z.to_nat (corr_len o + 1)) sr len) = true ->
  exists ws, correlation_windows o proc archive false p r = Some ws /\
  Forall2 (fun ts sw => forall combis, Forall (fun c => (fst c < length (snd sw))%nat /\ (snd c < length (snd sw))%nat) combis ->
    exists rows, correlate_window sadd szero cadd czero false center sr len p (snd sw) combis = Ok rows /\
      Forall2 (fun c r => exists row, r = Ok row /\ length row = (2 * Z.to_nat k + 1)%nat /\
        forall x y, preprocessed o proc archive (nth (fst c) (map fst (snd sw)) 0%nat) (fst ts) x ->
                    preprocessed o proc archive (nth (snd c) (map fst (snd sw)) 0%nat) (fst ts) y ->
          forall i, (i < 2 * Z.to_nat k + 1)%nat -> nth i row 0 = lagged_sum o (fst ts) (snd ts) x y (Z.of_nat i - k)) combis rows)
    (schedule o K n) ws.
Proof.
  intros sadd szero cadd czero S1 S2 C1 C2 o K n proc archive p r center sr len k S H RP SR SK K1 EV.
  destruct (windows_right o K n proc archive S H p r RP) as (ws & W & F). exists ws. split; [exact W|]. clear W.
  induction F as [|[t s] [s' win] ts ws' RW F IH]; constructor; [|exact IH]. intros combis FC. cbn [fst snd] in *.
  pose proof RW as (-> & _). apply (window_lagged sadd szero cadd czero S1 S2 C1 C2 o proc archive t s win); try assumption; [apply S|lia].
Qed.
Print Assumptions C134_lagged_sum_partial.
(** two channels, the second one with a late start; the second window of the first read *)
Definition real_archive : list (trace R) := [mkT 0 (map Some [0; 1; 2; 3; 4; 5; 6; 7; 8; 9; 10; 11; 12; 13; 14; 15; 16; 17; 18; 19]); mkT 7 (map Some [107; 108; 109; 110; 111; 112; 113; 114])].
Definition keep_real (w : trace R) : result (option (trace R)) := Ok (Some w).
Example C134_example : sensible (mkTimes 0 20 10 9 5 5) 2 2 /\ all_succeed (mkTimes 0 20 10 9 5 5) keep_real real_archive 2 /\
  (0 < 1)%Q /\ (1 * 2 == inject_Z 2)%Q /\ Z.even (padded_len (Z.to_nat (5 + 1)) 1 2) = true /\
  nth 1 (schedule (mkTimes 0 20 10 9 5 5) 2 2) (0, 0)%Z = (0, 5)%Z /\
  (exists x y, preprocessed (mkTimes 0 20 10 9 5 5) keep_real real_archive 0 0 x /\ preprocessed (mkTimes 0 20 10 9 5 5) keep_real real_archive 1 0 y /\
     lagged_sum (mkTimes 0 20 10 9 5 5) 0 5 x y 0 = 7 * 107 + 8 * 108 + 9 * 109 /\ lagged_sum (mkTimes 0 20 10 9 5 5) 0 5 x y 1 = 6 * 107 + 7 * 108 + 8 * 109).
Proof.
  split; [unfold sensible, ceil_of; cbn; lia|]. split; [intros k c w _ _; now exists (Some w)|]. split; [reflexivity|]. split; [reflexivity|]. split; [reflexivity|]. split; [reflexivity|].
  exists (mkT 0 (map Some [0; 1; 2; 3; 4; 5; 6; 7; 8; 9])), (mkT 7 (map Some [107; 108; 109])). split.
  { exists (mkT 0 (map Some [0; 1; 2; 3; 4; 5; 6; 7; 8; 9])). split; [|reflexivity]. exists (mkT 0 (map Some [0; 1; 2; 3; 4; 5; 6; 7; 8; 9; 10; 11; 12; 13; 14; 15; 16; 17; 18; 19])). repeat split. }
  split.
  { exists (mkT 7 (map Some [107; 108; 109])). split; [|reflexivity]. exists (mkT 7 (map Some [107; 108; 109; 110; 111; 112; 113; 114])). repeat split. }
  split; cbv -[Rplus Rmult IZR]; lra.
Qed.
(** Windows that do not start at the same time are put into place when the correlation is centred: a value still is the sum of the
    products of samples with the right distance in time. *)
Theorem C134_starts_partial : forall (sadd : list cplx -> list cplx -> list cplx) szero cadd czero,
  (forall x, sadd szero x = x) -> (forall x, sadd x szero = x) -> (forall x, cadd czero x = x) -> (forall x, cadd x czero = x) ->
  forall p c1 c2 (w1 w2 : trace R) n sr len k,
  (0 < p)%nat -> (1 <= n)%nat -> length (t_data w1) = n -> length (t_data w2) = n ->
  (0 < sr)%Q -> (sr * len == inject_Z k)%Q -> (1 <= k)%Z -> Z.even (padded_len n sr len) = true ->
  (Z.of_nat n + k + Z.abs (t_start w1 - t_start w2) <= padded_len n sr len)%Z ->
  let value w q := match at_pos w q with Some v => v | None => 0 end in
  exists row, correlate_window sadd szero cadd czero false true sr len p [(c1, w1); (c2, w2)] [(0, 1)]%nat = Ok [Ok row] /\ length row = (2 * Z.to_nat k + 1)%nat /\
    forall i, (i < 2 * Z.to_nat k + 1)%nat ->
      nth i row 0 = rsum n (fun j => let q := (t_start w1 + Z.of_nat j)%Z in value w1 q * value w2 (q + (Z.of_nat i - k))%Z).
Proof.
  intros sadd szero cadd czero S1 S2 C1 C2 p c1 c2 w1 w2 n sr len k P N1 L1 L2 SR K K1 EV ROOM value.
  assert (Z1 : length (zeroed w1) = n) by (unfold zeroed; now rewrite map_length). assert (Z2 : length (zeroed w2) = n) by (unfold zeroed; now rewrite map_length).
  unfold correlate_window. cbn [map snd]. assert (MX : max_npts [map cell_of (t_data w1); map cell_of (t_data w2)] = n) by (unfold max_npts; cbn [map fold_right]; rewrite !map_length; lia).
  rewrite MX, !row_full by assumption. fold (zeroed w1) (zeroed w2).
  rewrite (C46_parallel sadd szero cadd czero S1 S2 C1 C2 false true sr len (fun c => (inject_Z (nth (fst c) [t_start w1; t_start w2] 0%Z - nth (snd c) [t_start w1; t_start w2] 0%Z) / sr)%Q) p n); [|exact P|now repeat constructor|repeat constructor].
  cbn [map nth fst snd]. set (m := (t_start w1 - t_start w2)%Z) in *.
  destruct (padded_enough n sr len k K ltac:(lia)) as [B SK].
  assert (SN : ~ (sr == 0)%Q) by (intros X; rewrite X in SR; now apply Qlt_irrefl in SR).
  destruct (correlate_traces_ok false true sr len (inject_Z m / sr) m (zeroed w1) (zeroed w2)) as (row & E & LR & V).
  - now rewrite Z1.
  - now rewrite Z1, Z2.
  - rewrite SK. lia.
  - now rewrite Z1.
  - rewrite Z1, SK. lia.
  - apply remaining_center. now field.
  - exists row. rewrite E. split; [reflexivity|]. rewrite SK in LR, V. split; [exact LR|]. intros i I. rewrite V by exact I. unfold Rdiv. rewrite Rinv_1, Rmult_1_r. unfold plain. rewrite Z1.
    assert (SA : forall w j, length (t_data w) = n -> sample (zeroed w) j = value w (t_start w + j)%Z).
    { intros w j LW. unfold value, sample, zeroed, at_pos. destruct (Z.leb_spec 0 j); destruct (Z.ltb_spec (t_start w + j) (t_start w)); try lia; [|reflexivity].
      replace (t_start w + j - t_start w)%Z with j by lia. set (f := fun v : option R => match v with Some v => v | None => 0 end). change 0 with (f None). rewrite map_nth. reflexivity. }
    apply rsum_ext. intros j J. cbv zeta. rewrite !SA by assumption. do 2 f_equal. unfold m. lia.
Qed.
Print Assumptions C134_starts_partial.
(** the second window starts one sample later *)
Example C134_starts_example : forall (sadd : list cplx -> list cplx -> list cplx) szero cadd czero,
  (forall x, sadd szero x = x) -> (forall x, sadd x szero = x) -> (forall x, cadd czero x = x) -> (forall x, cadd x czero = x) ->
  exists row, correlate_window sadd szero cadd czero false true 1 2 1 [(0%nat, mkT 0 (map Some [0; 0; 3; 0; 0])); (1%nat, mkT 1 (map Some [0; 5; 0; 0; 0]))] [(0, 1)]%nat = Ok [Ok row] /\
    nth 2 row 0 = 15 /\ nth 1 row 0 = 0.
Proof.
  intros sadd szero cadd czero S1 S2 C1 C2.
  destruct (C134_starts_partial sadd szero cadd czero S1 S2 C1 C2 1 0 1 (mkT 0 (map Some [0; 0; 3; 0; 0])) (mkT 1 (map Some [0; 5; 0; 0; 0])) 5 1 2 2) as (row & E & _ & V).
  1-2: lia. 1-4: reflexivity. 1: lia. 1: reflexivity. 1: vm_compute; discriminate.
  exists row. split; [exact E|]. rewrite !V by (cbn; lia). split; cbv -[Rplus Rmult IZR]; lra.
Qed.
(** With an odd padded length (see C46) the correlation of a run is not the lagged sum. *)
Theorem C134_odd_refuted : forall (sadd : list cplx -> list cplx -> list cplx) szero cadd czero,
  (forall x, sadd szero x = x) -> (forall x, sadd x szero = x) -> (forall x, cadd czero x = x) -> (forall x, cadd x czero = x) ->
  let o := mkTimes 0 2 2 1 2 2 in
  exists archive x y win row, sensible o 1 1 /\ all_succeed o keep_real archive 1 /\ correlation_windows o keep_real archive false 1 0 = Some [(0%Z, win)] /\
    map fst win = [0; 1]%nat /\ preprocessed o keep_real archive 0 0 x /\ preprocessed o keep_real archive 1 0 y /\ padded_len (Z.to_nat (corr_len o + 1)) 1 2 = 5%Z /\
    correlate_window sadd szero cadd czero false false 1 2 1 win [(0, 1)]%nat = Ok [Ok row] /\ nth 3 row 0 <> lagged_sum o 0 0 x y (3 - 2).
Proof.
  intros sadd szero cadd czero S1 S2 C1 C2 o. destruct odd_row as (row & E & N).
  exists [mkT 0 (map Some [1; 0]); mkT 0 (map Some [0; 1])], (mkT 0 (map Some [1; 0])), (mkT 0 (map Some [0; 1])),
    [(0%nat, mkT 0 [Some 1; Some 0; None]); (1%nat, mkT 0 [Some 0; Some 1; None])], row.
  split; [unfold sensible, ceil_of; cbn; lia|]. split; [intros k c w _ _; now exists (Some w)|]. split; [reflexivity|]. split; [reflexivity|].
  split; [exists (mkT 0 (map Some [1; 0])); split; [|reflexivity]; exists (mkT 0 (map Some [1; 0])); repeat split|].
  split; [exists (mkT 0 (map Some [0; 1])); split; [|reflexivity]; exists (mkT 0 (map Some [0; 1])); repeat split|].
  split; [reflexivity|]. split.
  - unfold correlate_window. cbn [map snd t_data t_start].
    rewrite (C46_parallel sadd szero cadd czero S1 S2 C1 C2 false false 1 2 (fun c => (inject_Z (nth (fst c) [0; 0]%Z 0%Z - nth (snd c) [0; 0]%Z 0%Z) / 1)%Q) 1 3); [|lia|now repeat constructor|repeat constructor].
    change (Ok [correlate_traces false false 1 2 0 [1; 0; 0] [0; 1; 0]] = Ok [Ok row]). now rewrite E.
  - replace (lagged_sum o 0 0 (mkT 0 (map Some [1; 0])) (mkT 0 (map Some [0; 1])) (3 - 2)) with (plain [1; 0; 0] [0; 1; 0] (3 - 2)); [exact N|].
    cbv -[Rplus Rmult IZR]. ring.
Qed.
Print Assumptions C134_odd_refuted.
