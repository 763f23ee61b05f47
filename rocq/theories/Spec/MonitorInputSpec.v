(** What the monitoring finds in the directory that a run has filled. *)
From Coq Require Import QArith Reals Sorted.
From Verif Require Import Lib.Base Lib.Str Lib.Time Model.CorrTrace Model.Gaps Model.DataLoop Spec.DataLoopSpec Spec.WindowCorrelationSpec Model.CorrDB Model.Rerun Model.RunToFiles Spec.XCombiSpec Spec.RunToFilesSpec
  Model.MonitorFiles Model.MonitorRun Model.MonitorInput.
From Verif Require Model.CorrStream.
Local Open Scope string_scope.
Local Open Scope Z_scope.

(** a window in which two channels have been correlated: begin of the read, begin of the window, the data of the two channels *)
Record pair_window := mkPW { pw_read : Z; pw_start : Z; pw_first : Gaps.trace R; pw_second : Gaps.trace R }.

Section Monitoring.
  Variables (o : times) (origin dt : Z) (sr : Q) (k : Z) (method : string) (rc : option (list entry)) (K n : nat).
  Variables (proc : Gaps.trace R -> result (option (Gaps.trace R))) (archive : list channel) (f32 : R -> Q).
  Let corr := correlated o method rc K n proc archive.

  (** all windows in which [a] and [b] have been correlated, in the order of time *)
  Definition windows_of (a b : channel) (ws : list pair_window) : Prop :=
    StronglySorted (fun v w => pw_start v < pw_start w) ws /\
    forall w, In w ws <-> corr (pw_read w) (pw_start w) a b (pw_first w) (pw_second w).
  Definition combination (sep : bool) (a b : channel) : item :=
    mkItem (file_name sep a b) (ch_net a ++ "-" ++ ch_net b) (ch_sta a ++ "-" ++ ch_sta b) (ch_cha a ++ "-" ++ ch_cha b).
  (** the matrix with one row per window; times are those of the window without the part below 0.1 ms *)
  Definition matrix_of_windows (a b : channel) (ws : list pair_window) (m : CorrStream.bulk) : Prop :=
    CorrStream.b_net m = (ch_net a ++ "-" ++ ch_net b)%string /\ CorrStream.b_sta m = (ch_sta a ++ "-" ++ ch_sta b)%string /\
    CorrStream.b_cha m = CorrStream.One (ch_cha a ++ "-" ++ ch_cha b)%string /\
    CorrStream.b_sr m = sr /\ (CorrStream.b_lag m == - inject_Z k / sr)%Q /\
    CorrStream.b_npts m = (2 * Z.to_nat k + 1)%nat /\ CorrStream.b_ntrcs m = length ws /\
    CorrStream.b_start m = map (fun w => tick (origin + pw_start w * dt) * 100000) ws /\
    CorrStream.b_end m = map (fun w => tick (origin + (pw_start w + corr_len o) * dt) * 100000) ws /\
    CorrStream.b_data m =
      map (fun w => map (fun i => Some (f32 (lagged_sum o (pw_read w) (pw_start w) (pw_first w) (pw_second w) (Z.of_nat i - k)))) (seq 0 (2 * Z.to_nat k + 1))) ws.

  (** the combinations that have been correlated, each once, with different files for the results, and the matrix of each *)
  Definition all_found (sep : bool) (d : Rerun.dir) : Prop :=
    (exists l, plist (opened d) (corr_find_filter (FStr "*") (FStr "*") (map fst d)) = Ok l /\ NoDup l /\ NoDup (map out_name l) /\
       forall i, In i l <-> exists t s a b x y, corr t s a b x y /\ i = combination sep a b) /\
    forall a b, (exists t s x y, corr t s a b x y) ->
      exists f ws m, opened d (file_name sep a b) = Ok f /\ windows_of a b ws /\ ws <> [] /\
        read_matrix f "subdivision" (ch_net a ++ "-" ++ ch_net b) (ch_sta a ++ "-" ++ ch_sta b) (ch_cha a ++ "-" ++ ch_cha b) = Ok m /\
        matrix_of_windows a b ws m.
End Monitoring.
