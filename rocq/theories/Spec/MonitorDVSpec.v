(** What the velocity change of a date is computed from. *)
From Coq Require Import QArith Reals Qreals.
From Verif Require Import Lib.Base Lib.Str Model.CorrTrace Model.Gaps Model.TimeDomain Model.LagMatrix Model.DataLoop Spec.WindowCorrelationSpec Model.RunToFiles Spec.XCombiSpec Spec.RunToFilesSpec Spec.MonitorInputSpec Model.VelocityChange
  Spec.VelocityChangeSpec Model.MonitorDV.
Local Open Scope string_scope.
Local Open Scope R_scope.

Section Dates.
  Variables (o : times) (origin dt : Z) (k : Z) (f32 : R -> Q) (filt : list R -> list R).

  (** the correlation of a window for the lags from -k to k *)
  Definition correlation (w : pair_window) : list R :=
    map (fun i => Q2R (f32 (lagged_sum o (pw_read w) (pw_start w) (pw_first w) (pw_second w) (Z.of_nat i - k)))) (seq 0 (2 * Z.to_nat k + 1)).
  (** divided by its largest amplitude *)
  Definition scale (x : list R) : list R :=
    let a := rmax (map Rabs x) in map (fun v => if Req_EM_T a 0 then v else v / a) x.
  Definition scaled (w : pair_window) : list R := scale (correlation w).
  (** the windows that start between [a] and [b] *)
  Definition during (ab : Z * Z) (ws : list pair_window) : list pair_window :=
    filter (fun w => (fst ab <=? origin + pw_start w * dt)%Z && (origin + pw_start w * dt <? snd ab)%Z) ws.
  (** the average of their scaled correlations, filtered; nothing if there is none *)
  Definition date_row (ws : list pair_window) (ab : Z * Z) : list (option R) :=
    match during ab ws with
    | [] => repeat None (2 * Z.to_nat k + 1)
    | l => map Some (filt (map (fun i => mean (map (fun w => nth i (scaled w) 0) l)) (seq 0 (2 * Z.to_nat k + 1))))
    end.

  (** *** the directory of the results *)
  Variables (method : string) (rc : option (list entry)) (K n : nat) (proc : Gaps.trace R -> result (option (Gaps.trace R))) (archive : list channel) (sr : Q).
  Let corr := correlated o method rc K n proc archive.
  Definition result_name (a b : channel) : string :=
    "DV-" ++ (ch_net a ++ "-" ++ ch_net b) ++ "." ++ (ch_sta a ++ "-" ++ ch_sta b) ++ "." ++ (ch_cha a ++ "-" ++ ch_cha b) ++ ".npz".
  (** every pair of channels that has been correlated has the result of [measure] for the matrix with one row for each date; if the
      measurement fails, the file, if there is one, stays as it was; no other file is touched *)
  Definition right_results (measure : bulk -> result (list (option R * option R))) (starts ends : list Z) (before after : string -> option changes) : Prop :=
    (forall a b, (exists t s x y, corr t s a b x y) ->
       exists ws lag, windows_of o method rc K n proc archive a b ws /\ (lag == - inject_Z k / sr)%Q /\
         after (result_name a b) =
           match measure (mkB (mkH lag sr (2 * Z.to_nat k + 1) starts ends) (map (date_row ws) (combine starts ends))) with
           | Ok res => Some (mkDV starts ends res)
           | Raise _ => before (result_name a b)
           end) /\
    (forall name, (forall a b, (exists t s x y, corr t s a b x y) -> name <> result_name a b) -> after name = before name).
End Dates.
