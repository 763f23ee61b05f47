(** One combination in the monitoring: [Monitor.compute_velocity_change] (monitor/monitor.py:162-326) from the correlation file to the
    velocity changes, joined from the models of its parts.  No functions under preprocessing and postprocessing, no plot.
    Samples are reals; rounding is not modelled. *)
From Coq Require Import Reals QArith Qreals.
From Verif Require Import Lib.Base Lib.Str Model.CorrTrace Model.CorrDB Model.Rerun Model.LagMatrix Model.TimeDomain Model.Reference Model.VelocityChange Model.MonitorRun Model.MonitorInput.
From Verif Require Model.CorrStream.
Local Open Scope string_scope.

(** the matrix of read_matrix with real samples *)
Definition to_bulk (m : CorrStream.bulk) : bulk :=
  mkB (mkH (CorrStream.b_lag m) (CorrStream.b_sr m) (CorrStream.b_npts m) (CorrStream.b_start m) (CorrStream.b_end m))
      (map (map (option_map Q2R)) (CorrStream.b_data m)).

(** corr_mat_resample, post_corr_process.py:286-296, as LagMatrix.bin_row *)
Definition bin_reals (width : nat) (starts : list Z) (rows : list (list (option R))) (b : Z * Z) : list (option R) :=
  let found := map snd (filter (fun p => (fst b <=? fst p)%Z && (fst p <? snd b)%Z) (combine starts rows)) in
  match found with
  | [] => repeat None width
  | [row] => row
  | _ => map (fun j => masked_mean (map (fun row => nth j row None) found)) (seq 0 width)
  end.
Definition resample_reals (b : bulk) (starts ends : list Z) : result bulk :=
  let h := b_hdr b in
  do bs <- bins h starts ends;
  Ok (mkB (mkH (h_lag h) (h_sr h) (h_npts h) (map fst bs) (map snd bs)) (map (bin_reals (h_npts h) (h_start h) (b_rows b)) bs)).

Section Measure.
  Variable sp : list R -> R -> R.                                        (** see Model/VelocityChange.v *)
  Variable gap_row : list (option R) -> option R -> list (option R).
  Variable extract : bulk -> result (list (option R)).
  (** corr_mat_filter (post_corr_process.py:188-223) for one row without missing samples: lfilter forwards and backwards *)
  Variable filt : list R -> list R.
  (** A recursive filter passes a missing sample on to all later ones, and on the way back to all. *)
  Definition filter_row (row : list (option R)) : list (option R) :=
    match all_samples row with Some x => map Some (filt x) | None => repeat None (length row) end.

  (** start and end of the dates, and for each date the similarity and the stretch *)
  Record changes := mkDV { d_start : list Z; d_end : list Z; d_res : list (option R * option R) }.

  (** 193-304; [lts]: lengthToSave from the file; [g]: the distance in the header, which is not modelled in the file *)
  Definition compute_velocity_change (c : config) (lts : Q) (g : option geometry) (custom : option (list (option R))) (starts ends : list Z)
      (f : file) (net sta cha : string) : result changes :=
    do st <- get_data f net sta cha "subdivision" None None;
    do w <- window c lts g;
    do m <- read_matrix f "subdivision" net sta cha;
    let b := to_bulk m in
    do rows <- normalize (b_rows b) (b_hdr b) None None Absmax;
    do r <- resample_reals (mkB (b_hdr b) rows) starts ends;
    let cb := mkB (b_hdr r) (map filter_row (b_rows r)) in
    do res <- velocity_change sp gap_row extract c lts g custom cb;
    Ok (mkDV (h_start (b_hdr cb)) (h_end (b_hdr cb)) res).

  (** the same for an entry of the list of combinations, with the directory of the correlations *)
  Definition compute (c : config) (lts : Q) (g : item -> option geometry) (starts ends : list Z) (d : Rerun.dir) (i : item) : outcome changes :=
    match (do f <- opened d (i_file i); compute_velocity_change c lts (g i) None starts ends f (i_net i) (i_sta i) (i_cha i)) with
    | Ok v => Saved v None
    | Raise e => Failed e
    end.
End Measure.
