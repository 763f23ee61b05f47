(** From the windows of a stream to the correlations: the matrix that is correlated (Correlator._pxcorr_inner,
    correlate/correlate.py 358-400, st_to_np_array 781-797, _pxcorr_matrix 644-778), and masked samples
    (trace_mask_at_utc, correlate/preprocessing_stream.py 259-306).
    Simplification: no time or frequency domain functions. *)
From Coq Require Import QArith Qround Qreals Reals.
From Verif Require Import Lib.Base Model.Masking Model.Gaps Model.MpiMatrix Model.Spectral.
Local Open Scope R_scope.

(** one element of a masked array: the mask and the number below it, None: NaN *)
Record cell := mkCell { hidden : bool; below : option R }.
Definition visible (c : cell) : option R := if hidden c then None else below c.
(** samples as obspy leaves them: gaps, from merge or from trim(pad=True), are masked and filled with NaN *)
Definition cell_of (v : option R) : cell := mkCell (negb (is_some v)) v.
(** np.ma.array(tr.data, mask=mask, hard_mask=True, fill_value=0), 304: the masks are joined, the data are kept *)
Definition mask_cells (mask : list bool) (l : list cell) : list cell :=
  map2 (fun m c => mkCell (m || hidden c) (below c)) mask l.
(** mu.get_valid_traces: windows without any valid sample are removed *)
Definition valid_window (l : list cell) : bool := negb (masked_all (map visible l)).

(** A = np.zeros(...); A[ii, :npts] = tr.data, 792-794: numpy copies the data of a masked array and drops the mask.
    np.nan_to_num(A), 667 *)
Definition matrix_row (npts : nat) (l : list cell) : list R :=
  map (fun c => match below c with Some v => v | None => 0 end) l ++ repeat 0 (npts - length l).
(** npts = np.max(npts), 372 *)
Definition max_npts {B} (l : list (list B)) : nat := fold_right Nat.max 0%nat (map (@length B) l).
(** the matrix of the windows of one time *)
Definition matrix_of (ws : list (list cell)) : list (list R) :=
  let ws := filter valid_window ws in map (matrix_row (max_npts ws)) ws.

Section Window.
  (** sums of spectra and of correlations, for Allreduce: see MpiMatrix.v *)
  Variables (sadd : list cplx -> list cplx -> list cplx) (szero : list cplx).
  Variables (cadd : result (list R) -> result (list R) -> result (list R)) (czero : result (list R)).
  (** _pxcorr_inner for the window [win] on [p] processes and the pairs [combis]; start times are sample numbers *)
  Definition correlate_window (normalize center : bool) (sr len : Q) (p : nat) (win : list (nat * trace R)) (combis : list (nat * nat)) : result (list (result (list R))) :=
    let data := map (fun w => map cell_of (t_data (snd w))) win in
    let npts := max_npts data in
    let A := map (matrix_row npts) data in
    let N := Z.to_nat (padded_len npts sr len) in
    let start k := nth k (map (fun w => t_start (snd w)) win) 0%Z in
    pxcorr_matrix sadd szero cadd czero (fun x => rfft (zero_pad N x))
      (fun c B1 B2 => correlate_spectra normalize center N sr len (inject_Z (start (fst c) - start (snd c)) / sr) B1 B2) [] [] p A combis.
End Window.
