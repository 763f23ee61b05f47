(** Amplitudes of correlation matrices: clipping, tapering, envelopes and the correction of their decay
    (monitor/post_corr_process.py 33-57, 307-375, 502-530; called by CorrBulk.clip, correct_decay, envelope and taper,
    correlate/stream.py 139-189, 263-279, 683-696), in exact real arithmetic.  A sample is a real number or NaN ([None]). *)
From Coq Require Import Reals QArith Qround Qreals.
From Verif Require Import Lib.Base Model.Spectral Model.TimeDomain Model.CorrStream Model.LagMatrix.
Local Open Scope R_scope.

Notation val := (option R).
Notation rmatrix := (list (list (option R))).
(** the samples of a row without NaN *)
Fixpoint complete (row : list val) : option (list R) :=
  match row with
  | [] => Some []
  | Some x :: r => option_map (cons x) (complete r)
  | None :: _ => None
  end.

(** ** corr_mat_clip, 33-57 *)
(** np.std: NaN if there is a NaN or no sample at all *)
Definition nstd (xs : list val) : val := match complete xs with Some (x :: r) => Some (std (x :: r)) | _ => None end.
(** np.clip(x, -c, c) = minimum(maximum(x, -c), c); NaN in a bound or in x gives NaN *)
Definition clip1 (c x : val) : val := match c, x with Some c, Some x => Some (Rmin (Rmax x (- c)) c) | _, _ => None end.
(** axis=0, axis=1, axis=None (the other values numpy takes, -1 and -2, are not modelled) *)
Inductive axis := Columns | Rows | Whole.
Definition column (A : rmatrix) (j : nat) : list val := map (fun row => nth j row None) A.
Definition clip (thres : R) (ax : axis) (A : rmatrix) : rmatrix :=
  let bound xs := option_map (Rmult thres) (nstd xs) in
  match ax with
  | Rows => map (fun row => map (clip1 (bound row)) row) A
  | Columns => map (fun row => map (fun j => clip1 (bound (column A j)) (nth j row None)) (seq 0 (length row))) A
  | Whole => map (map (clip1 (bound (concat A)))) A
  end.

(** ** corr_mat_taper, 502-530 *)
(** obspy's cosine_taper(npts, p): number of samples of one flank *)
Definition flank (npts : nat) (p : Q) : Z :=
  let n := inject_Z (Z.of_nat npts) in
  if Qeq_bool p 0 || Qeq_bool p 1 then Qfloor (n * p / 2) else Qfloor (n * p / 2 + (1 # 2)).
(** its weight of sample i: cos_win[idx1:idx2+1], then cos_win[idx2+1:idx3], then cos_win[idx3:idx4+1] are assigned *)
Definition cosine_weight (npts : nat) (frac : Z) (i : nat) : R :=
  let n := Z.of_nat npts in let i := Z.of_nat i in
  let idx2 := if (frac - 1 =? 0)%Z then 1%Z else (frac - 1)%Z in
  let idx3 := if (n - frac =? n - 1)%Z then (n - frac - 1)%Z else (n - frac)%Z in
  if (idx3 <=? i)%Z && (i <=? n - 1)%Z then (1 + cos (PI * IZR (idx3 - i) / IZR (n - 1 - idx3))) / 2
  else if (idx2 <? i)%Z && (i <? idx3)%Z then 1
  else if (i <=? idx2)%Z then (1 - cos (PI * IZR i / IZR idx2)) / 2
  else 0.
Definition cosine_taper (npts : nat) (p : Q) : result (list R) :=
  if negb (Qle_bool 0 p) || negb (Qle_bool p 1) then Raise ValueError
  else Ok (map (cosine_weight npts (flank npts p)) (seq 0 npts)).
(** one row times the taper; a row of another length cannot be multiplied *)
Definition scale (v : val) (w : R) : val := option_map (fun x => x * w) v.
Definition times (w : list R) (row : list val) : result (list val) :=
  if (length row =? length w)%nat then Ok (map (fun p => scale (fst p) (snd p)) (combine row w)) else Raise ValueError.
(** 519-530; the header gives npts and the sampling rate, [width] is in seconds.  A matrix without samples is not
    tapered (0/0): a ValueError here. *)
Definition taper (data : rmatrix) (h : hdr) (width : Q) : result rmatrix :=
  let n := inject_Z (Z.of_nat (h_npts h)) in
  if Qeq_bool width 0 then Ok data
  else if negb (Qle_bool width (n / h_sr h)) then Raise ValueError
  else if (h_npts h =? 0)%nat then Raise ValueError
  else do w <- cosine_taper (h_npts h) (width * 2 * h_sr h / n); mapM (times w) data.

(** ** corr_mat_envelope, 355-375 *)
(** scipy.signal.hilbert: positive frequencies doubled, negative ones removed *)
Definition one_sided (n k : nat) : R :=
  if (k =? 0)%nat then 1 else if (2 * k =? n)%nat then 1 else if (2 * k <? n)%nat then 2 else 0.
Definition analytic (x : list R) (l : nat) : cplx :=
  let n := length x in
  let t k := cmul (dft x k) (cexp (angle n k l)) in
  (rsum n (fun k => one_sided n k * fst (t k)) / INR n, rsum n (fun k => one_sided n k * snd (t k)) / INR n).
(** np.absolute of the analytic signal; a NaN spreads over the whole row *)
Definition envelope_samples (x : list R) : list R := map (fun l => sqrt (abs2 (analytic x l))) (seq 0 (length x)).
Definition envelope_row (row : list val) : list val :=
  match complete row with Some x => map Some (envelope_samples x) | None => map (fun _ => None) row end.
(** a matrix without columns is a ValueError of hilbert *)
Definition envelope (data : rmatrix) : result rmatrix :=
  if existsb (fun row => length row =? 0)%nat data then Raise ValueError else Ok (map envelope_row data).

(** ** corr_mat_correct_decay, 307-352 *)
(** corr_mat_mirror, 449-499, of real samples (see [LagMatrix.mirror]) *)
Definition vadd (a b : val) : val := match a, b with Some x, Some y => Some (x + y) | _, _ => None end.
Definition vhalf (a : val) : val := option_map (fun x => x / 2) a.
Definition rmirror_row (acausal causal : nat) (row : list val) : list val :=
  map (fun k =>
         let x := if (k <? causal)%nat then nth (acausal - 1 + k) row None else Some 0 in
         let y := if (k <? acausal)%nat then vadd x (nth (acausal - 1 - k) row None) else x in
         if (k <? Nat.min acausal causal)%nat then vhalf y else y)
      (seq 0 (Nat.max acausal causal)).
Definition rmirror (data : rmatrix) (h : hdr) : result (rmatrix * nat) :=
  let zero := (- (h_lag h * h_sr h))%Q in
  if Qle_bool zero 0 then Ok (data, h_npts h)
  else if Qle_bool (end_lag h) 0 then Ok (data, h_npts h)
  else if negb (Qeq_bool (inject_Z (Qfloor zero)) zero) then Raise TypeError   (* returns 0: unpacking fails *)
  else
    let acausal := (Z.to_nat (Qfloor zero) + 1)%nat in
    let causal := (h_npts h - acausal + 1)%nat in
    Ok (map (rmirror_row acausal causal) data, Nat.max acausal causal).
(** np.nanmean of a column *)
Fixpoint present (l : list val) : list R :=
  match l with [] => [] | Some x :: r => x :: present r | None :: r => present r end.
Definition nanmean (l : list val) : val := match present l with [] => None | x :: r => Some (mean (x :: r)) end.
(** np.log: -inf and NaN make the fit NaN *)
Definition vlog (v : val) : val := match v with Some x => if Rlt_dec 0 x then Some (ln x) else None | None => None end.
(** np.polyfit(t, y, 1) for t = 0, 1, ...: the least squares line (slope, value at 0); no or different numbers of points
    are a TypeError, for one point the scaled matrix has a NaN and the decomposition fails (LinAlgError, a ValueError).
    If a value is not finite numpy either fails with a LinAlgError or returns NaN, depending on LAPACK: here NaN ([None]). *)
Definition line (y : list R) : R * R :=
  let n := length y in
  let tm := mean (map INR (seq 0 n)) in
  let K := rsum n (fun t => (INR t - tm) * (nth t y 0 - mean y)) / rsum n (fun t => (INR t - tm) * (INR t - tm)) in
  (K, mean y - K * tm).
Definition polyfit (n : nat) (y : list val) : result (option (R * R)) :=
  if (n =? 0)%nat || negb (length y =? n)%nat then Raise TypeError
  else if (n =? 1)%nat then Raise ValueError
  else Ok (option_map line (complete y)).
(** 341-347: the theoretical envelope at sample i *)
Definition model_decay (h : hdr) (f : R * R) (i : nat) : R :=
  let '(K, log_A) := f in
  exp log_A * exp (K * Rabs (INR i - Q2R (- h_lag h * h_sr h))).
(** 325-352; [width] is data.shape[1] *)
Definition correct_decay (width : nat) (data : rmatrix) (h : hdr) : result rmatrix :=
  do env <- envelope data;
  do mirrored <- rmirror env h;
  let '(env, n) := mirrored in
  let w := match env with [] => 0%nat | row :: _ => length row end in
  do f <- polyfit n (map (fun j => vlog (nanmean (column env j))) (seq 0 w));
  if negb (width =? h_npts h)%nat then Raise ValueError
  else Ok (map (fun row => map (fun i => match f, nth i row None with
                                         | Some f, Some x => Some (x / model_decay h f i)
                                         | _, _ => None
                                         end) (seq 0 width)) data).
