(** Changing the sampling rate of the lag axis and tapering its centre (monitor/post_corr_process.py:533-714).
    Rates, lags and widths are exact rationals. *)
From Coq Require Import QArith Qround.
From Verif Require Import Lib.Base Model.CorrStream Model.LagMatrix.
Local Open Scope nat_scope.

(** ** corr_mat_decimate, 647-685.  [lf] is scipy's lfilter with the coefficients of the low pass (one row). *)
(** row[::-f] *)
Definition backwards {A} (f : nat) (l : list A) : list A :=
  flat_map (fun k => match nth_error l (length l - 1 - k * f) with Some v => [v] | None => [] end)
           (seq 0 ((length l + f - 1) / f)).
Definition decimate_row (lf : list sample -> list sample) (f : nat) (row : list sample) : list sample :=
  removelast (backwards f (lf (rev (lf row)))).
Definition decimate (lf : list sample -> list sample) (data : matrix) (h : hdr) (factor : Z) : result (matrix * hdr) :=
  if (factor <? 1)%Z then Raise ValueError
  else if (factor =? 1)%Z then Ok (data, h)
  else
    let f := Z.to_nat factor in
    let width := length (removelast (backwards f (repeat tt (h_npts h)))) in     (* data.shape[1] *)
    Ok (map (decimate_row lf f) data, mkH (h_lag h) (h_sr h / inject_Z factor) width (h_start h) (h_end h)).

(** ** corr_mat_resample_time, 592-644 *)
(** lines 620-638: the loop, with the numbers n1 and n2; the comparisons are exact here *)
Section Match.
  Variables (npts num : nat) (sr freq : Q).
  Definition ntime (n1 : nat) : Q := (inject_Z (Z.of_nat (num + n1)) / freq)%Q.
  Definition otime (n2 : nat) : Q := (inject_Z (Z.of_nat (npts + n2)) / sr)%Q.
  Fixpoint match_lengths (fuel n1 n2 : nat) : result (nat * nat) :=
    match fuel with
    | O => Raise OutOfFuel
    | S k =>
        if Qeq_bool (ntime n1) (otime n2) then Ok (n1, n2)
        else
          let '(n1', n2') := if Qle_bool (otime n2) (ntime n1) then (n1, S n2) else (S n1, n2) in
          if num <? n1' then Raise TypeError else match_lengths k n1' n2'
    end.
End Match.
(** enough iterations, see resample_terminates *)
Definition match_fuel (npts num : nat) (sr freq : Q) : nat :=
  num + Z.to_nat (Qceiling (inject_Z (Z.of_nat (2 * num)) * sr / freq)) + 3.
(** [filt]: corr_mat_filter (one row); [rs m row]: scipy's resample of a row to m samples *)
Definition resample_time (filt : list sample -> list sample) (rs : nat -> list sample -> list sample)
    (data : matrix) (h : hdr) (freq : Q) : result (matrix * hdr) :=
  if negb (Qle_bool freq (h_sr h)) then Raise ValueError
  else if Qeq_bool freq (h_sr h) then Ok (data, h)
  else
    let num := Z.to_nat (Qfloor (inject_Z (Z.of_nat (h_npts h)) / h_sr h * freq)) in
    do n <- match_lengths (h_npts h) num (h_sr h) freq (match_fuel (h_npts h) num (h_sr h) freq) 0 0;
    let '(n1, n2) := n in
    Ok (map (fun row => let padded := filt row ++ repeat (Some 0%Q) (length row + 2 * n2) in
                        firstn num (rs (2 * (num + n1)) padded)) data,
        mkH (h_lag h) freq num (h_start h) (h_end h)).

(** ** corr_mat_resample_or_decimate, 688-714 *)
Definition resample_or_decimate (lf filt : list sample -> list sample) (rs : nat -> list sample -> list sample)
    (data : matrix) (h : hdr) (freq : Q) : result (matrix * hdr) :=
  let q := (h_sr h / freq)%Q in
  if Qeq_bool q (inject_Z (Qfloor q)) then decimate lf data h (Qfloor q) else resample_time filt rs data h freq.

(** ** corr_mat_taper_center, 533-589.  [tap n] is obspy's cosine_taper(n, p=1). *)
Definition qtrunc (q : Q) : Z := if Qle_bool 0 q then Qfloor q else Qceiling q.      (* int(q) *)
Definition scale (w : Q) (v : sample) : sample := match v with Some x => Some (w * x)%Q | None => None end.
(** l[a:b] = v, v being an array: lengths must agree, one value is spread *)
Definition assign {A} (l : list A) (a b : Z) (v : list A) : result (list A) :=
  let a' := norm_index (length l) a in
  let b' := Nat.max a' (norm_index (length l) b) in
  match v with
  | [x] => Ok (firstn a' l ++ repeat x (b' - a') ++ skipn b' l)
  | _ => if length v =? b' - a' then Ok (firstn a' l ++ v ++ skipn b' l) else Raise ValueError
  end.
(** 571-573: the inverse taper; taper[-s:] with s = 0 is the whole array *)
Definition inverse_taper (tap : nat -> list Q) (len slope : Z) : result (list Q) :=
  if (slope <? 0)%Z then Raise ValueError                        (* np.zeros of a negative length in cosine_taper *)
  else
    let s := Z.to_nat slope in
    let t := tap (2 * s) in
    do z <- assign (repeat 0%Q (Z.to_nat (len + 1))) 0 slope (skipn s t);
    assign z (- slope) (Z.of_nat (length z)) (firstn s t).
(** data[:, a:b] *= taper, for one row: one weight is spread *)
Definition multiply (row : list sample) (a b : Z) (taper : list Q) : result (list sample) :=
  let part := pyslice row a b in
  do new <- (if length taper =? length part then Ok (map (fun p => scale (fst p) (snd p)) (combine taper part))
             else match taper with [w] => Ok (map (scale w) part) | _ => Raise ValueError end);
  let a' := norm_index (length row) a in
  Ok (firstn a' row ++ new ++ skipn (a' + length part) row).
Definition taper_center (tap : nat -> list Q) (data : matrix) (h : hdr) (width slope_frac : Q) : result matrix :=
  if Qeq_bool width 0 then Ok data
  else if negb (Qle_bool 0 width) then Raise ValueError
  else if negb (Qle_bool width (inject_Z (Z.of_nat (h_npts h)) / h_sr h)) then Raise ValueError
  else
    let len := (2 * Qceiling (width * h_sr h / 2))%Z in
    let slope := Qceiling (inject_Z len * slope_frac / 2) in
    do taper <- inverse_taper tap len slope;
    let start := qtrunc (- h_lag h * h_sr h - inject_Z len / 2) in
    let '(start, taper) := if (start <? 0)%Z then (0%Z, skipn (Z.to_nat (- start)) taper) else (start, taper) in
    let stop := (start + len)%Z in
    let '(stop, taper) := if (Z.of_nat (h_npts h) <? stop)%Z
                          then (Z.of_nat (h_npts h), pyslice taper 0 (Z.of_nat (h_npts h) - start)) else (stop, taper) in
    mapM (fun row => multiply row start (stop + 1) taper) data.
