(** Operations on correlation matrices along the time and the lag axis
    (monitor/post_corr_process.py, monitor/trim.py) and the list of monitoring windows
    (monitor/monitor.py).  Times are integers (ns), lags and samples exact rationals; a sample may be NaN. *)
From Coq Require Import Qround.
From Verif Require Import Lib.Base Model.CorrStream.
Local Open Scope nat_scope.

(** [make_time_list], monitor.py:712-755: starts and ends of the windows *)
Definition make_time_list (start stop inc win : Z) : result (list Z * list Z) :=
  if (inc <=? 0)%Z || (win <=? 0)%Z then Raise ValueError
  else if (stop <=? start)%Z then Raise ValueError
  else let s := arange start stop inc in Ok (s, map (fun t => (t + win)%Z) s).

(** header entries of a correlation matrix that are used or changed here *)
Record hdr := mkH { h_lag : Q; h_sr : Q; h_npts : nat; h_start : list Z; h_end : list Z }.
Definition matrix := list (list sample).

(** [CorrStats]: end_lag is computed (correlate/stats.py:199-211) *)
Definition end_lag (h : hdr) : Q :=
  if h_npts h =? 0 then h_lag h else (h_lag h + inject_Z (Z.of_nat (h_npts h - 1)) / h_sr h)%Q.

(** ** corr_mat_resample, post_corr_process.py:226-303 *)
(** lines 258-277: the bins *)
Definition bins (h : hdr) (starts ends : list Z) : result (list (Z * Z)) :=
  if negb (length ends =? 0) && negb (length ends =? length starts) then Raise ValueError
  else match starts with
       | [] => Raise IndexError                              (* start_times[0] *)
       | s0 :: r =>
           match ends with
           | _ :: _ => Ok (combine starts ends)
           | [] => match r with
                   | [] => match rev (h_end h) with
                           | e :: _ => Ok [(s0, e)]
                           | [] => Raise IndexError          (* corr_end[-1] *)
                           end
                   | s1 :: _ => Ok (map (fun s => (s, (s + (s1 - s0))%Z)) starts)
                   end
           end
       end.
(** lines 286-296: one row; a column that is NaN in all rows stays masked and is filled with NaN *)
Definition bin_row (width : nat) (starts : list Z) (data : matrix) (b : Z * Z) : list sample :=
  let found := map snd (filter (fun p => (fst b <=? fst p)%Z && (fst p <? snd b)%Z) (combine starts data)) in
  match found with
  | [] => repeat None width
  | [row] => row
  | _ => map (fun j => nanmean (map (fun row => nth j row None) found)) (seq 0 width)
  end.
(** [width] is data.shape[1] *)
Definition resample (width : nat) (data : matrix) (h : hdr) (starts ends : list Z) : result (matrix * hdr) :=
  do bs <- bins h starts ends;
  Ok (map (bin_row width (h_start h) data) bs,
      mkH (h_lag h) (h_sr h) (h_npts h) (map fst bs) (map snd bs)).

(** ** corr_mat_trim, monitor/trim.py:21-68 *)
(** data[a:b] with the usual meaning of negative bounds *)
Definition norm_index (n : nat) (i : Z) : nat :=
  if (i <? 0)%Z then Z.to_nat (i + Z.of_nat n) else Nat.min (Z.to_nat i) n.
Definition pyslice {A} (l : list A) (a b : Z) : list A :=
  let a' := norm_index (length l) a in
  firstn (norm_index (length l) b - a') (skipn a' l).

(** The function works on the header it is given: [snd] is that header afterwards.
    stats['npts'] = data.shape[1] (all rows have the same length). *)
Definition trim (data : matrix) (h : hdr) (st et : Q) : matrix * hdr :=
  let start := Qfloor ((st - h_lag h) * h_sr h) in
  let stop := Qfloor ((et - h_lag h) * h_sr h) in
  if (start <? 0)%Z then (data, h)
  else if (Z.of_nat (h_npts h) <=? stop)%Z then (data, h)
  else (map (fun row => pyslice row start (stop + 1)) data,
        mkH st (h_sr h) (length (pyslice (repeat tt (h_npts h)) start (stop + 1))) (h_start h) (h_end h)).

(** ** corr_mat_mirror, post_corr_process.py:449-499 *)
Definition sadd (a b : sample) : sample :=
  match a, b with Some x, Some y => Some (x + y)%Q | _, _ => None end.
Definition half (a : sample) : sample := match a with Some x => Some (x / 2)%Q | None => None end.
(** lines 480-488 for one row: zeros; the causal part is assigned, the reversed acausal part added,
    the common part divided by two *)
Definition mirror_row (acausal causal : nat) (row : list sample) : list sample :=
  map (fun k =>
         let x := if k <? causal then nth (acausal - 1 + k) row None else Some 0%Q in
         let y := if k <? acausal then sadd x (nth (acausal - 1 - k) row None) else x in
         if k <? Nat.min acausal causal then half y else y)
      (seq 0 (Nat.max acausal causal)).
Definition mirror (data : matrix) (h : hdr) : result (matrix * hdr) :=
  let zero := (- (h_lag h * h_sr h))%Q in
  if Qle_bool zero 0 then Ok (data, h)
  else if Qle_bool (end_lag h) 0 then Ok (data, h)
  else if negb (Qeq_bool (inject_Z (Qfloor zero)) zero) then Raise TypeError   (* returns 0: unpacking fails *)
  else
    let acausal := Z.to_nat (Qfloor zero) + 1 in
    let causal := h_npts h - acausal + 1 in
    Ok (map (mirror_row acausal causal) data,
        mkH 0 (h_sr h) (Nat.max acausal causal) (h_start h) (h_end h)).

(** ** what [CorrBulk.stretch] (correlate/stream.py:588-625) does to the matrix it is called on:
    corr_mat_stretch (post_corr_process.py:797-900) copies the data (868) but hands the header
    itself to corr_mat_trim (873-881).  Result: the trimmed data that are measured, and the matrix
    and the header of the object afterwards. *)
Definition qmin (a b : Q) : Q := if Qle_bool a b then a else b.   (* min(dta, dte) *)
Definition stretch_trim (single : bool) (data : matrix) (h : hdr) : matrix * (matrix * hdr) :=
  let dta := (- h_lag h)%Q in
  let dte := end_lag h in
  let '(d, h') := if single then trim data h 0 dte
                  else let dt := qmin dta dte in trim data h (- dt) dt in
  (d, (data, h')).
