(** Several reference traces: CorrBulk.extract_multi_trace (correlate/stream.py:336-398), _find_slice_index (796-825, with
    include_partial=True).  Times are in nanoseconds.  Increments are whole days.
    A matrix with one row is not treated: np.squeeze makes a scalar of the index, which adds a dimension to the references. *)
From Coq Require Import Reals QArith.
From Verif Require Import Lib.Base Lib.Time Model.LagMatrix Model.Reference.
Local Open Scope Z_scope.

(** win_inc: a number, a list or a numpy array of numbers *)
Inductive increments := Every (d : Z) | Listed (l : list Z) | Array (l : list Z).

(** min(...), max(...): a ValueError for nothing *)
Definition earliest (l : list Z) : result Z := match l with [] => Raise ValueError | x :: r => Ok (fold_left Z.min r x) end.
Definition latest (l : list Z) : result Z := match l with [] => Raise ValueError | x :: r => Ok (fold_left Z.max r x) end.

(** corr_mat_extract_trace of the rows in the time window; without rows every sample is masked or the mean of nothing *)
Definition extract_rows (rows : list (list (option R))) (h : hdr) (m : extract_method) : result (list (option R)) :=
  match rows, m with
  | [], OtherMethod => Raise ValueError
  | [], _ => Ok (repeat None (h_npts h))
  | _, _ => extract_trace rows h m
  end.
Definition rows_within (data : list (list (option R))) (h : hdr) (s e : Z) : result (list (list (option R))) :=
  if e <=? s then Raise ValueError
  else Ok (map snd (filter (fun p => (s <=? snd (fst p)) && (fst (fst p) <=? e)) (combine (combine (h_start h) (h_end h)) data))).
(** one turn of the loops: the window from start to start + inc, half an increment longer on both sides *)
Definition window_trace (data : list (list (option R))) (h : hdr) (m : extract_method) (start inc : Z) : result (list (option R)) :=
  do rows <- rows_within data h (start - inc / 2) (start + inc + inc / 2);
  extract_rows rows h m.

(** 383-388 *)
Fixpoint listed_traces (data : list (list (option R))) (h : hdr) (m : extract_method) (start : Z) (incs : list Z) : result (list (list (option R))) :=
  match incs with
  | [] => Ok []
  | inc :: r => do t <- window_trace data h m start inc; do ts <- listed_traces data h m (start + inc) r; Ok (t :: ts)
  end.
(** 390-396: while start < max(corr_end) *)
Fixpoint constant_traces (fuel : nat) (data : list (list (option R))) (h : hdr) (m : extract_method) (start inc : Z) : result (list (list (option R))) :=
  match fuel with
  | O => Raise OutOfFuel
  | S f =>
      do e <- latest (h_end h);
      if start <? e then do t <- window_trace data h m start inc; do ts <- constant_traces f data h m (start + inc) inc; Ok (t :: ts)
      else Ok []
  end.

(** What is returned (and kept as ref_trc): one trace or a list of traces *)
Inductive traces := One (t : list (option R)) | Several (l : list (list (option R))).
Definition extract_multi_trace (fuel : nat) (data : list (list (option R))) (h : hdr) (w : increments) (m : extract_method) : result traces :=
  let listed := fun l => do s <- earliest (h_start h); do ts <- listed_traces data h m s (map (fun d => d * day) l); Ok (Several ts) in
  match w with
  | Listed l => listed l
  | Every d =>
      if d =? 0 then do t <- extract_rows data h m; Ok (One t)
      else do s <- earliest (h_start h); do ts <- constant_traces fuel data h m s (d * day); Ok (Several ts)
  | Array [d] => if d =? 0 then do t <- extract_rows data h m; Ok (One t) else listed [d]
  | Array [] => listed []                                (* array([]) == 0 is empty, hence false *)
  | Array _ => Raise ValueError                          (* the truth value of an array is ambiguous *)
  end.
