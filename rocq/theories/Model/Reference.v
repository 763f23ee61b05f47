(** Amplitude normalisation and reference traces: corr_mat_normalize (monitor/post_corr_process.py:378-446) and
    corr_mat_extract_trace (717-785).  Samples are reals, [None] is NaN; rounding and overflow are not modelled. *)
From Coq Require Import Reals QArith Qround Qreals.
From Verif Require Import Lib.Base Lib.Sorting Model.LagMatrix Model.Spectral Model.TimeDomain Model.Similarity.
Local Open Scope nat_scope.

(** ** corr_mat_normalize *)
Inductive normtype := Energy | Abssum | Max | Absmax | OtherNorm.
(** 409-422: int(np.floor((t - start_lag) * sampling_rate)) *)
Definition lag_index (h : hdr) (t : option Q) : option Z := option_map (fun t => Qfloor ((t - h_lag h) * h_sr h)) t.
(** 425-430: in these cases the data are returned as they are; [if end and ...]: 0 is never after the end *)
Definition out_of_range (h : hdr) (start stop : option Z) : bool :=
  match start with Some s => (s <? 0)%Z | None => false end ||
  match stop with Some e => negb (e =? 0)%Z && (Z.of_nat (h_npts h) <=? e)%Z | None => false end.
(** data[:, start:end] *)
Definition norm_window {A} (start stop : option Z) (row : list A) : list A :=
  pyslice row (match start with Some s => s | None => 0%Z end) (match stop with Some e => e | None => Z.of_nat (length row) end).
Local Open Scope R_scope.
(** np.mean, np.max of one row: NaN if a sample is NaN; the mean of nothing is NaN, the maximum a ValueError *)
Definition plain_mean (f : R -> R) (w : list (option R)) : option R :=
  match all_samples w with Some (v :: l) => Some (mean (map f (v :: l))) | _ => None end.
Definition plain_max (f : R -> R) (w : list (option R)) : result (option R) :=
  match w with [] => Raise ValueError | _ => Ok (option_map (fun l => rmax (map f l)) (all_samples w)) end.
(** 433-442 *)
Definition norm_of (ty : normtype) (w : list (option R)) : result (option R) :=
  match ty with
  | Energy => Ok (option_map sqrt (plain_mean (fun v => v * v) w))
  | Abssum => Ok (plain_mean Rabs w)
  | Max => plain_max (fun v => v) w
  | Absmax => plain_max Rabs w
  | OtherNorm => Raise ValueError
  end.
(** 445: norm[norm == 0] = 1 *)
Definition no_zero (n : option R) : option R := match n with Some v => if Req_EM_T v 0 then Some 1 else Some v | None => None end.
(** 446 *)
Definition sdiv (a b : option R) : option R := match a, b with Some x, Some y => Some (x / y) | _, _ => None end.
Definition normalize_row (ty : normtype) (start stop : option Z) (row : list (option R)) : result (list (option R)) :=
  do n <- norm_of ty (norm_window start stop row); Ok (map (fun s => sdiv s (no_zero n)) row).
(** A matrix without rows is not treated: there the code raises the errors of [norm_of], too. *)
Definition normalize (data : list (list (option R))) (h : hdr) (st et : option Q) (ty : normtype) : result (list (list (option R))) :=
  let start := lag_index h st in let stop := lag_index h et in
  if out_of_range h start stop then Ok data else mapM (normalize_row ty start stop) data.

(** ** corr_mat_extract_trace; the method 'median' is not modelled *)
Inductive extract_method := Mean | NormMean | SimilarityPercentile (p : Q) | OtherMethod.
(** np.mean of a masked array, NaN where everything is masked *)
Definition masked_mean (l : list (option R)) : option R := match existing l with [] => None | v => Some (mean v) end.
Definition column (c : nat) (m : list (list (option R))) : list (option R) := map (fun row => nth c row None) m.
Definition width (m : list (list (option R))) : nat := match m with r :: _ => length r | [] => 0 end.
Definition mean_trace (m : list (list (option R))) : list (option R) := map (fun c => masked_mean (column c m)) (seq 0 (width m)).
(** 764-771: similarity of a row with the mean trace; one NaN in either makes it NaN *)
Definition cor_with (mean_tr row : list (option R)) : option R :=
  match all_samples row, all_samples mean_tr with Some x, Some y => similarity x y | _, _ => None end.
(** np.percentile(l, p) of a list that is not empty: linear interpolation between neighbours in the sorted list *)
Definition rleb (a b : R) : bool := if Rle_dec a b then true else false.
Definition percentile (l : list R) (p : Q) : R :=
  let s := sort rleb l in
  let pos := (p / 100 * inject_Z (Z.of_nat (length l) - 1))%Q in
  let lo := Z.to_nat (Qfloor pos) in
  nth lo s 0 + Q2R (pos - inject_Z (Qfloor pos)) * (nth (S lo) s (nth lo s 0) - nth lo s 0).
(** 773: if every similarity is NaN, np.percentile gets an empty list; the result is taken to be NaN here *)
Definition threshold (cor : list (option R)) (p : Q) : result (option R) :=
  if Qle_bool 0 p && Qle_bool p 100 then Ok (match existing cor with [] => None | l => Some (percentile l p) end) else Raise ValueError.
(** 776: cor > tres *)
Definition above (t c : option R) : bool := match t, c with Some x, Some y => if Rlt_dec x y then true else false | _, _ => false end.
(** 777: np.mean(ndata[ind, :], 0) *)
Definition stack_rows (w : nat) (m : list (list (option R))) : list (option R) :=
  map (fun c => plain_mean (fun v => v) (column c m)) (seq 0 w).
Definition extract_trace (data : list (list (option R))) (h : hdr) (m : extract_method) : result (list (option R)) :=
  match m with
  | Mean => Ok (mean_trace data)
  | NormMean => do n <- normalize data h None None Absmax; Ok (mean_trace n)
  | SimilarityPercentile p =>
      do n <- normalize data h None None Absmax;
      let cor := map (cor_with (mean_trace n)) n in
      do t <- threshold cor p;
      Ok (stack_rows (width n) (map snd (filter (fun cr => above t (fst cr)) (combine cor n))))
  | OtherMethod => Raise ValueError
  end.
