(** Moving averages: nan_moving_av (utils/miic_utils.py:366-391), DV.smooth_sim_mat (monitor/dv.py:197-222) on exact
    rationals or NaN, and corr_mat_smooth with _smooth (monitor/post_corr_process.py:58-170) on reals. *)
From Coq Require Import Reals QArith.
From Verif Require Import Lib.Base Model.CorrStream Model.DVs Model.Spectral Model.TimeDomain.
Local Open Scope nat_scope.

(** nan_moving_av, 382-391: dataswap[start:ii+win_half_len+1] with start not below 0 *)
Definition win_rows {A} (h : nat) (l : list A) (ii : nat) : list A := firstn (ii + h + 1 - (ii - h)) (skipn (ii - h) l).
(** along the only axis of a vector *)
Definition mav (h : nat) (l : list sample) : list sample := map (fun ii => nanmean (win_rows h l ii)) (seq 0 (length l)).
(** axis=0 of a matrix: np.nanmean(rows, axis=0) *)
Definition ncols (m : list (list sample)) : nat := match m with r :: _ => length r | [] => 0 end.
Definition mav_rows (h : nat) (m : list (list sample)) : list (list sample) :=
  map (fun ii => map (fun c => nanmean (map (fun row => nth c row None) (win_rows h m ii))) (seq 0 (ncols m))) (seq 0 (length m)).
(** axis=1 (or -1): the same on the transposed matrix, i.e. row by row *)
Definition mav_cols (h : nat) (m : list (list sample)) : list (list sample) := map (mav h) m.

(** DV.smooth_sim_mat, 214-222.  The second part of the result is the attribute avail, which __init__ sets from corr
    (dv.py:82) and smoothing does not touch. *)
Definition exclude (below : option Q) (m : list (list sample)) : list (list sample) :=
  match below with
  | None => m
  | Some b => map (map (fun s => match s with Some v => if Qlt_bool v b then None else Some v | None => None end)) m
  end.
Definition smooth_sim_mat (win_len : nat) (below : option Q) (d : dv) : result (dv * list bool) :=
  let sim := mav_rows (win_len / 2) (exclude below (d_sim d)) in
  do v <- mapM (value_at (d_axis d)) sim;
  Ok (mkDV (map nanmax sim) v sim (d_axis d) (d_method d) (d_net d) (d_sta d) (d_cha d) (d_t0 d) (d_t1 d), avail d).

(** ** _smooth, 96-117 *)
Local Open Scope R_scope.
Inductive window := Flat | Hanning | Hamming | Bartlett | Blackman | Unknown.
(** np.hanning and so on: n = 1-M, 3-M, ..., M-1 *)
Definition win_at (w : window) (M t : nat) : R :=
  let n := IZR (1 - Z.of_nat M + 2 * Z.of_nat t) in let d := INR (M - 1) in
  match w with
  | Flat | Unknown => 1
  | Hanning => 1 / 2 + 1 / 2 * cos (PI * n / d)
  | Hamming => 54 / 100 + 46 / 100 * cos (PI * n / d)
  | Bartlett => if Rle_dec n 0 then 1 + n / d else 1 - n / d
  | Blackman => 42 / 100 + 1 / 2 * cos (PI * n / d) + 8 / 100 * cos (2 * PI * n / d)
  end.
Definition win (w : window) (M : nat) : list R := map (win_at w M) (seq 0 M).
(** w / w.sum() *)
Definition normed (l : list R) : list R := map (fun v => v / rsum (length l) (fun k => nth k l 0)) l.
(** x[window_len:1:-1], indices clipped to the vector *)
Definition left_part (x : list R) (wl : nat) : list R := map (fun k => nth (Nat.min wl (length x - 1) - k) x 0) (seq 0 (Nat.min wl (length x - 1) - 1)).
(** x[-1:-window_len:-1], window_len not larger than the vector *)
Definition right_part (x : list R) (wl : nat) : list R := map (fun k => nth (length x - 1 - k) x 0) (seq 0 (wl - 1)).
Definition padded (x : list R) (wl : nat) : list R :=
  map (fun v => 2 * nth 0 x 0 - v) (left_part x wl) ++ x ++ map (fun v => 2 * nth (length x - 1) x 0 - v) (right_part x wl).
Definition smooth (x : list R) (wl : nat) (w : window) : result (list R) :=
  if (length x <? wl)%nat then Raise ValueError
  else if (wl <? 3)%nat then Ok x
  else match w with
       | Unknown => Raise ValueError
       | _ => do y <- convolve_same (padded x wl) (normed (win w wl));
              Ok (firstn (length y - 2 * (wl - 1)) (skipn (wl - 1) y))
       end.
(** data[i] = scsig: a vector of another length is a ValueError *)
Definition assign_row (x : list R) (r : list R) : result (list R) := if (length r =? length x)%nat then Ok r else Raise ValueError.
(** corr_mat_smooth, 146-170; NaN (None) is replaced by 0 first.  A column is a list, too: axis 1 is the same on the
    transposed matrix. *)
Definition nan_to_num (l : list (option R)) : list R := map (fun o => match o with Some v => v | None => 0 end) l.
Definition smooth_vector (x : list (option R)) (wl : nat) (w : window) : result (list R) := smooth (nan_to_num x) wl w.
Definition smooth_lines (m : list (list (option R))) (wl : nat) (w : window) : result (list (list R)) :=
  mapM (fun x => do r <- smooth (nan_to_num x) wl w; assign_row (nan_to_num x) r) m.
