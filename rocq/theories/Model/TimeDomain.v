(** Time domain preprocessing of the rows of the trace matrix (correlate/preprocessing_td.py), in exact real arithmetic.
    A row is the list of the samples of one trace. *)
From Coq Require Import Reals QArith Qround SpecFloat.
From Verif Require Import Lib.Base Model.Spectral.
Local Open Scope R_scope.

(** sample i of a row, 0 outside *)
Definition at_ (a : list R) (i : Z) : R := if (0 <=? i)%Z then nth (Z.to_nat i) a 0 else 0.
(** np.convolve(a, v, mode='same') for v not longer than a: the central part of the full convolution, which begins at
    its index (len(v)-1)//2; an empty v is a ValueError. *)
Definition conv_at (a v : list R) (i : nat) : R :=
  rsum (length v) (fun t => nth t v 0 * at_ a (Z.of_nat i + (Z.of_nat (length v) - 1) / 2 - Z.of_nat t)).
Definition convolve_same (a v : list R) : result (list R) :=
  match v with [] => Raise ValueError | _ => Ok (map (conv_at a v) (seq 0 (length a))) end.

(** np.mean, np.std of a row *)
Definition mean (x : list R) : R := rsum (length x) (fun j => nth j x 0) / INR (length x).
Definition std (x : list R) : R := sqrt (rsum (length x) (fun j => (nth j x 0 - mean x) * (nth j x 0 - mean x)) / INR (length x)).

(** the 'threshold' / 'std_factor' keywords of [mute] *)
Inductive level := Threshold (t : R) | StdFactor (f : R) | NoLevel.
(** arguments of [mute]; the filter is any function on rows *)
Record mute_args := { m_taper : Q; m_filter : option (list R -> list R); m_level : level; m_extend : bool }.

(** 209-212: C *)
Definition filtered (a : mute_args) (x : list R) : list R := match m_filter a with Some f => f x | None => x end.
(** 218-223 *)
Definition thres (a : mute_args) (x : list R) : R :=
  match m_level a with Threshold t => t | StdFactor f => std (filtered a x) * f | NoLevel => std (filtered a x) end.
(** 215, 226-227 *)
Definition level_mask (a : mute_args) (x : list R) : list R :=
  map (fun c => if Rlt_dec (thres a x) (Rabs c) then 0 else 1) (filtered a x).
(** 230: np.ones(ntap)/ntap *)
Definition boxcar (n : nat) : list R := map (fun _ => 1 / INR n) (seq 0 n).
(** 229-236: the length of the mask is that of the row *)
Definition extended (a : mute_args) (n : nat) (mask : list R) : result (list R) :=
  if m_extend a then do m <- convolve_same mask (boxcar n); Ok (map (fun v => if Rlt_dec v 1 then 0 else 1) m) else Ok mask.
(** 239-240 *)
Definition taper_win (n : nat) : list R := map (fun t => (2 - (cos (INR t / INR n * 2 * PI) + 1)) / INR n) (seq 0 n).
(** 229-242: the factors one row is multiplied by *)
Definition mute_weights (a : mute_args) (n : nat) (x : list R) : result (list R) :=
  do m <- extended a n (level_mask a x); convolve_same m (taper_win n).
(** 204: int(taper_len * sampling_rate), towards zero *)
Definition mute_ntap (a : mute_args) (sr : Q) : Z := qfix (m_taper a * sr).
(** 203-246 for one row; np.ones of a negative length is a ValueError, as is the convolution with an empty taper *)
Definition mute_row (a : mute_args) (sr : Q) (x : list R) : result (list R) :=
  let n := mute_ntap a sr in
  if (Z.of_nat (length x) <=? n)%Z then Ok (map (fun _ => 0) x)
  else do w <- mute_weights a (Z.to_nat n) x; Ok (map (fun p => fst p * snd p) (combine x w)).
(** 200-246 *)
Definition mute (a : mute_args) (sr : Q) (A : list (list R)) : result (list (list R)) :=
  if Qeq_bool (m_taper a) 0 then Raise ValueError else mapM (mute_row a sr) A.

(** [clip], 50-55: the second assignment sees the result of the first *)
Definition clip_row (f : R) (x : list R) : list R :=
  let ts := f * std x in
  let x1 := map (fun v => if Rlt_dec ts v then ts else v) x in
  map (fun v => if Rlt_dec v (- ts) then - ts else v) x1.
(** [normalizeStandardDeviation], 268-272 *)
Definition norm_std_row (x : list R) : list R :=
  let s := if Req_EM_T (std x) 0 then 1 else std x in map (fun v => v / s) x.
(** [signBitNormalization], 294 *)
Definition sign (v : R) : R := if Rlt_dec v 0 then -1 else if Rlt_dec 0 v then 1 else 0.
Definition sign_bit_row (x : list R) : list R := map sign x.
(** [demean], 144, without NaN *)
Definition demean_row (x : list R) : list R := map (fun v => v - mean x) x.

(** ** The extended mask in double precision *)
(** IEEE double precision, rounding to nearest even *)
Definition fadd := SFadd 53 1024.
Definition fmul := SFmul 53 1024.
Definition fof (z : Z) : spec_float := binary_normalize 53 1024 z 0 false.
(** np.ones(ntap)/ntap *)
Definition float_box (n : nat) : list spec_float := repeat (SFdiv 53 1024 (fof 1) (fof (Z.of_nat n))) n.
(** np.convolve(mask, tap, mode='same'): the products with the samples that exist, added from left to right (the order
    in which np.dot adds depends on the library numpy is built with) *)
Definition float_conv_at (a v : list spec_float) (i : nat) : spec_float :=
  let j t := (Z.of_nat i + (Z.of_nat (length v) - 1) / 2 - Z.of_nat t)%Z in
  let inside := filter (fun t => (0 <=? j t) && (j t <? Z.of_nat (length a)))%Z (rev (seq 0 (length v))) in
  fold_left fadd (map (fun t => fmul (nth (Z.to_nat (j t)) a S754_nan) (nth t v S754_nan)) inside) (fof 0).
(** 231-234: is sample i kept (1) or muted (0) *)
Definition float_extended (a : list spec_float) (n i : nat) : Z := if SFltb (float_conv_at a (float_box n) i) (fof 1) then 0%Z else 1%Z.

(** ** [detrend], 58-84 *)
Definition dot (a b : list R) : R := rsum (length a) (fun k => nth k a 0 * nth k b 0).
(** 126-127: first column of X (the second is 1); the float32 numbers np.arange gives are exact below 2^24 *)
Definition trend_col (n : nat) : list R := map (fun k => INR k / INR n) (seq 0 n).
(** np.linalg.qr: two columns of Q and the upper triangle of R *)
Record qr := { q1 : list R; q2 : list R; r11 : R; r12 : R; r22 : R }.
(** 128-137 for one row: coeff = inv(R) Q^T data; np.linalg.inv raises LinAlgError (a ValueError) if R is singular *)
Definition detrend_coeff (f : qr) (d : list R) : R * R :=
  (dot (q1 f) d / r11 f - r12 f / (r11 f * r22 f) * dot (q2 f) d, dot (q2 f) d / r22 f).
Definition detrendqr_row (f : qr) (d : list R) : list R :=
  map (fun k => nth k d 0 - (nth k (trend_col (length d)) 0 * fst (detrend_coeff f d) + snd (detrend_coeff f d))) (seq 0 (length d)).
(** the same with missing samples (NaN, here None): every coefficient is NaN as soon as one sample is *)
Fixpoint all_samples (d : list (option R)) : option (list R) :=
  match d with [] => Some [] | Some v :: r => match all_samples r with Some l => Some (v :: l) | None => None end | None :: _ => None end.
Definition detrendqr_nan (f : nat -> qr) (d : list (option R)) : list (option R) :=
  match all_samples d with Some l => map Some (detrendqr_row (f (length l)) l) | None => map (fun _ => None) d end.
(** [detrend_scipy], 87-104, for one row: the samples that exist are detrended by [sp] (scipy.signal.detrend, which
    raises ZeroDivisionError for an empty row; then the row is left alone), the others stay NaN *)
Fixpoint put_back (d : list (option R)) (v : list R) : list (option R) :=
  match d, v with
  | None :: r, _ => None :: put_back r v
  | Some _ :: r, w :: ws => Some w :: put_back r ws
  | Some x :: r, [] => Some x :: put_back r []
  | [], _ => []
  end.
Definition existing (d : list (option R)) : list R := flat_map (fun o => match o with Some v => [v] | None => [] end) d.
Definition detrend_scipy_row (sp : list R -> list R) (d : list (option R)) : list (option R) := put_back d (sp (existing d)).

(** ** [TDnormalization], 366-401, rows of a matrix *)
Definition rmax (l : list R) : R := match l with [] => 0 | v :: r => fold_left Rmax r v end.
(** 381-398: smoothed envelope with the damping; assigning a longer row (window longer than the trace) is a ValueError *)
Definition td_envelope (n : nat) (b : list R) : result (list R) :=
  if (length b <? n)%nat then Raise ValueError else
  do b1 <- convolve_same (map (fun v => v * v) b) (boxcar n);
  do b2 <- convolve_same (rev b1) (boxcar n);
  let b3 := rev b2 in Ok (map (fun v => v + rmax b3 * (1 / 1000000)) b3).
(** 400: division by a zero envelope gives NaN or infinity (None) *)
Definition td_divide (x e : list R) : list (option R) :=
  map (fun p => if Req_EM_T (snd p) 0 then None else Some (fst p / sqrt (snd p))) (combine x e).
Definition td_window (len sr : Q) : nat := Z.to_nat (Qceiling (len * sr)).
Definition td_normalize (filt : list R -> list R) (len sr : Q) (x : list R) : result (list (option R)) :=
  if Qle_bool len 0 then Raise ValueError else do e <- td_envelope (td_window len sr) (filt x); Ok (td_divide x e).

(** ** [cos_taper] (correlate/preprocessing_stream.py:56-109) without masked values *)
(** np.sin(np.linspace(0, pi, 2n)) *)
Definition half_sine (n : nat) : list R := map (fun k => sin (INR k * (PI / INR (2 * n - 1)))) (seq 0 (2 * n)).
(** 98-108; [to_dtype] converts to the type of the data, which np.ones_like takes over: the identity for floats,
    truncation for integers.  [tl_n] is round(taper_len * sampling_rate). *)
Definition cos_taper_row (to_dtype : R -> R) (tl_n : nat) (x : list R) : result (list R) :=
  if (length x <? tl_n * 2)%nat then Raise ValueError
  else if (tl_n =? 0)%nat then (* taper[-0:] is the whole array, tap[-0:] is empty *)
    if (length x =? 0)%nat then Ok [] else Raise ValueError
  else
    let w i := if (i <? tl_n)%nat then to_dtype (nth i (half_sine tl_n) 0)
               else if (length x - tl_n <=? i)%nat then to_dtype (nth (i + 2 * tl_n - length x) (half_sine tl_n) 0) else 1 in
    Ok (map (fun i => nth i x 0 * w i) (seq 0 (length x))).
Definition cos_taper (to_dtype : R -> R) (len : Q) (tl_n : nat) (x : list R) : result (list R) :=
  if Qle_bool len 0 then Raise ValueError else cos_taper_row to_dtype tl_n x.
