(** Sensitivity kernels, data variance and model covariance of the spatial inversion (monitor/spatial.py 30-326,
    788-857, 898-948).  Real numbers: exact arithmetic.  numpy broadcasts the functions over arrays; here they take one
    value.  The velocity and the mean free path are taken to be positive. *)
From Coq Require Import Reals.
From Verif Require Import Lib.Base.
Local Open Scope R_scope.

Definition ltb (x y : R) : bool := if Rlt_dec x y then true else false.
Definition leb (x y : R) : bool := if Rle_dec x y then true else false.
Definition eqb (x y : R) : bool := if Req_EM_T x y then true else false.
(** the smallest integer that is not smaller *)
Definition rceil (x : R) : Z := (- Int_part (- x))%Z.
(** np.arange(0, stop, step) *)
Definition rarange (stop step : R) : list R := map (fun k => INR k * step) (seq 0 (Z.to_nat (rceil (stop / step)))).

(** probability, 30-75.  [np.isclose] has a relative tolerance of 1e-5.  At distance zero the coherent part is infinite
    and replaced by one.  The heaviside function is zero unless the root in the coda is that of a positive number. *)
Definition probability (dist t vel mf atol : R) : result R :=
  if ltb dist 0 then Raise ValueError
  else if ltb t (- atol / vel) then Raise ValueError
  else
    let coherent := if leb (Rabs (dist - vel * t)) (atol + / 100000 * Rabs (vel * t))
                    then (if eqb dist 0 then 1 else exp (- vel * t / mf) / (2 * PI * dist)) else 0 in
    let a := 2 * PI * mf * vel * t * sqrt (1 - dist ^ 2 / (vel * t) ^ 2) in
    let b := (sqrt ((vel * t) ^ 2 - dist ^ 2) - vel * t) / mf in
    let coda := if ltb 0 (vel * t - dist - atol) then exp b / a else 0 in
    Ok (coherent + coda).

(** np.linalg.norm(s1-s2), compute_grid_dist, 78-97, _compute_dist_matrix, 844-857 *)
Definition edist (p q : R * R) : R := sqrt ((fst p - fst q) * (fst p - fst q) + (snd p - snd q) * (snd p - snd q)).
(** np.meshgrid, flattened row by row *)
Definition rmesh (xaxis yaxis : list R) : list (R * R) := flat_map (fun y => map (fun x => (x, y)) xaxis) yaxis.

(** np.any(np.diff(x) != x[1]-x[0]), 144 *)
Fixpoint diffs (x : list R) : list R := match x with a :: r => match r with b :: _ => (b - a) :: diffs r | [] => [] end | [] => [] end.
Definition uneven (x : list R) : result bool :=
  match x with a :: b :: _ => Ok (existsb (fun d => negb (eqb d (b - a))) (diffs x)) | _ => Raise IndexError end.
(** np.trapz(values, dx=dt) *)
Definition trapz (dt : R) (l : list R) : R := fold_right Rplus 0 (map (fun p => dt * (fst p + snd p) / 2) (combine l (tl l))).

(** sensitivity_kernel, 100-170; the grid is flattened.  The warning about a large dt is left out. *)
Definition sensitivity_kernel (s1 s2 : R * R) (x y : list R) (t dt vel mf : R) : result (list R) :=
  let atol := vel * dt / 2 in
  if leb dt 0 then Raise ValueError else
  do ux <- uneven x;
  do bad <- (if ux then Ok true else uneven y);
  if bad then Raise ValueError else
  let T := rarange (t + dt) dt in
  do denom <- probability (edist s1 s2) t vel mf atol;
  let cells := rmesh x y in
  if eqb denom 0 then Ok (map (fun _ => 0) cells) else
  mapM (fun c =>
    do ps <- mapM (fun tt => do p <- probability (edist c s1) tt vel mf atol; do q <- probability (edist c s2) (t - tt) vel mf atol; Ok (p * q)) T;
    Ok (trapz dt ps / denom)) cells.

(** data_variance, 173-208 *)
Definition data_variance (corr bandwidth tw0 tw1 freq_c : R) : result R :=
  if ltb tw0 0 || ltb tw1 0 then Raise ValueError
  else if leb tw1 tw0 then Raise ValueError
  else if leb bandwidth 0 then Raise ValueError
  else if leb freq_c 0 then Raise ValueError
  else
    let p1 := sqrt (1 - corr ^ 2) / (2 * corr) in
    let nom := 6 * sqrt (PI / 2) * (1 / bandwidth) in
    let denom := (2 * PI * freq_c) ^ 2 * (tw1 ^ 3 - tw0 ^ 3) in
    Ok (p1 * sqrt (nom / denom)).
(** compute_cm, 211-240 *)
Definition compute_cm (scaling corr_len std_model dist : R) : R :=
  (std_model * scaling / corr_len) ^ 2 * exp (- dist / corr_len).

(** DVGrid.__init__, 280-326; the position of the corner is left out: positions of stations are given in the grid *)
Record grid := mkG { g_res : R; g_x : R; g_y : R; g_dt : R; g_vel : R; g_mf : R }.
Definition xaxis (g : grid) : list R := rarange (g_x g + g_res g) (g_res g).
Definition yaxis (g : grid) : list R := rarange (g_y g + g_res g) (g_res g).
Definition cells (g : grid) : list (R * R) := rmesh (xaxis g) (yaxis g).
(** one row of _compute_sensitivity_kernels, 936-947, without the cache *)
Definition kernel_row (g : grid) (t : R) (pair : (R * R) * (R * R)) : result (list R) :=
  do k <- sensitivity_kernel (fst pair) (snd pair) (xaxis g) (yaxis g) t (g_dt g) (g_vel g) (g_mf g);
  Ok (map (fun v => g_res g ^ 2 / t * v) k).

(** (tw[0]+tw[1])/2, 461 *)
Definition middle (tw0 tw1 : R) : R := (tw0 + tw1) / 2.
(** _compute_cd, 822-843: data_variance(...)**2 *)
Definition variances (corrs : list R) (tw0 tw1 freq0 freq1 : R) : result (list R) :=
  mapM (fun c => do s <- data_variance c (freq1 - freq0) tw0 tw1 ((freq1 + freq0) / 2); Ok (s ^ 2)) corrs.
