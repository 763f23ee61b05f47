(** The velocity change of one combination: [Monitor.compute_velocity_change] (monitor/monitor.py:162-326) from the correlation
    matrix on, and what it calls: CorrBulk.stretch (correlate/stream.py:588-625), corr_mat_stretch
    (monitor/post_corr_process.py:797-900), time_stretch_estimate (monitor/stretch_mod.py:344-488), velocity_change_estimate
    (203-341), CorrBulk.correct_stretch (correlate/stream.py:188-209).
    Samples are reals, [None] is NaN; rounding is not modelled.  One reference trace; several are combined as in Model/MultiRef.v.
    The matrix is that after reading, stacking, filtering and preprocessing (230-254). *)
From Coq Require Import Reals QArith Qround Qreals.
From Verif Require Import Lib.Base Model.LagMatrix Model.Similarity Model.TimeDomain Model.Shift Model.MultiRef.
Local Open Scope R_scope.

Record bulk := mkB { b_hdr : hdr; b_rows : list (list (option R)) }.

(** ** the time window *)
(** options['dv'] *)
Record config := mkCfg {
  c_start : Q; c_len : option Q;              (* tw_start, tw_len *)
  c_tt : bool; c_vel : R;                     (* compute_tt, rayleigh_wave_velocity *)
  c_range : Q; c_steps : nat; c_sides : sides }.
(** the entries dist (km), stel and evel (m) of the header; a header without dist is [None] *)
Record geometry := mkGeo { g_dist : R; g_stel : R; g_evel : R }.

(** 203-210; round(x, 0) rounds halves to even *)
Definition distance (g : geometry) : R := sqrt (g_dist g ^ 2 + ((g_stel g - g_evel g) / 1000) ^ 2).
Definition travel_time (g : geometry) (v : R) : Z := around (distance g / v).
(** 197-214: begin of the window and, if it was computed, the variable [d].
    With a velocity of 0 the travel time is infinite or NaN; both end in a ValueError (line 217 or in trim): [None]. *)
Definition begin (c : config) (g : option geometry) : option Q * option R :=
  if c_tt c then
    match g with
    | None => (Some (c_start c), None)
    | Some g => (if Req_EM_T (c_vel c) 0 then None else Some (c_start c + inject_Z (travel_time g (c_vel c)))%Q, Some (distance g))
    end
  else (Some (c_start c), None).
(** 217-228: the message of the error contains [d], an error itself if the variable was not assigned.  Result: begin and end. *)
Definition window (c : config) (lts : Q) (g : option geometry) : result (Q * Q) :=
  let '(b, d) := begin c g in
  match c_len c with
  | None => Raise TypeError                               (* tw_start + None *)
  | Some len =>
      match b with
      | None => Raise ValueError
      | Some b => if Qle_bool (b + len) lts then Ok (b, b + len)%Q
                  else Raise (match d with Some _ => ValueError | None => UnboundLocalError end)
      end
  end.

(** ** corr_mat_trim (monitor/trim.py:21-68) for any kind of samples, see [LagMatrix.trim] *)
Definition trim_rows {A} (rows : list (list A)) (h : hdr) (st et : Q) : list (list A) * hdr :=
  let start := Qfloor ((st - h_lag h) * h_sr h) in
  let stop := Qfloor ((et - h_lag h) * h_sr h) in
  if (start <? 0)%Z then (rows, h)
  else if (Z.of_nat (h_npts h) <=? stop)%Z then (rows, h)
  else (map (fun row => pyslice row start (stop + 1)) rows,
        mkH st (h_sr h) (length (pyslice (repeat tt (h_npts h)) start (stop + 1))) (h_start h) (h_end h)).

(** ** the samples compared, stretch_mod.py:270-297.  The window holds numbers that need not be whole; center_p - t and center_p + t
    are converted by dropping the fraction (towards zero). *)
Definition truncated (q : Q) : Z := Z.quot (Qnum q) (Zpos (Qden q)).
Definition used (s : sides) (n : Z) (tw : list Q) : result (list Z) :=
  let c := inject_Z (center n) in
  match s with
  | Both => match tw with
            | [] => Raise IndexError
            | t0 :: r => Ok (map (fun t => truncated (c - t)) (rev tw) ++
                             map (fun t => truncated (c + t)) (if Qeq_bool t0 0 then r else tw))%list
            end
  | LeftSide => Ok (map (fun t => truncated (c - t)) (rev tw))
  | RightSide => Ok (map (fun t => truncated (c + t)) tw)
  | Single => Ok (map truncated tw)
  end.
Definition mask (s : sides) (n : nat) (tw : list Q) : result (list bool) :=
  do ix <- used s (Z.of_nat n) tw;
  if forallb (index_ok (Z.of_nat n)) ix
  then Ok (map (fun k => existsb (fun i => (wrap (Z.of_nat n) i =? Z.of_nat k)%Z) ix) (seq 0 n))
  else Raise IndexError.
(** np.arange(a, b, 1) *)
Definition qarange (a b : Q) : list Q := map (fun k => a + inject_Z (Z.of_nat k))%Q (seq 0 (Z.to_nat (Qceiling (b - a)))).

Section WithSpline.
  (** value of the cubic spline through the samples, see Model/Shift.v *)
  Variable sp : list R -> R -> R.
  (** What apply_stretch makes of a row with missing samples or without a measured value: the spline is not defined. *)
  Variable gap_row : list (option R) -> option R -> list (option R).
  (** CorrBulk.extract_multi_trace with the configured method: see Model/Reference.v *)
  Variable extract : bulk -> result (list (option R)).

  (** stretch_mod.py:451-455: the position about which the reference is stretched *)
  Definition stretch_center (s : sides) (n : nat) : R := match s with Single => 0 | _ => (INR n - 1) / 2 end.

  (** corr_mat_stretch with one window: correlation and value for every row, and the header of the matrix afterwards *)
  Definition stretch (c : config) (b : bulk) (ref : list (option R)) (ref_h : hdr) (tw : list Q)
    : result (list (option R * option R) * hdr) :=
    let h := b_hdr b in
    let dt := qmin (- h_lag h) (end_lag h) in
    let st := match c_sides c with Single => 0%Q | _ => (- dt)%Q end in
    let et := match c_sides c with Single => end_lag h | _ => dt end in
    let '(rows, h') := trim_rows (b_rows b) h st et in
    let strvec := map Q2R (linspace (- c_range c) (c_range c) (c_steps c)) in
    let r := nan_to_num ref in
    let refs := fst (trim_rows (map (stretched_ref sp (stretch_center (c_sides c) (length r)) r) strvec) ref_h st et) in
    match refs with
    | [] => Raise ValueError                                 (* maximum over no stretches *)
    | r0 :: _ =>
        if negb (length r0 =? h_npts h')%nat then Raise ValueError
        else
          do m <- mask (c_sides c) (h_npts h') tw;
          do res <- mapM (fun row => best_match strvec (sim_row m row refs)) rows;
          Ok (res, h')
    end.

  (** CorrBulk.correct_stretch; the values went through np.squeeze: with one row they are a number, which has no entries *)
  Definition correct_row (h : hdr) (row : list (option R)) (v : option R) : list (option R) :=
    match all_samples row, v with
    | Some x, Some v => map Some (stretch_row sp (Q2R (- h_lag h * h_sr h)) x (- v))
    | _, _ => gap_row row v
    end.
  Definition correct (b : bulk) (res : list (option R * option R)) : result bulk :=
    match for_rows (correct_row (b_hdr b)) (entry (squeeze (map snd res))) 0 (b_rows b) with
    | (None, rows) => Ok (mkB (b_hdr b) rows)
    | (Some e, _) => Raise e
    end.

  (** 256-304.  [custom]: the argument ref_trcs.  Trimming ccb (299) has no effect on what follows. *)
  Definition velocity_change (c : config) (lts : Q) (g : option geometry) (custom : option (list (option R))) (cb : bulk)
    : result (list (option R * option R)) :=
    do w <- window c lts g;
    let '(b, e) := w in
    let '(rows, h) := trim_rows (b_rows cb) (b_hdr cb) (- e) e in
    if (h_npts h <=? 20)%nat then Raise ValueError
    else
      let reference := fun b => match custom with Some r => Ok r | None => extract b end in
      do tr <- reference cb;
      let tw := qarange (b * h_sr h) (e * h_sr h) in
      do first <- stretch c (mkB h rows) tr (b_hdr cb) tw;
      do ccb <- correct cb (fst first);
      do tr' <- reference ccb;
      do second <- stretch c (mkB (snd first) rows) tr' (b_hdr cb) tw;
      Ok (fst second).
End WithSpline.
