(** Time shifts of correlation traces: measure_shift (monitor/post_corr_process.py:1031-1202), apply_shift (1205-1229),
    apply_stretch (1232-1254), CorrBulk.correct_stretch and correct_shift (correlate/stream.py:188-225),
    create_shifted_ref_mat and compare_with_modified_reference (monitor/stretch_mod.py:1223-1270), time_shift_estimate (955-1103),
    time_shift_apply (1106-1157), time_stretch_apply (1160-1220) and the stretched references of time_stretch_estimate (344-488).
    Samples are reals, [None] is NaN; rounding is not modelled.  Positions on the lag axis are counted in samples from the first one.
    The cubic spline of scipy (UnivariateSpline(x, y, s=0)) is a parameter [sp]: sp y u is its value at position u, for
    positions outside the axis its continuation. *)
From Coq Require Import Reals QArith Qround Qreals.
From Verif Require Import Lib.Base Model.LagMatrix Model.Spectral Model.TimeDomain Model.Similarity Model.DVs.
Local Open Scope R_scope.

(** a measurement: np.squeeze turns the list of one value into a number *)
Inductive measured := Number (v : option R) | Values (l : list (option R)).
Definition squeeze (l : list (option R)) : measured := match l with [v] => Number v | _ => Values l end.
Definition opposite (m : measured) : measured :=                 (* -1. * m *)
  match m with Number v => Number (option_map Ropp v) | Values l => Values (map (option_map Ropp) l) end.
Definition entry (m : measured) (i : nat) : option (option R) := match m with Number _ => None | Values l => nth_error l i end.

(** ** apply_shift *)
Definition ceilz (u : R) : Z := (1 - up (- u))%Z.
(** interp1d(kind='linear'): searchsorted, then clip to 1 .. n-1; result: the sample on the left *)
Definition cell (n : nat) (u : R) : nat := Z.to_nat (Z.min (Z.max (ceilz u) 1) (Z.of_nat n - 1) - 1).
Definition between (a b : option R) (f : R) : option R := match a, b with Some x, Some y => Some (x + f * (y - x)) | _, _ => None end.
(** fill_value='extrapolate' *)
Definition interp (row : list (option R)) (u : R) : option R :=
  let i := cell (length row) u in between (nth i row None) (nth (S i) row None) (u - INR i).
(** one row, shift in samples (shift times sampling rate) *)
Definition shift_row (row : list (option R)) (s : option R) : list (option R) :=
  match s with
  | Some v => map (fun k => interp row (INR k + v)) (seq 0 (length row))
  | None => repeat None (length row)
  end.
(** The rows are replaced one after the other in the array that was passed: the second component is that array afterwards. *)
Fixpoint for_rows {A S} (f : A -> S -> A) (get : nat -> option S) (i : nat) (rows : list A) : option exc * list A :=
  match rows with
  | [] => (None, [])
  | r :: rest =>
      match get i with
      | None => (Some IndexError, rows)
      | Some s => let (e, rest') := for_rows f get (Datatypes.S i) rest in (e, f r s :: rest')
      end
  end.
Definition in_samples (h : hdr) (s : option R) : option R := option_map (fun v => v * Q2R (h_sr h)) s.
Definition apply_shift (h : hdr) (data : list (list (option R))) (shifts : measured) : option exc * list (list (option R)) :=
  for_rows (fun row s => shift_row row (in_samples h s)) (entry shifts) 0 data.

(** the object DV as far as it is used here *)
Inductive value_type := ShiftValue | StretchValue.
Record measurement := mkM { m_corr : measured; m_value : measured; m_type : value_type }.
(** CorrBulk.correct_shift: the kind of the values is not looked at *)
Definition correct_shift (h : hdr) (data : list (list (option R))) (dt : measurement) : option exc * list (list (option R)) :=
  apply_shift h data (opposite (m_value dt)).

(** ** measure_shift; the reference is given and has no missing samples *)
Definition linspace (a b : Q) (n : nat) : list Q :=
  match n with
  | 1%nat => [a]
  | _ => map (fun i => a + inject_Z (Z.of_nat i) * ((b - a) / inject_Z (Z.of_nat n - 1)))%Q (seq 0 n)
  end.
Definition qmax (a b : Q) : Q := if Qle_bool a b then b else a.
(** np.max(tw), np.min(tw); [None]: ValueError *)
Definition latest (tw : list (Q * Q)) : option Q :=
  match tw with [] => None | w :: r => Some (fold_left (fun m w => qmax m (qmax (fst w) (snd w))) r (qmax (fst w) (snd w))) end.
Definition earliest (tw : list (Q * Q)) : option Q :=
  match tw with [] => None | w :: r => Some (fold_left (fun m w => qmin m (qmin (fst w) (snd w))) r (qmin (fst w) (snd w))) end.
Inductive shift_sides := BothSides | SingleSide | OtherSides.
(** 1165-1172: the samples of one window; [lag] is the first lag after trimming *)
Definition window_indices (sd : shift_sides) (sr lag : Q) (w : Q * Q) : list Z :=
  let ix := arange (Qceiling (fst w * sr)) (Qfloor (snd w * sr)) 1 in
  let ix := match sd with BothSides => (map Z.opp (rev ix) ++ ix)%list | _ => ix end in
  map (fun i => (i - round_half_even (lag * sr))%Z) ix.
(** row[indices] *)
Definition pick {A} (d : A) (ix : list Z) (row : list A) : list A := map (fun i => nth (Z.to_nat (wrap (Z.of_nat (length row)) i)) row d) ix.
(** a missing sample makes the products NaN *)
Definition compare_rows (ix : list Z) (row : list (option R)) (ref : list R) : option R :=
  match all_samples (pick None ix row) with Some x => similarity x (pick 0 ix ref) | None => None end.
(** np.nanmean over the windows *)
Definition nan_mean (l : list (option R)) : option R := match existing l with [] => None | v => Some (mean v) end.

Section WithSpline.
  Variable sp : list R -> R -> R.

  (** create_shifted_ref_mat for one shift (in samples) *)
  Definition shifted_ref (ref : list R) (s : R) : list R := map (fun k => sp ref (INR k + s)) (seq 0 (length ref)).

  (** 1159-1180: one row of the matrix after trimming *)
  Definition shift_sims (windows : list (list Z)) (refs : list (list R)) (row : list (option R)) : list (option R) :=
    map (fun ref => nan_mean (map (fun ix => compare_rows ix row ref) windows)) refs.

  Definition shift_measurement (res : list (option R * option R)) : measurement :=
    mkM (squeeze (map fst res)) (squeeze (map snd res)) ShiftValue.

  (** 1124-1200 for windows [tw]; tests of the arguments first *)
  Definition measure_windows (h : hdr) (data : list (list (option R))) (ref : list R) (tw : list (Q * Q)) (range : Q) (steps : nat) (sd : shift_sides)
    : result measurement :=
    match latest tw, earliest tw with
    | Some hi, Some lo =>
        let twmax := (hi + range)%Q in
        let twmin := match sd with BothSides => (- twmax)%Q | _ => (lo - range)%Q end in
        if negb (Qle_bool twmax (end_lag h)) then Raise AssertionError
        else if negb (Qle_bool (h_lag h) twmin) then Raise AssertionError
        else
          let start := Qfloor ((twmin - h_lag h) * h_sr h) in
          let stop := Qfloor ((twmax - h_lag h) * h_sr h) in
          let d := map (fun row => pyslice row start (stop + 1)) data in      (* corr_mat_trim, see LagMatrix.trim *)
          let r := pyslice ref start (stop + 1) in
          let shifts := linspace (- range) range steps in
          let refs := map (fun s => shifted_ref r (Q2R (s * h_sr h))) shifts in
          let windows := map (window_indices sd (h_sr h) twmin) tw in
          if forallb (fun ix => forallb (index_ok (Z.of_nat (length r))) ix) windows
          then do res <- mapM (fun row => best_match (map Q2R shifts) (shift_sims windows refs row)) d; Ok (shift_measurement res)
          else Raise IndexError
    | _, _ => Raise ValueError
    end.
  Definition measure_shift (h : hdr) (data : list (list (option R))) (ref : list R) (tw : option (list (Q * Q))) (range : Q) (steps : nat) (sd : shift_sides)
    : result measurement :=
    if Nat.even steps then Raise ValueError
    else match sd with
    | OtherSides => Raise ValueError
    | _ =>
      match tw with
      | Some l =>
          if match sd with BothSides => existsb (fun w => negb (Qle_bool 0 (fst w)) || negb (Qle_bool 0 (snd w))) l | _ => false end then Raise ValueError
          else if negb (length ref =? h_npts h)%nat then Raise ValueError
          else measure_windows h data ref l range steps sd
      | None =>
          if negb (length ref =? h_npts h)%nat then Raise ValueError
          else measure_windows h data ref [(h_lag h + range, end_lag h - range)%Q] range steps sd
      end
    end.

  (** ** the other pair of functions for shifts, in samples: time_shift_estimate evaluates the reference at t - s with ext='const':
      beyond the ends the first or last value is repeated *)
  Definition clipped (n : nat) (u : R) : R := Rmax 0 (Rmin u (INR (n - 1))).
  Definition displaced_ref (ref : list R) (s : R) : list R := map (fun k => sp ref (clipped (length ref) (INR k - s))) (seq 0 (length ref)).

  (** ** stretching.  [c] is the position of lag zero.  Zero outside the axis (ext=1 / ext='zeros'), or continued *)
  Definition inside (n : nat) (u : R) : bool := if Rle_dec 0 u then if Rle_dec u (INR (n - 1)) then true else false else false.
  Definition stretch_at (c : R) (row : list R) (f : R) (k : nat) : R := sp row (c + (INR k - c) * f).
  (** apply_stretch for one row without missing samples *)
  Definition stretch_row (c : R) (row : list R) (v : R) : list R :=
    map (fun k => if inside (length row) (c + (INR k - c) * exp (- v)) then stretch_at c row (exp (- v)) k else 0) (seq 0 (length row)).
  Definition apply_stretch (c : R) (data : list (list R)) (l : list R) : option exc * list (list R) :=
    for_rows (stretch_row c) (nth_error l) 0 data.
  (** CorrBulk.correct_stretch *)
  Definition correct_stretch (c : R) (data : list (list R)) (ty : value_type) (l : list R) : option exc * list (list R) :=
    match ty with StretchValue => apply_stretch c data (map Ropp l) | ShiftValue => (Some ValueError, data) end.
  (** time_stretch_estimate: the stretched reference *)
  Definition stretched_ref (c : R) (ref : list R) (v : R) : list R :=
    map (fun k => if inside (length ref) (c + (INR k - c) * exp (- v)) then stretch_at c ref (exp (- v)) k else 0) (seq 0 (length ref)).
  (** time_stretch_apply for one row; [taper] is cosine_taper(n, 0.05).  The array that is passed is multiplied with the taper:
      result: stretched row and row afterwards *)
  Definition time_stretch_apply_row (taper : list R) (c : R) (row : list R) (v : R) : list R * list R :=
    let t := map (fun p => fst p * snd p) (combine row taper) in
    (map (stretch_at c t (exp v)) (seq 0 (length t)), t).
End WithSpline.

(** time_shift_apply for one row, shift in samples: interp1d(bounds_error=False, fill_value=0) at t - shift *)
Definition time_shift_apply_row (row : list R) (s : R) : list R :=
  map (fun k => let u := INR k - s in
                if inside (length row) u then match interp (map Some row) u with Some v => v | None => 0 end else 0)
      (seq 0 (length row)).
