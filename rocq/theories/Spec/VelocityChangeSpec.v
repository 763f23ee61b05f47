(** What the velocity change of a matrix of correlations is. *)
From Coq Require Import Reals QArith Qreals.
From Verif Require Import Lib.Base Model.LagMatrix Model.Similarity Model.Shift Model.VelocityChange.
Local Open Scope R_scope.

(** The lags of the matrix run from -M to M samples. *)
Definition two_sided (h : hdr) (M : nat) : Prop := (0 < h_sr h)%Q /\ h_npts h = (2 * M + 1)%nat /\ (h_lag h * h_sr h == - inject_Z (Z.of_nat M))%Q.

(** All traces of the matrix have as many samples as the axis. *)
Definition whole (b : bulk) (M : nat) : Prop := forall row, In row (b_rows b) -> length row = (2 * M + 1)%nat.
(** The method that extracts references from matrices like [cb] gives a trace on the same axis. *)
Definition extracts (extract : bulk -> result (list (option R))) (cb : bulk) (M : nat) : Prop :=
  forall b r, b_hdr b = b_hdr cb -> length (b_rows b) = length (b_rows cb) -> whole b M -> extract b = Ok r -> length r = (2 * M + 1)%nat.

(** Lag [x] belongs to the window from [b] to [e] on the side(s) wanted. *)
Definition in_lags (b e x : Q) : bool := Qle_bool b x && negb (Qle_bool e x).
Definition in_window (s : sides) (b e x : Q) : bool :=
  match s with
  | Both => in_lags b e x || in_lags b e (- x)
  | LeftSide => in_lags b e (- x)
  | RightSide | Single => in_lags b e x
  end.
(** the trace, silenced outside the window *)
Definition windowed (s : sides) (h : hdr) (b e : Q) (row : list R) : list R :=
  map (fun k => if in_window s b e (h_lag h + inject_Z (Z.of_nat k) / h_sr h) then nth k row 0 else 0) (seq 0 (h_npts h)).

(** the stretches tested *)
Definition tested (c : config) : list R := map Q2R (linspace (- c_range c) (c_range c) (c_steps c)).

Section WithSpline.
  Variable sp : list R -> R -> R.

  (** how similar the trace is to the reference stretched by [v] about position [p] (counted in samples) *)
  Definition likeness (s : sides) (h : hdr) (b e : Q) (p : R) (ref row : list R) (v : R) : option R :=
    similarity (windowed s h b e row) (windowed s h b e (stretched_ref sp p ref v)).

  (** one measurement: for every trace the largest similarity and its stretch *)
  Definition measure (c : config) (h : hdr) (b e : Q) (p : R) (rows : list (list (option R))) (ref : list (option R)) : result (list (option R * option R)) :=
    mapM (fun row => best_match (tested c) (map (likeness (c_sides c) h b e p (nan_to_num ref) (nan_to_num row)) (tested c))) rows.

  (** The whole procedure: a reference is taken from the matrix, the stretch of every trace is measured and corrected for, a new
      reference is taken from the corrected matrix, and the stretch of the original traces is measured with it.  A reference given by
      the user replaces both.  The references are stretched about lag zero, which is sample [M]. *)
  Definition two_pass (gap_row : list (option R) -> option R -> list (option R)) (extract : bulk -> result (list (option R)))
      (c : config) (M : nat) (b e : Q) (custom : option (list (option R))) (cb : bulk) : result (list (option R * option R)) :=
    let reference := fun b => match custom with Some r => Ok r | None => extract b end in
    let measured := measure c (b_hdr cb) b e (INR M) (b_rows cb) in
    do tr <- reference cb;
    do first <- measured tr;
    do corrected <- correct sp gap_row cb first;
    do tr' <- reference corrected;
    measured tr'.
End WithSpline.

(** The trace between lag [p - M] and [p - M + E], silenced outside the samples [B] to [E - 1] of it. *)
Definition piece (B E : nat) (p : nat) (row : list R) : list R :=
  map (fun k => if (B <=? k)%nat && (k <? E)%nat then nth (p + k) row 0 else 0) (seq 0 (E + 1)).
