(** Calls of the grid of the spatial inversion, one after the other (monitor/spatial.py 328-482, 571-713). *)
From Coq Require Import Reals List ZArith.
From mathcomp Require Import all_ssreflect all_algebra.
From Verif Require Import Lib.Base Lib.RField Model.Kernel Model.Inversion Model.GridInversion Model.DVGrid.
Set Implicit Arguments.
Unset Strict Implicit.

(** arguments of a call: velocity changes, time, window and frequencies (None: not given), scaling_factor, corr_len, std_model *)
Record args := mkArgs {
  a_dvs : list dvr; a_utc : Z; a_tw : option (R * R); a_freq0 : option R; a_freq1 : option R; a_scaling : R; a_corr_len : R; a_std : R }.
(** compute_dv_grid, compute_resolution, compute_posterior_covariance, forward_model with dvs; the model handed to the
    last is flattened *)
Inductive call := Invert (a : args) | Resolution (a : args) | Posterior (a : args) | Forward (x : list R) (a : args).
(** results; None: numpy.linalg.LinAlgError *)
Inductive out (m : nat) := OModel (w : option 'cV[Rf]_m) | OResolution (w : option 'cV[Rf]_m) | OCovariance (w : option 'M[Rf]_m) | OValues (l : list R).
Arguments OValues {m} l.

(** attributes of the object that calls change: statx/staty, skernels, dist, vel_change *)
Record gstate (g : grid) := mkS {
  s_stats : list (R * R); s_cache : list (key * list R); s_dist : option 'M[Rf]_(size_of g); s_vel : option 'cV[Rf]_(size_of g) }.
Definition new_grid (g : grid) : gstate g := @mkS g nil nil None None.

(** _compute_dist_matrix, 845-857, with its cache *)
Definition distances (g : grid) : 'M[Rf]_(size_of g) := (\matrix_(i, j) (edist (cell_at g i) (cell_at g j) : Rf))%R.
Definition get_dist g (s : gstate g) : gstate g * 'M[Rf]_(size_of g) :=
  match s_dist s with
  | Some d => (s, d)
  | None => (mkS (s_stats s) (s_cache s) (Some (distances g)) (s_vel s), distances g)
  end.
Definition cm_from m (a : args) (d : 'M[Rf]_m) : 'M[Rf]_m := (\matrix_(i, j) (compute_cm (a_scaling a) (a_corr_len a) (a_std a) (d i j) : Rf))%R.
(** _extract_info_dvs *)
Definition get_info g (s : gstate g) (a : args) : gstate g * result info :=
  let '(st, r) := extract (s_stats s) (a_dvs a) (a_utc a) in (mkS st (s_cache s) (s_dist s) (s_vel s), r).
(** _compute_sensitivity_kernels *)
Definition get_kernels g (s : gstate g) (i : info) (tw : R * R) : gstate g * result (list (list R)) :=
  let '(c, r) := kernels g (middle tw.1 tw.2) (s_cache s) (i_pairs i) in (mkS (s_stats s) c (s_dist s) (s_vel s), r).
(** window and frequencies; AttributeError if one is missing, 454-461 *)
Definition settings (a : args) (i : info) : result ((R * R) * R * R) :=
  match or_tw (a_tw a) (i_tw i), or_freq (a_freq0 a) (i_freq0 i), or_freq (a_freq1 a) (i_freq1 i) with
  | Some tw, Some f0, Some f1 => Ok (tw, f0, f1)
  | _, _, _ => Raise AttributeError
  end.
(** _extract_info_dvs, settings and kernels: common to three calls *)
Definition prepare g (s : gstate g) (a : args) : gstate g * result (info * ((R * R) * R * R) * list (list R)) :=
  let '(s, ri) := get_info s a in
  match ri with
  | Raise e => (s, Raise e)
  | Ok i => match settings a i with
            | Raise e => (s, Raise e)
            | Ok (tw, f0, f1) => let '(s, rk) := get_kernels s i tw in (s, bind rk (fun ks => Ok (i, (tw, f0, f1), ks)))
            end
  end.
Definition solve m (i : info) (w : (R * R) * R * R) (ks : list (list R))
  (f : forall n, 'M[Rf]_(n, m) -> 'rV[Rf]_n -> 'cV[Rf]_n -> out m) : result (out m) :=
  let '(tw, f0, f1) := w in
  bind (variances (i_corrs i) tw.1 tw.2 f0 f1) (fun vs =>
  Ok (f (length (i_pairs i)) (matrix_of _ _ ks) (row_of _ vs) (column_of _ (i_vals i)))).

Definition run g (s : gstate g) (c : call) : gstate g * result (out (size_of g)) :=
  match c with
  | Invert a =>                                                     (* compute_dv_grid, 388-482 *)
      let '(s, r) := prepare s a in
      match r with
      | Raise e => (s, Raise e)
      | Ok (i, w, ks) =>
          let '(s, d) := get_dist s in
          let o := solve i w ks (fun n G v vals => OModel (compute_dv_grid G (cm_from a d) v vals)) in
          match o with
          | Ok (OModel (Some x)) => (mkS (s_stats s) (s_cache s) (s_dist s) (Some x), o)
          | _ => (s, o)
          end
      end
  | Resolution a =>                                                 (* compute_resolution, 571-643 *)
      let '(s, d) := get_dist s in
      let '(s, r) := prepare s a in
      (s, bind r (fun '(i, w, ks) => solve i w ks (fun n G v _ => OResolution (compute_resolution G (cm_from a d) v))))
  | Posterior a =>                                                  (* compute_posterior_covariance, 645-705 *)
      let '(s, d) := get_dist s in
      let '(s, r) := prepare s a in
      (s, bind r (fun '(i, w, ks) => solve i w ks (fun n G v _ => OCovariance (posterior_covariance G (cm_from a d) v))))
  | Forward x a =>                                                  (* forward_model, 328-386, with dvs and utc *)
      if negb (length x == size_of g) then (s, Raise ValueError) else
      let '(s, ri) := get_info s a in
      match ri with
      | Raise e => (s, Raise e)
      | Ok i => match or_tw (a_tw a) (i_tw i) with
                | None => (s, Raise TypeError)
                | Some tw => let '(s, rk) := get_kernels s i tw in (s, bind rk (fun ks => Ok (OValues (List.map (fun k => dotp k x) ks))))
                end
      end
  end.
(** a history of calls; exceptions are caught by the caller *)
Fixpoint runs g (s : gstate g) (cs : list call) : gstate g := match cs with nil => s | c :: r => runs (fst (run s c)) r end.
