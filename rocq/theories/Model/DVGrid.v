(** The grid of the spatial inversion as an object (monitor/spatial.py 276-948): what the velocity changes contribute,
    the stations it remembers and the kernels it keeps.  Real numbers; None is NaN. *)
From Coq Require Import Reals.
From Verif Require Import Lib.Base Model.Kernel Model.Spatial.
Local Open Scope R_scope.

(** a velocity change: times, values, coherences, positions of the two stations in the grid, and what dv_processing
    holds (tw_start, tw_len, freq_min, freq_max); None: dv_processing is None.  A dictionary without one of these entries
    (KeyError) is not modelled. *)
Record dvr := mkDV {
  d_starts : list Z; d_ends : list Z; d_value : list (option R); d_corr : list (option R);
  d_s0 : R * R; d_s1 : R * R; d_proc : option (R * R * R * R) }.

(** _extract_info_dvs, 746-762: value and coherence at the time closest to utc, None if the velocity change is left out *)
Definition picked (utc : Z) (d : dvr) : option (R * R) :=
  match d_starts d, rev (d_ends d) with
  | s :: _, e :: _ =>
      if (utc <? s)%Z || (e <? utc)%Z then None else
      let ii := closest (d_starts d) utc in
      match nth ii (d_value d) None, nth ii (d_corr d) None with
      | Some v, Some c => if leb c (1 / 1000) || leb 1 c then None else Some (v, c)
      | _, _ => None
      end
  | _, _ => None
  end.
(** what is extracted *)
Record info := mkI {
  i_vals : list R; i_corrs : list R; i_pairs : list ((R * R) * (R * R)); i_tw : option (R * R); i_freq0 : option R; i_freq1 : option R }.
Definition used (utc : Z) (dvs : list dvr) : list (dvr * (R * R)) :=
  flat_map (fun d => match picked utc d with Some p => [(d, p)] | None => [] end) dvs.

(** geo2cart, 243-273: stations south or west of the corner of the grid are refused *)
Definition outside (p : R * R) : bool := ltb (fst p) 0 || ltb (snd p) 0.
Definition same_point (p q : R * R) : bool := eqb (fst p) (fst q) && eqb (snd p) (snd q).
Fixpoint add_new (st l : list (R * R)) : list (R * R) :=
  match l with [] => st | p :: r => add_new (if existsb (same_point p) st then st else st ++ [p]) r end.
(** _add_stations, 788-820: list(set(...)); the order is not specified, here stations stay where they are *)
Definition add_stations (st l : list (R * R)) : list (R * R) * result unit :=
  if existsb outside l then (st, Raise ValueError) else (add_new st l, Ok tt).

(** _extract_info_dvs, 726-786: the stations the grid knows afterwards, and the result.  [processing] is that of the last
    velocity change that is used. *)
Definition extract (st : list (R * R)) (dvs : list dvr) (utc : Z) : list (R * R) * result info :=
  let us := used utc dvs in
  match rev us with
  | [] => (st, Raise IndexError)
  | (last, _) :: _ =>
      let '(st1, r1) := add_stations st (map (fun u => d_s0 (fst u)) us) in
      match r1 with
      | Raise e => (st1, Raise e)
      | Ok _ =>
          let '(st2, r2) := add_stations st1 (map (fun u => d_s1 (fst u)) us) in
          match r2 with
          | Raise e => (st2, Raise e)
          | Ok _ =>
              let proc := d_proc last in
              (st2, Ok (mkI (map (fun u => fst (snd u)) us) (map (fun u => snd (snd u)) us) (map (fun u => (d_s0 (fst u), d_s1 (fst u))) us)
                (match proc with Some (a, l, _, _) => Some (a, a + l) | None => None end)
                (match proc with Some (_, _, f, _) => Some f | None => None end)
                (match proc with Some (_, _, _, f) => Some f | None => None end)))
          end
      end
  end.

(** tw or twe; freq0 or freq0e: a frequency of zero counts as not given *)
Definition or_tw (a b : option (R * R)) : option (R * R) := match a with Some w => Some w | None => b end.
Definition or_freq (a b : option R) : option R := match a with Some f => if eqb f 0 then b else Some f | None => b end.

(** the kernels a grid keeps: the key holds the positions of the stations and the middle of the window *)
Definition key : Type := ((R * R) * (R * R)) * R.
Definition same_key (a b : key) : bool :=
  same_point (fst (fst a)) (fst (fst b)) && same_point (snd (fst a)) (snd (fst b)) && eqb (snd a) (snd b).
Fixpoint find_key (c : list (key * list R)) (k : key) : option (list R) :=
  match c with [] => None | (q, v) :: r => if same_key q k then Some v else find_key r k end.
(** _compute_sensitivity_kernels, 930-948: the kernels kept afterwards (also if one fails) and the rows *)
Fixpoint kernels (g : grid) (t : R) (c : list (key * list R)) (pairs : list ((R * R) * (R * R))) : list (key * list R) * result (list (list R)) :=
  match pairs with
  | [] => (c, Ok [])
  | p :: r =>
      match find_key c (p, t) with
      | Some k => let '(c', rs) := kernels g t c r in (c', do l <- rs; Ok (k :: l))
      | None => match kernel_row g t p with
                | Raise e => (c, Raise e)
                | Ok k => let '(c', rs) := kernels g t ((p, t, k) :: c) r in (c', do l <- rs; Ok (k :: l))
                end
      end
  end.
(** one row of np.dot(G, dv_grid.flatten()) *)
Definition dotp (k x : list R) : R := fold_right Rplus 0 (map (fun p => fst p * snd p) (combine k x)).
