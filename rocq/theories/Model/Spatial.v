(** Spatial inversion grid (monitor/spatial.py): finding cells and aligning velocity changes.  Exact rationals,
    [None] is NaN. *)
From Coq Require Import QArith Qabs Qround.
From Verif Require Import Lib.Base Model.DVFile.
Local Open Scope nat_scope.

Definition Qlt_b (a b : Q) : bool := negb (Qle_bool b a).
(** np.argmin: first of the smallest *)
Fixpoint argmin_from (i best : nat) (bv : Q) (l : list Q) : nat :=
  match l with [] => best | x :: r => if Qlt_b x bv then argmin_from (S i) i x r else argmin_from (S i) best bv r end.
Definition argmin (l : list Q) : result nat :=
  match l with [] => Raise ValueError | x :: r => Ok (argmin_from 1 0 x r) end.

(** np.arange(0, extent + res, res) *)
Definition arange (extent res : Q) : list Q :=
  map (fun i => (inject_Z (Z.of_nat i) * res)%Q) (seq 0 (Z.to_nat (Qceiling ((extent + res) / res)))).
(** DVGrid.__init__, 280-326: [cells] are the pairs (xf, yf) of the flattened grid, row by row *)
Definition mesh (xaxis yaxis : list Q) : list (Q * Q) := flat_map (fun y => map (fun x => (x, y)) xaxis) yaxis.
Definition sqdist (x y : Q) (c : Q * Q) : Q := ((fst c - x) * (fst c - x) + (snd c - y) * (snd c - y))%Q.

(** geo2cart, 243-273, raises ValueError for a point south or west of the corner of the grid; the easting and the
    northing are inputs here. *)
(** _find_coord, 859-896, for one point: note the parenthesis in abs(self.yf-y > self.res) *)
Definition find_coord (cells : list (Q * Q)) (res x y : Q) : result nat :=
  if Qlt_b x 0 || Qlt_b y 0 then Raise ValueError
  else if forallb (fun c => Qlt_b res (Qabs (fst c - x))) cells || forallb (fun c => Qlt_b res (snd c - y)) cells
  then Raise ValueError
  else argmin (map (sqdist x y) cells).
(** _find_coord for arrays of points *)
Definition find_coords (cells : list (Q * Q)) (res : Q) (pts : list (Q * Q)) : result (list nat) :=
  if existsb (fun p => Qlt_b (fst p) 0 || Qlt_b (snd p) 0) pts then Raise ValueError
  else if forallb (fun p => forallb (fun c => Qlt_b res (Qabs (fst c - fst p))) cells) pts
       || forallb (fun p => forallb (fun c => Qlt_b res (Qabs (snd c - snd p))) cells) pts
  then Raise ValueError
  else mapM (fun p => argmin (map (sqdist (fst p) (snd p)) cells)) pts.

(** ** Aligning *)
(** dv_processing['aligned'] *)
Inductive flag := FMissing | FFalse | F0d (* array read from a file *) | FShift (q : Q).
(** the test [.get('aligned', False) is False] *)
Definition not_aligned (f : flag) : bool := match f with FMissing | FFalse => true | _ => false end.

(** the entry of a dictionary dv_processing *)
Definition flag_of (p : list (string * pval)) : flag :=
  match dget p "aligned"%string with
  | None => FMissing
  | Some (PBool false) => FFalse
  | Some (PNum q) => FShift q
  | Some _ => F0d                      (* 0-d array; also any other object *)
  end.
(** a velocity change: identity of its dv_processing dictionary, times, values, coherence (avail is where the
    coherence is a number), station pair and lapse time window, None if dv_processing does not hold one *)
Record curve := mkC {
  c_proc : nat; c_starts : list Z; c_ends : list Z; c_value : list (option Q); c_corr : list (option Q);
  c_pair : nat; c_tw : option Q }.

(** ii = np.argmin(abs(corr_start - utc)) *)
Fixpoint zargmin_from (i best : nat) (bv : Z) (l : list Z) : nat :=
  match l with [] => best | x :: r => if (x <? bv)%Z then zargmin_from (S i) i x r else zargmin_from (S i) best bv r end.
Definition closest (l : list Z) (utc : Z) : nat :=
  match map (fun t => Z.abs (t - utc)) l with [] => 0 | x :: r => zargmin_from 1 0 x r end.
Definition at_ (l : list (option Q)) (i : nat) : option Q := nth i l None.
Definition covered (c : curve) (utc : Z) : bool :=
  match c_starts c, rev (c_ends c) with s :: _, e :: _ => negb ((utc <? s)%Z || (e <? utc)%Z) | _, _ => false end.

(** dv_starts, 1072-1094 *)
Definition dv_starts (c : curve) (utc : Z) (thres : Q) : bool :=
  (6 <=? length (filter (@is_some Q) (c_corr c))) && covered c utc &&
  match at_ (c_corr c) (closest (c_starts c) utc) with Some q => negb (Qlt_b q thres) | None => false end.

(** _extract_info_dvs, 726-786: which curves are used *)
Definition usable (c : curve) (utc : Z) : bool :=
  covered c utc &&
  match at_ (c_value c) (closest (c_starts c) utc), at_ (c_corr c) (closest (c_starts c) utc) with
  | Some _, Some q => Qlt_b (1 # 1000) q && Qlt_b q 1
  | _, _ => false
  end.
(** forward_model, 328-386: [fwd pair tw] is the velocity change the model predicts for a pair of stations; the
    window is that of the last curve that is used *)
Definition forward_model (fwd : nat -> Q -> Q) (dvs : list curve) (utc : Z) : result (list Q) :=
  let used := filter (fun c => usable c utc) dvs in
  match rev used with
  | [] => Raise IndexError
  | l :: _ => match c_tw l with
              | Some tw => Ok (map (fun c => fwd (c_pair c) tw) used)
              | None => Raise KeyError
              end
  end.

Definition qsum (l : list Q) : Q := fold_right Qplus 0%Q l.
(** np.nansum *)
Definition nansum (l : list (option Q)) : Q := qsum (flat_map (fun o => match o with Some q => [q] | None => [] end) l).
Definition omul (a b : option Q) : option Q := match a, b with Some x, Some y => Some (x * y)%Q | _, _ => None end.
Definition slice {A} (lo hi : nat) (l : list A) : list A := skipn lo (firstn hi l).
Fixpoint map2 {A B C} (f : A -> B -> C) (a : list A) (b : list B) : list C :=
  match a, b with x :: r, y :: q => f x y :: map2 f r q | _, _ => [] end.
(** np.nansum(value*corr)/np.nansum(corr); a division by zero gives a result that is not finite: None *)
Definition wmean (v c : list (option Q)) : option Q :=
  if Qeq_bool (nansum c) 0 then None else Some (nansum (map2 omul v c) / nansum c)%Q.
(** align_dv_curves, 1033-1069: the new values *)
Definition align_curve (c : curve) (utc : Z) (steps : nat) (value : Q) : result curve :=
  let ii := closest (c_starts c) utc in
  let n := length (c_value c) in
  match at_ (c_value c) ii with
  | None => Raise ValueError
  | Some _ =>
      let '(lo, hi) := if ii <? steps then (0, ii + steps + 1)
                       else if (Z.of_nat n - Z.of_nat steps <? Z.of_nat ii)%Z then (ii - steps, n)
                       else (ii - steps, ii + steps + 1) in
      let shift := wmean (slice lo hi (c_value c)) (slice lo hi (c_corr c)) in
      let sub o := match o, shift with Some v, Some s => Some (v - (s - value))%Q | _, _ => None end in
      Ok (mkC (c_proc c) (c_starts c) (c_ends c) (map sub (c_value c)) (c_corr c) (c_pair c) (c_tw c))
  end.
Definition set_flag (flags : nat -> flag) (k : nat) (f : flag) : nat -> flag := fun i => if i =? k then f else flags i.
(** the loop of align_dvs_to_grid: zip stops at the shorter list *)
Fixpoint align_loop (flags : nat -> flag) (dvs : list curve) (shifts : list Q) (utc : Z) (steps : nat)
  : result ((nat -> flag) * list curve) :=
  match dvs, shifts with
  | c :: r, s :: q =>
      do c' <- align_curve c utc steps s;
      do fr <- align_loop (set_flag flags (c_proc c) (FShift s)) r q utc steps;
      Ok (fst fr, c' :: snd fr)
  | _, _ => Ok (flags, dvs)
  end.
(** align_dvs_to_grid, 987-1030: [vel] is None if the grid has no velocity model yet.  The curves changed before an
    exception is raised are not recorded. *)
Definition align_dvs (vel : option (nat -> Q -> Q)) (flags : nat -> flag) (dvs : list curve) (utc : Z) (steps : nat) (thres : Q)
  : result ((nat -> flag) * list curve) :=
  let dvs := filter (fun c => not_aligned (flags (c_proc c))) dvs in
  let dvs := filter (fun c => dv_starts c utc thres) dvs in
  match dvs with
  | [] => Ok (flags, [])
  | _ => do shifts <- match vel with
                      | Some fwd => forward_model fwd dvs utc
                      | None => Ok (map (fun _ => 0%Q) dvs)
                      end;
         align_loop flags dvs shifts utc steps
  end.
