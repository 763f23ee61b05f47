(** Combining velocity changes measured with several references
    (monitor/stretch_mod.py: est_shift_from_dt_corr 594-675, _create_G 678-696,
    estimate_reftr_shifts_from_dt_corr 699-856, multi_ref_vchange_and_align 859-952).
    Numbers are reals, [None] is NaN or a masked entry; infinities do not occur in measured values. *)
From Verif Require Import Lib.Base Model.Similarity.
From Coq Require Import Reals.
Local Open Scope R_scope.

Definition sum (l : list R) : R := fold_right Rplus 0 l.

(** ** est_shift_from_dt_corr *)
(** Division of masked arrays masks the entries whose divisor is 0. *)
Definition mdiv (a b : R) : option R := if Req_EM_T b 0 then None else Some (a / b).

(** var = (1 - corr ** 2) / (4 * corr ** 2)  (lines 648-649) *)
Definition variance (c : R) : option R := mdiv (1 - c * c) (4 * (c * c)).

(** wgt = 1 / (var1 + var2)  (line 652) *)
Definition weight (c1 c2 : option R) : option R :=
  match c1, c2 with
  | Some a, Some b =>
      match variance a, variance b with
      | Some v1, Some v2 => mdiv 1 (v1 + v2)
      | _, _ => None
      end
  | _, _ => None
  end.

Definition above (t : R) (c : option R) : bool :=
  match c with Some v => if Rlt_dec t v then true else false | None => false end.
(** no_zero (line 641) and mask (line 654): the points left out *)
Definition no_zero (c1 c2 : option R) : bool := above 0 c1 && above 0 c2.
Definition left_out (c1 c2 : option R) : bool :=
  above (999 / 1000) c1 && above (999 / 1000) c2 && negb (no_zero c1 c2).

(** One date: velocity changes and correlations with the two references. *)
Record point := mkpoint { dt1 : option R; dt2 : option R; cor1 : option R; cor2 : option R }.

(** np.sum of a masked array: masked entries are skipped; all masked gives masked *)
Definition msum (l : list (option R)) : option R :=
  fold_right (fun x a => match x, a with
                         | Some v, Some s => Some (v + s)
                         | Some v, None => Some v
                         | None, _ => a
                         end) None l.

Definition olift (f : R -> R -> R) (a b : option R) : option R :=
  match a, b with Some x, Some y => Some (f x y) | _, _ => None end.

(** the two returned numbers, (comb_corr, shift): lines 655-675.  [sum / wgt_s] is NaN when every
    term is masked. *)
Definition est_shift (pts : list point) : option R * option R :=
  let kept := filter (fun p => negb (left_out (cor1 p) (cor2 p))) pts in
  let wgt := map (fun p => weight (cor1 p) (cor2 p)) kept in
  let wgt_s := msum wgt in
  let shift := msum (map (fun p => olift Rmult (olift Rminus (dt1 p) (dt2 p)) (weight (cor1 p) (cor2 p))) kept) in
  let comb := msum (map (fun p => olift Rmult (olift Rplus (cor1 p) (cor2 p)) (weight (cor1 p) (cor2 p))) kept) in
  (olift Rdiv comb wgt_s, olift Rdiv shift wgt_s).

(** ** _create_G: one row per ordered pair (jj, i) of different references; the unknowns are the
    shifts of the references 1 .. n-1 *)
Definition others (n jj : nat) : list nat := filter (fun i => negb (i =? jj)%nat) (seq 0 n).
Definition pairs (n : nat) : list (nat * nat) := flat_map (fun jj => map (fun i => (jj, i)) (others n jj)) (seq 0 n).
(** row for the pair (jj, i): -1 in column jj - 1 unless jj = 0, +1 in column i - 1 unless i = 0 *)
Definition G_row (n : nat) (p : nat * nat) : list R :=
  map (fun k => if (0 <? snd p)%nat && (k =? snd p - 1)%nat then 1
                else if (0 <? fst p)%nat && (k =? fst p - 1)%nat then -1 else 0) (seq 0 (n - 1)).
Definition create_G (n : nat) : list (list R) := map (G_row n) (pairs n).

(** ** matrices are lists of rows *)
Definition column (G : list (list R)) (k : nat) : list R := map (fun r => nth k r 0) G.
(** np.dot(M, v) *)
Definition mat_vec (M : list (list R)) (v : list R) : list R := map (fun r => dot r v) M.
(** GTW = G.T * diag(w) for a matrix with c columns *)
Definition GTW (c : nat) (G : list (list R)) (w : list R) : list (list R) :=
  map (fun k => map (fun p => fst p * snd p) (combine (column G k) w)) (seq 0 c).
(** np.dot(A, G) *)
Definition mat_mul (c : nat) (A G : list (list R)) : list (list R) :=
  map (fun a => map (fun k => dot a (column G k)) (seq 0 c)) A.

(** np.nan_to_num of one number *)
Definition num (o : option R) : R := match o with Some v => v | None => 0 end.

(** np.around: halves to the even neighbour *)
Definition around (x : R) : Z :=
  let f := Int_part x in
  let d := x - IZR f in
  if Rlt_dec d (1 / 2) then f
  else if Rlt_dec (1 / 2) d then (f + 1)%Z
  else if Z.even f then f else (f + 1)%Z.

(** What multi_ref_panel holds for one reference, after np.squeeze: value, corr (one entry per date)
    and sim_mat (one row per date).  The entries are listed in the order of the sorted keys; the
    first is reftr_0. *)
Record panel := mkpanel { value : list (option R); corr : list (option R); sim_mat : list (list (option R)) }.

Definition points (a b : panel) : list point :=
  map (fun p => mkpoint (fst (fst p)) (snd (fst p)) (fst (snd p)) (snd (snd p)))
      (combine (combine (value a) (value b)) (combine (corr a) (corr b))).

Definition no_panel : panel := mkpanel [] [] [].

(** lines 757-768: (corr, shift) of every ordered pair *)
Definition pair_shifts (ps : list panel) : list (option R * option R) :=
  map (fun p => est_shift (points (nth (fst p) ps no_panel) (nth (snd p) ps no_panel))) (pairs (length ps)).

Section WithPinv.
  (** np.linalg.pinv *)
  Variable pinv : list (list R) -> list (list R).

  (** lines 770-794: the shifts of the references, with mean 0 *)
  Definition solve (n : nat) (w d : list R) : list R :=
    let G := create_G n in
    let A := mat_mul (n - 1) (GTW (n - 1) G w) G in
    mat_vec (pinv A) (mat_vec (GTW (n - 1) G w) d).
  Definition centred (m : list R) : list R := map (fun x => x - sum m / INR (length m)) m.
  Definition ref_shifts (ps : list panel) : list R :=
    let cs := pair_shifts ps in
    centred (0 :: solve (length ps) (map (fun c => num (fst c)) cs) (map (fun c => num (snd c)) cs)).

  (** lines 795-800: in samples of the stretch axis *)
  Definition ref_samples (delta : R) (ps : list panel) : list Z := map (fun m => around (m / delta)) (ref_shifts ps).

  (** np.roll(row, k) *)
  Definition roll {A} (d : A) (k : Z) (row : list A) : list A :=
    map (fun i => nth (Z.to_nat ((Z.of_nat i - k) mod Z.of_nat (length row))) row d) (seq 0 (length row)).

  (** mean of the unmasked entries (line 821) *)
  Definition masked_mean (l : list (option R)) : option R :=
    match msum l with
    | Some s => Some (s / INR (length (filter is_some l)))
    | None => None
    end.

  (** bsimmat: for every date t and stretch j the mean over the references *)
  Definition rolled (delta : R) (ps : list panel) : list (list (list (option R))) :=
    map (fun p => map (roll None (fst p)) (sim_mat (snd p))) (combine (ref_samples delta ps) ps).
  Definition entry3 (ms : list (list (list (option R)))) (t j : nat) : list (option R) :=
    map (fun m => nth j (nth t m []) None) ms.
  Definition combined (delta : R) (row col : nat) (ps : list panel) : list (list (option R)) :=
    map (fun t => map (fun j => masked_mean (entry3 (rolled delta ps) t j)) (seq 0 col)) (seq 0 row).

  (** np.max / np.argmax of a masked row: masked entries count as -inf (lines 823-824) *)
  Definition beats (a b : option R) : bool :=       (* a replaces the best value b so far *)
    match a, b with
    | Some x, Some y => if Rlt_dec y x then true else false
    | Some _, None => true
    | None, _ => false
    end.
  Fixpoint mmax_from (i best : nat) (bv : option R) (l : list (option R)) : nat * option R :=
    match l with
    | [] => (best, bv)
    | x :: r => if beats x bv then mmax_from (S i) i x r else mmax_from (S i) best bv r
    end.
  Definition mmax (l : list (option R)) : nat * option R :=
    match l with [] => (O, None) | x :: r => mmax_from 1%nat 0%nat x r end.

  (** estimate_reftr_shifts_from_dt_corr: (corr, value, sim_mat) per date.  [row, col =
      np.squeeze(sim_mat).shape] (line 802) cannot be unpacked when there is only one date or only
      one stretch.  fewer than two stretches: [stretch_vect[1]] is an IndexError.
      One reference: None is returned.  *)
  Definition combine_refs (strvec : list R) (ps : list panel) : result (option (list (option R * option R * list (option R)))) :=
    match strvec with
    | s0 :: s1 :: _ =>
        if (length ps <=? 1)%nat then Ok None else
        let row := length (sim_mat (hd no_panel ps)) in
        let col := length strvec in
        if (row <=? 1)%nat then Raise ValueError else
        Ok (Some (map (fun r => let m := mmax r in (snd m, Some (nth (fst m) strvec 0), r))
                      (combined (s1 - s0) row col ps)))
    | _ => Raise IndexError
    end.
End WithPinv.

(** ** multi_ref_vchange_and_align: which windows are measured (lines 929-935).  A window is an array
    of sample indices; [tw = tw[0]] replaces the list of windows by the samples of the first one, so
    that every "window" is then a single number. *)
Inductive window := Arr (l : list Z) | Num (z : Z).
Definition first_window (tw : option (list window)) : option (list window) :=
  match tw with
  | Some (w0 :: w1 :: r) => match w0 with Arr l => Some (map Num l) | Num _ => Some (w0 :: w1 :: r) end
  | _ => tw
  end.
(** lines 271-291 of velocity_change_estimate for such a window: [ctw[0]] and [ctw[::-1]] of a number
    are an IndexError *)
Definition window_samples (s : sides) (n : Z) (w : window) : result (list Z) :=
  match w with
  | Arr l => side_indices s n l
  | Num z => match s with
             | Both | LeftSide => Raise IndexError
             | RightSide => Ok [(center n + z)%Z]
             | Single => Ok [z]
             end
  end.
Definition measured_windows (s : sides) (n : Z) (tw : list window) : result (list (list Z)) :=
  match first_window (Some tw) with
  | Some ws => mapM (window_samples s n) ws
  | None => Ok []
  end.
