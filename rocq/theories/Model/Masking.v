(** Masking time intervals (correlate/preprocessing_stream.py) and interpolating gaps (utils/miic_utils.py). *)
From Coq Require Import QArith.
From Verif Require Import Lib.Base.
Local Open Scope Z_scope.

(** mask[lo:hi] = True, for 0 <= lo (the only case that occurs) *)
Definition set_true (lo hi : Z) (mask : list bool) : list bool :=
  map (fun x => ((lo <=? Z.of_nat (fst x)) && (Z.of_nat (fst x) <? hi)) || snd x) (enumerate mask).

(** trace_mask_at_utc, 259-306: times are integers (ns); the trace has [n] samples at start + k * delta.
    sampling_rate * t is t / delta (exact here).  [ints] are the pairs zip(starts, ends). *)
Section MaskAt.
  Variables (start delta : Z) (n : nat).
  Definition tr_end : Z := start + Z.of_nat (n - 1) * delta.
  Definition inside (t : Z) : bool := (t <? tr_end) && (start <? t).
  Definition ns_of (s : Z) : Z := (s - start) / delta.                  (* floor *)
  Definition ne_of (e : Z) : Z := - ((- (e - start)) / delta) + 1.      (* ceil + 1 *)
  Definition mask_at (ints : list (Z * Z)) (reverse : bool) : list bool :=
    let mask := repeat false n in
    let mask := fold_left (fun m x => if inside (fst x) && inside (snd x) then set_true (ns_of (fst x)) (ne_of (snd x)) m else m) ints mask in
    let mask := fold_left (fun m x => if inside (fst x) && negb (inside (snd x)) then set_true (ns_of (fst x)) (Z.of_nat n) m else m) ints mask in
    let mask := fold_left (fun m x => if negb (inside (fst x)) && inside (snd x) then set_true 0 (ne_of (snd x)) m else m) ints mask in
    if reverse then map negb mask else mask.
End MaskAt.

(** stream_mask_at_utc, 212-256: the arguments; the mask of each trace *)
Definition stream_mask (trs : list (Z * Z * nat)) (starts : list Z) (ends : option (list Z)) (masklen : option Z)
    (reverse : bool) : result (list (list bool)) :=
  match masklen, ends with
  | None, None => Raise ValueError
  | Some _, Some _ => Raise ValueError
  | None, Some es => if negb (length es =? length starts)%nat then Raise ValueError
                     else Ok (map (fun x => mask_at (fst (fst x)) (snd (fst x)) (snd x) (combine starts es) reverse) trs)
  | Some l, None => Ok (map (fun x => mask_at (fst (fst x)) (snd (fst x)) (snd x)
                                       (combine starts (map (fun s => s + l) starts)) reverse) trs)
  end.

(** interpolate_gaps, 488-521.  [None] is an invalid or masked sample; values are exact rationals.
    The known samples x[~mask], A[~mask] are those of the input: values that are filled in lie on the
    straight lines between known samples and do not change later interpolations. *)
Local Open Scope nat_scope.
Fixpoint map2 {A B C} (f : A -> B -> C) (a : list A) (b : list B) : list C :=
  match a, b with x :: r, y :: q => f x y :: map2 f r q | _, _ => [] end.
(** np.where on a boolean array, with the number of the first element *)
Fixpoint where_from (i : nat) (l : list bool) : list nat :=
  match l with [] => [] | b :: r => if b then i :: where_from (S i) r else where_from (S i) r end.
Fixpoint diff (l : list nat) : list nat :=
  match l with a :: ((b :: _) as r) => (b - a) :: diff r | _ => [] end.
Fixpoint every_other (l : list nat) : list nat :=
  match l with a :: _ :: r => a :: every_other r | [a] => [a] | [] => [] end.
Definition maskconc (mask : list bool) : list bool :=
  [hd false mask] ++ map2 xorb mask (tl mask) ++ [true].
Definition maskstart (mask : list bool) : list nat := where_from 0 (map2 andb (removelast (maskconc mask)) mask).
Definition masklen_of (mask : list bool) : list nat := every_other (diff (where_from 0 (maskconc mask))).
(** the known samples *)
Definition known (l : list (option Q)) : list (nat * Q) :=
  flat_map (fun x => match snd x with Some v => [(fst x, v)] | None => [] end) (enumerate l).
Definition line (i : nat) (a : Q) (j : nat) (b : Q) (x : nat) : Q :=
  (a + (b - a) * inject_Z (Z.of_nat x - Z.of_nat i) / inject_Z (Z.of_nat j - Z.of_nat i))%Q.
(** np.interp(x, known, left=nan, right=nan) *)
Fixpoint interp (pts : list (nat * Q)) (x : nat) : option Q :=
  match pts with
  | [] => None
  | (i, a) :: r =>
      match r with
      | [] => if x =? i then Some a else None
      | (j, b) :: _ => if x <? i then None else if x <=? j then Some (line i a j b x) else interp r x
      end
  end.
Definition set_seg (A : list (option Q)) (s len : nat) (f : nat -> option Q) : list (option Q) :=
  map (fun x => if (s <=? fst x) && (fst x <? s + len) then f (fst x) else snd x) (enumerate A).
Definition interpolate_gaps (max : Z) (l : list (option Q)) : result (list (option Q)) :=
  let mask := map (fun o => negb (is_some o)) l in
  if negb (existsb (fun b => b) mask) then Ok l
  else
    let mx := if (max =? -1)%Z then Z.of_nat (length l) else max in
    fold_left (fun acc g =>
        do A <- acc;
        if (mx <? Z.of_nat (snd g))%Z then Ok A
        else match known l with
             | [] => Raise ValueError              (* np.interp: array of sample points is empty *)
             | pts => Ok (set_seg A (fst g) (snd g) (interp pts))
             end)
      (combine (maskstart mask) (masklen_of mask)) (Ok l).
