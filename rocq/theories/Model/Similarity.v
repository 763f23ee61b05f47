(** Lag windows and similarity of a correlation with (stretched) references
    (monitor/stretch_mod.py: time_windows_creation 22-65, velocity_change_estimate 203-341,
    compute_wfc 68-145 uses the same windows). *)
From Verif Require Import Lib.Base.
From Coq Require Import Reals.
Local Open Scope nat_scope.

(** time_windows_creation for one start and one width *)
Definition time_window (start width : Z) : result (list Z) :=
  if (width <=? 0)%Z then Raise ValueError else Ok (arange start (start + width) 1).

Inductive sides := Both | LeftSide | RightSide | Single.

(** center_p = floor((n - 1)/2) *)
Definition center (n : Z) : Z := ((n - 1) / 2)%Z.

(** lines 271-291: indices of the samples used; ctw[0] of an empty window is an IndexError *)
Definition side_indices (s : sides) (n : Z) (ctw : list Z) : result (list Z) :=
  let c := center n in
  match s with
  | Both => match ctw with
            | [] => Raise IndexError
            | t0 :: r => Ok (map (fun t => c - t) (rev ctw) ++ map (fun t => c + t) (if (t0 =? 0)%Z then r else ctw))%Z%list
            end
  | LeftSide => Ok (map (fun t => (c - t)%Z) (rev ctw))
  | RightSide => Ok (map (fun t => (c + t)%Z) ctw)
  | Single => Ok ctw
  end.

(** mask = zeros(n); mask[ctw] = 1: negative indices count from the end, others beyond the end are
    an IndexError *)
Definition index_ok (n i : Z) : bool := ((- n <=? i) && (i <? n))%Z.
Definition wrap (n i : Z) : Z := (if i <? 0 then i + n else i)%Z.
Definition window_mask (s : sides) (n : nat) (ctw : list Z) : result (list bool) :=
  do ix <- side_indices s (Z.of_nat n) ctw;
  if forallb (index_ok (Z.of_nat n)) ix
  then Ok (map (fun k => existsb (fun i => (wrap (Z.of_nat n) i =? Z.of_nat k)%Z) ix) (seq 0 n))
  else Raise IndexError.

(** ** similarity; samples are reals, [None] is NaN *)
Local Open Scope R_scope.

(** np.nan_to_num *)
Definition nan_to_num (row : list (option R)) : list R := map (fun x => match x with Some v => v | None => 0 end) row.
(** mat * mask *)
Definition masked (m : list bool) (row : list R) : list R := map (fun p => if fst p : bool then snd p else 0) (combine m row).
Definition dot (a b : list R) : R := fold_right Rplus 0 (map (fun p => fst p * snd p) (combine a b)).
(** dprod/den; 0/0 is NaN (dprod = 0 whenever den = 0) *)
Definition similarity (first second : list R) : option R :=
  let den := sqrt (dot first first * dot second second) in
  if Req_EM_T den 0 then None else Some (dot first second / den).
(** one row of tmp *)
Definition sim_row (m : list bool) (row : list (option R)) (refs : list (list R)) : list (option R) :=
  map (fun ref => similarity (masked m (nan_to_num row)) (masked m ref)) refs.

(** tmp.max(axis=1) and tmp.argmax(axis=1): a NaN is larger than everything; first of equals *)
Definition larger (a b : option R) : bool :=       (* a replaces the best value b so far *)
  match a, b with
  | _, None => false
  | None, Some _ => true
  | Some x, Some y => if Rlt_dec y x then true else false
  end.
Fixpoint argmax_from (i best : nat) (bv : option R) (l : list (option R)) : nat * option R :=
  match l with
  | [] => (best, bv)
  | x :: r => if larger x bv then argmax_from (S i) i x r else argmax_from (S i) best bv r
  end.
(** [None]: ValueError (no references) *)
Definition argmax (l : list (option R)) : option (nat * option R) :=
  match l with [] => None | x :: r => Some (argmax_from 1%nat 0%nat x r) end.

(** correlation value and stretch reported for one row: lines 322-331 *)
Definition best_match (strvec : list R) (sims : list (option R)) : result (option R * option R) :=
  match argmax sims with
  | None => Raise ValueError
  | Some (i, c) =>
      match nth_error strvec i with
      | None => Raise IndexError
      | Some v => Ok (c, match c with None => None | Some _ => Some v end)
      end
  end.
