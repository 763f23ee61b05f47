(** What moving averages are. *)
From Coq Require Import QArith.
From Verif Require Import Lib.Base Model.CorrStream.
Local Open Scope nat_scope.

(** the elements at most [h] places from place [i] *)
Definition near {A} (h i : nat) (l : list A) : list A :=
  map snd (filter (fun p => (fst p <=? i + h) && (i <=? fst p + h)) (combine (seq 0 (length l)) l)).
(** column [c] of a matrix *)
Definition col (c : nat) (m : list (list sample)) : list sample := map (fun row => nth c row None) m.
(** a similarity that is used: not below the limit, if there is one *)
Definition used (below : option Q) (s : sample) : sample :=
  match below, s with
  | Some b, Some v => if Qlt_le_dec v b then None else Some v
  | _, _ => s
  end.
(** places where a window of [wl] samples, whose middle is its sample (wl-1)/2, lies inside the data *)
Definition inside {A} (x : list A) (wl i : nat) : Prop := wl - 1 <= i + (wl - 1) / 2 /\ i + (wl - 1) / 2 < length x.
