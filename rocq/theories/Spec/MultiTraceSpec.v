(** The time windows of the references. *)
From Coq Require Import Reals QArith.
From Verif Require Import Lib.Base Lib.Time Model.LagMatrix Model.Reference Model.MultiTrace.
Local Open Scope Z_scope.

(** one start and one end for every row, the end not before the start *)
Definition dated (data : list (list (option R))) (h : hdr) : Prop :=
  length (h_start h) = length data /\ length (h_end h) = length data /\
  forall i s e, nth_error (h_start h) i = Some s -> nth_error (h_end h) i = Some e -> s <= e.
(** [s] is the first start, [e] the last end *)
Definition first_start (h : hdr) (s : Z) : Prop := In s (h_start h) /\ forall x, In x (h_start h) -> s <= x.
Definition last_end (h : hdr) (e : Z) : Prop := In e (h_end h) /\ forall x, In x (h_end h) -> x <= e.

(** The rows with at least one instant in [s, e], in their order. *)
Definition touches (h : hdr) (s e : Z) (i : nat) : Prop :=
  exists a b, nth_error (h_start h) i = Some a /\ nth_error (h_end h) i = Some b /\ a <= e /\ s <= b.
Definition selection (data : list (list (option R))) (h : hdr) (s e : Z) (rows : list (list (option R))) : Prop :=
  exists idx, (forall i, In i idx <-> touches h s e i /\ (i < length data)%nat) /\
    (forall i j x y, nth_error idx i = Some x -> nth_error idx j = Some y -> (i < j)%nat -> (x < y)%nat) /\
    map (fun i => nth_error data i) idx = map Some rows.

(** where the windows begin: one after the other *)
Definition begins (s : Z) (incs : list Z) (k : nat) : Z := s + fold_right Z.add 0 (firstn k incs).
