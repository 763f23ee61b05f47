(** Shared imports and the error monad used by every model file.
    Python exceptions are values: [Raise e] is "the call raised e". *)
From Coq Require Export String Ascii Bool Arith ZArith Lia List.
From Coq Require Export ZifyBool ZifyNat ZifyN.
Export ListNotations.
Open Scope bool_scope.
Open Scope list_scope.

Inductive exc :=
| ValueError | KeyError | IndexError | TypeError | PermissionError
| AttributeError | FileNotFoundError | UnboundLocalError | AssertionError
| NotImplementedError | OSError | OutOfFuel.

Inductive result (A : Type) := Ok (a : A) | Raise (e : exc).
Arguments Ok {A} a.
Arguments Raise {A} e.

Definition bind {A B} (x : result A) (f : A -> result B) : result B :=
  match x with Ok a => f a | Raise e => Raise e end.
Notation "'do' x <- a ; b" := (bind a (fun x => b))
  (at level 200, x name, a at level 100, b at level 200).

(** [mapM f l]: Python list comprehension whose body may raise. *)
Fixpoint mapM {A B} (f : A -> result B) (l : list A) : result (list B) :=
  match l with
  | [] => Ok []
  | x :: r => do y <- f x; do ys <- mapM f r; Ok (y :: ys)
  end.

(** [enumerate l]: pairs (index, element). *)
Definition enumerate {A} (l : list A) : list (nat * A) :=
  combine (seq 0 (length l)) l.

(** Python's [max]/[min] on [Z] are [Z.max]/[Z.min]. *)

(** [arange a b s] for [s > 0]: a, a+s, ... strictly below b  (numpy.arange
    on exact numbers: ceil((b-a)/s) elements). *)
Definition arange_len (a b s : Z) : nat := Z.to_nat ((b - a + s - 1) / s).
Definition arange (a b s : Z) : list Z :=
  map (fun k => (a + Z.of_nat k * s)%Z) (seq 0 (arange_len a b s)).

(** Option helpers. *)
Definition is_some {A} (o : option A) : bool := match o with Some _ => true | None => false end.

(** Association-list dictionary with Python semantics (first binding of a key wins,
    [d[k] = v] replaces in place or appends). *)
Section Dict.
  Context {V : Type}.
  Fixpoint dget (d : list (string * V)) (k : string) : option V :=
    match d with
    | [] => None
    | (k', v) :: r => if String.eqb k k' then Some v else dget r k
    end.
  Fixpoint dset (d : list (string * V)) (k : string) (v : V) : list (string * V) :=
    match d with
    | [] => [(k, v)]
    | (k', v') :: r => if String.eqb k k' then (k, v) :: r else (k', v') :: dset r k v
    end.
  Fixpoint ddel (d : list (string * V)) (k : string) : list (string * V) :=
    match d with
    | [] => []
    | (k', v') :: r => if String.eqb k k' then r else (k', v') :: ddel r k
    end.
  Definition dmem (d : list (string * V)) (k : string) : bool := is_some (dget d k).
  Definition dkeys (d : list (string * V)) : list string := map fst d.
End Dict.
