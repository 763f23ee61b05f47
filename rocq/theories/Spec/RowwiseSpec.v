(** Treatment of the rows of a matrix each on its own (C02). *)
From Verif Require Import Lib.Base.

(** The functions [fs], applied one after the other to a matrix, treat every row with property [P] on its
    own: row [x] becomes [g x], whatever the other rows are. *)
Inductive rowwise_chain {R} : (R -> Prop) -> list (list R -> result (list R)) -> (R -> R) -> Prop :=
| rc_nil P : rowwise_chain P [] (fun x => x)
| rc_cons (P Q : R -> Prop) (f : list R -> result (list R)) (g : R -> R) fs h :
    (forall l, Forall P l -> f l = Ok (map g l)) ->
    (forall x, P x -> Q (g x)) ->
    rowwise_chain Q fs h ->
    rowwise_chain P (f :: fs) (fun x => h (g x)).

(** The whitened spectrum: the sample at frequency zero is [c0], every other sample is divided by its
    absolute value ([div_abs], [None] for 0/0). *)
Definition whiten_row {C} (div_abs : C -> option C) (c0 : C) (row : list C) : list C :=
  match row with
  | [] => []
  | _ :: r => c0 :: map (fun x => match div_abs x with Some y => y | None => x end) r
  end.
