(** The stacks that are stored with recombine_subdivision. *)
From Coq Require Import QArith Qabs.
From Verif Require Import Lib.Base Lib.Str Lib.Time Model.CorrTrace Model.CorrDB Model.Rerun Spec.HeaderSpec Spec.DBSpec.
Local Open Scope string_scope.
Local Open Scope nat_scope.

(** the same networks, stations and channels *)
Definition same_codes (a b : ctrace) : Prop := c_net a = c_net b /\ c_sta a = c_sta b /\ c_cha a = c_cha b.
Definition same_codesb (a b : ctrace) : bool := String.eqb (c_net a) (c_net b) && String.eqb (c_sta a) (c_sta b) && String.eqb (c_cha a) (c_cha b).
(** the correlations of a batch with the codes of [tr] *)
Definition of_pair (tr : ctrace) (b : list ctrace) : list ctrace := filter (same_codesb tr) b.

Definition qsum (l : list Q) : Q := fold_right Qplus 0%Q l.
(** total length of the correlations, and sum of sample number i times the length *)
Definition total_length (l : list ctrace) : Q := qsum (map (fun t => inject_Z (c_end t - c_start t)) l).
Definition weighted (l : list ctrace) (i : nat) : Q := qsum (map (fun t => (inject_Z (c_end t - c_start t) * nth i (c_data t) 0)%Q) l).

(** correlations that can be stacked: as many samples each, positive lengths, what starts later ends later *)
Definition alike (l : list ctrace) : Prop :=
  (forall a b, In a l -> In b l -> length (c_data a) = length (c_data b) /\ ((c_start a <= c_start b)%Z -> (c_end a <= c_end b)%Z)) /\
  forall a, In a l -> (c_start a < c_end a)%Z.
(** their stack is not zero *)
Definition not_zero (l : list ctrace) : Prop := exists i, ~ (weighted l i == 0)%Q.

(** [h] starts first, [e] starts and ends last *)
Definition first_of (l : list ctrace) (h : ctrace) : Prop := In h l /\ forall t, In t l -> (c_start h <= c_start t)%Z.
Definition last_of (l : list ctrace) (e : ctrace) : Prop := In e l /\ forall t, In t l -> (c_start t <= c_start e)%Z /\ (c_end t <= c_end e)%Z.
(** the average, weighted with the lengths of the correlations, scaled to the largest amplitude 1, with the codes, the lag axis and
    the period of the correlations *)
Definition right_stack (l : list ctrace) (o : ctrace) : Prop :=
  (forall t, In t l -> same_codes t o) /\
  (exists h, first_of l h /\ tick (c_start o) = tick (c_start h) /\ c_lag o = c_lag h /\ c_sr o = c_sr h) /\
  (exists e, last_of l e /\ tick (c_end o) = tick (c_end e)) /\
  (forall t, In t l -> length (c_data o) = length (c_data t)) /\
  exists c, (0 < c)%Q /\
    (forall i, i < length (c_data o) -> (nth i (c_data o) 0 * c == weighted l i / total_length l)%Q /\ (Qabs (nth i (c_data o) 0) <= 1)%Q) /\
    exists i, i < length (c_data o) /\ (Qabs (nth i (c_data o) 0) == 1)%Q.
(** what makes a correlation different from all others: its codes and its start *)
Definition start_key (tr : ctrace) : string * string * string * Z := (c_net tr, c_sta tr, c_cha tr, tick (c_start tr)).

(** ** the files of a run that stored the batches [bs] with recombine_subdivision *)
Definition holds_stacks (delete : bool) (tag : string) (sep : bool) (bs : list (list ctrace)) (d : dir) : Prop :=
  (** the stack of the correlations of a pair in a batch is found with the period of these correlations *)
  (forall b tr, In b bs -> In tr b -> not_zero (of_pair tr b) ->
     exists f h e o, dget d (own_file sep tr) = Some f /\ first_of (of_pair tr b) h /\ last_of (of_pair tr b) e /\
       get_data f (c_net tr) (c_sta tr) (c_cha tr) tag (Some (c_start h)) (Some (c_end e)) = Ok [o] /\ right_stack (of_pair tr b) o) /\
  (** the correlations are found if they were not to be deleted *)
  (forall tr, In tr (concat bs) -> exists f, dget d (own_file sep tr) = Some f /\
     get_data f (c_net tr) (c_sta tr) (c_cha tr) "subdivision" (Some (c_start tr)) (Some (c_end tr)) = if delete then Raise KeyError else Ok [stored tr]) /\
  (** nothing else is found *)
  (forall name f, dget d name = Some f -> forall net sta cha g st et r, names_ok g net sta cha -> canonical net sta cha -> time_ok st -> time_ok et ->
     get_data f net sta cha g (Some st) (Some et) = Ok r ->
     exists b tr, In b bs /\ In tr b /\ own_file sep tr = name /\ net = c_net tr /\ sta = c_sta tr /\ cha = c_cha tr /\
       ((delete = false /\ g = "subdivision" /\ r = [stored tr] /\ tick st = tick (c_start tr) /\ tick et = tick (c_end tr)) \/
        (g = tag /\ exists h e o, first_of (of_pair tr b) h /\ last_of (of_pair tr b) e /\ tick st = tick (c_start h) /\ tick et = tick (c_end e) /\
           r = [o] /\ (not_zero (of_pair tr b) -> right_stack (of_pair tr b) o)))).

(** runs one after the other, that start with an empty directory and are stopped; [step d bs e]: a run that starts with directory [d] and
    is stopped has stored the batches [bs] and left [e] behind *)
Inductive resumed (step : dir -> list (list ctrace) -> dir -> Prop) : list (list ctrace) -> dir -> Prop :=
| not_begun : resumed step [] []
| one_more bs d b e : resumed step bs d -> step d b e -> resumed step (bs ++ b) e.
