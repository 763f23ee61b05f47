(** Vocabulary for the statements about averages over an area and the alignment of several curves. *)
From Verif Require Import Lib.Base Lib.Str Model.CorrStream Model.DVs Model.Averages Spec.DVSpec.
Local Open Scope string_scope.
Local Open Scope nat_scope.

(** [m] are the elements of [l] with the property, in the same order *)
Inductive picked {A} (P : A -> Prop) : list A -> list A -> Prop :=
| picked_nil : picked P [] []
| picked_yes x l m : P x -> picked P l m -> picked P (x :: l) (x :: m)
| picked_no x l m : ~ P x -> picked P l m -> picked P (x :: l) m.

(** not an average itself, as many times and stretches as [d0], and the same stretches *)
Definition contributes (d0 d : dv) : Prop :=
  is_substr "av" (d_cha d ++ d_net d ++ d_sta d) = false /\
  (exists rows cols, dims rows cols (d_sim d0) /\ dims rows cols (d_sim d)) /\
  Forall2 Qeq (d_axis d) (d_axis d0).

(** [c] is the highest number of the row; NaN if there is none *)
Definition highest (row : list sample) (c : sample) : Prop :=
  match c with
  | None => forall x, In x row -> x = None
  | Some m => In (Some m) row /\ forall x, In (Some x) row -> (x <= m)%Q
  end.

(** the code all have in common, "av" if there is none *)
Definition code_of (codes : list string) (c : string) : Prop :=
  (forall x, In x codes -> x = c) \/ (c = "av" /\ exists x y, In x codes /\ In y codes /\ x <> y).

(** inside the limits, which belong to the area *)
Definition number_within (r : Q * Q) (c : coord) : Prop := exists x, c = At x /\ (fst r <= x <= snd r)%Q.
Definition inside_area (lat lon el : Q * Q) (p : placed) : Prop :=
  number_within lat (p_stla p) /\ number_within lat (p_evla p) /\ number_within lon (p_stlo p) /\
  number_within lon (p_evlo p) /\ number_within el (p_stel p) /\ number_within el (p_evel p).
Definition is_number (c : coord) : Prop := exists x, c = At x.
Definition has_numbers (p : placed) : Prop :=
  is_number (p_stla p) /\ is_number (p_evla p) /\ is_number (p_stlo p) /\ is_number (p_evlo p) /\
  is_number (p_stel p) /\ is_number (p_evel p).

(** ** alignment *)
(** mean start time of the measurements *)
Definition mean_start (d : dv) (c : Q) : Prop :=
  exists l, l <> [] /\ l = map fst (filter (fun p => is_some (snd p)) (combine (d_t0 d) (d_corr d))) /\
            (c * inject_Z (Z.of_nat (length l)) == inject_Z (fold_right Z.add 0%Z l))%Q.
(** curve [r] is the one the curve [i] is aligned with: the first in the list among the curves with the latest
    mean start before that of [i] *)
Record predecessor (dvs : list dv) (i r : nat) : Prop := {
  pr_before : exists d e c b, nth_error dvs i = Some d /\ nth_error dvs r = Some e /\ mean_start d c /\ mean_start e b /\ (b < c)%Q /\
    forall j f a, nth_error dvs j = Some f -> mean_start f a -> (a < c)%Q -> (a <= b)%Q /\ ((a == b)%Q -> r <= j) }.
Definition measured (d : dv) : Prop := exists c, mean_start d c.
