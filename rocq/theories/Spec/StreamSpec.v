(** Vocabulary for the statements about correlation streams, stacks and matrices. *)
From Verif Require Import Lib.Base Lib.Str Lib.Time Model.CorrStream.
From Coq Require Import Permutation.
Local Open Scope nat_scope.

(** [subseq l m]: l is m with some elements left out, in the same order *)
Inductive subseq {A} : list A -> list A -> Prop :=
| sub_nil : subseq [] []
| sub_skip x l m : subseq l m -> subseq l (x :: m)
| sub_take x l m : subseq l m -> subseq (x :: l) (x :: m).

(** ** Traces *)

(** two samples are the same: both NaN, or equal numbers *)
Definition same_sample (a b : sample) : Prop :=
  match a, b with Some x, Some y => (x == y)%Q | None, None => True | _, _ => False end.
Definition has_nan (t : ctr) : bool := existsb (fun x => match x with None => true | Some _ => false end) (t_data t).

Record same_trace (a b : ctr) : Prop := {
  st_net : t_net a = t_net b;
  st_sta : t_sta a = t_sta b;
  st_cha : t_cha a = t_cha b;
  st_loc : t_loc a = t_loc b;
  st_start : t_start a = t_start b;
  st_end : t_end a = t_end b;
  st_sr : (t_sr a == t_sr b)%Q;
  st_lag : (t_lag a == t_lag b)%Q;
  st_geo : Forall2 same_sample (t_geo a) (t_geo b);
  st_data : Forall2 same_sample (t_data a) (t_data b) }.

(** same network, station and channel pair, and same location if [loc] *)
Definition same_id (loc : bool) (a b : ctr) : Prop :=
  t_net a = t_net b /\ t_sta a = t_sta b /\ t_cha a = t_cha b /\ (loc = true -> t_loc a = t_loc b).
Definition same_idb (loc : bool) (a b : ctr) : bool :=
  String.eqb (t_net a) (t_net b) && String.eqb (t_sta a) (t_sta b) && String.eqb (t_cha a) (t_cha b) &&
  (negb loc || String.eqb (t_loc a) (t_loc b)).
(** codes without the separator '.' *)
Definition dotless (t : ctr) : Prop :=
  has_char "." (t_net t) = false /\ has_char "." (t_sta t) = false /\
  has_char "." (t_cha t) = false /\ has_char "." (t_loc t) = false.

(** ** Stacks *)

(** weighted mean of the samples that are not NaN; NaN if the weights sum to zero *)
Definition wmean (l : list (Q * sample)) : sample :=
  let d := flat_map (fun p => match snd p with Some x => [(fst p, x)] | None => [] end) l in
  let total := fold_right Qplus 0%Q (map fst d) in
  if Qeq_bool total 0 then None
  else Some (fold_right Qplus 0%Q (map (fun p => (fst p * snd p)%Q) d) / total)%Q.

(** weight of a trace: 1 for means, its duration for 'by_length' *)
Definition weight_of (by_len : bool) (t : ctr) : Q :=
  if by_len then inject_Z (t_end t - t_start t) else 1%Q.

(** the longest traces of a list *)
Definition longest (l : list ctr) : list ctr :=
  filter (fun t => forallb (fun u => length (t_data u) <=? length (t_data t)) l) l.

(** sample i of the average of the longest traces *)
Definition average_at (by_len : bool) (l : list ctr) (i : nat) : sample :=
  wmean (map (fun t => (weight_of by_len t, nth i (t_data t) None)) (longest l)).

(** [out] is the average [avg], divided by a positive number such that the largest amplitude is 1 *)
Definition scaled_to_one (avg : nat -> sample) (out : list sample) : Prop :=
  exists c : Q, (0 < c)%Q /\
    (forall i, i < length out ->
       match avg i, nth i out None with
       | Some a, Some o => (o * c == a)%Q /\ (Qabs o <= 1)%Q
       | None, None => True
       | _, _ => False
       end) /\
    exists i o, i < length out /\ nth i out None = Some o /\ (Qabs o == 1)%Q.

(** every correlation that starts last also ends last *)
Definition last_ends_last (st : list ctr) : Prop :=
  forall a b, In a st -> In b st -> (forall c, In c st -> (t_start c <= t_start a)%Z) -> (t_end b <= t_end a)%Z.
(** correlations have a positive duration *)
Definition positive_durations (st : list ctr) : Prop := forall t, In t st -> (t_start t < t_end t)%Z.

(** ** Time of day *)
(** the correlation lies inside the daily interval [s, e] (ns after midnight) of some day *)
Definition inside_daily (s e : Z) (t : ctr) : Prop :=
  exists k, (k * day + s <= t_start t)%Z /\ (t_end t <= k * day + e)%Z.

(** ** Matrices *)

(** the header agrees with the first trace in everything a matrix has only once *)
Definition compatible (varying_cha : bool) (h t : ctr) : Prop :=
  length (t_data h) = length (t_data t) /\
  t_net h = t_net t /\ t_sta h = t_sta t /\ (t_lag h == t_lag t)%Q /\
  (varying_cha = false -> t_cha h = t_cha t) /\
  (forall i x y, nth_error (t_geo h) i = Some (Some x) -> nth_error (t_geo t) i = Some (Some y) -> (x == y)%Q).

(** a header entry that is a single value or one value per row *)
Definition entry_is (v : hval) (f : ctr -> string) (ts : list ctr) : Prop :=
  match v with Many l => l = map f ts | One s => forall t, In t ts -> f t = s end.

(** the rows of the matrix, with their header entries, are exactly these traces in this order *)
Record rows_are (b : bulk) (ts : list ctr) : Prop := {
  ra_data : b_data b = map t_data ts;
  ra_start : b_start b = map t_start ts;
  ra_end : b_end b = map t_end ts;
  ra_loc : entry_is (b_loc b) t_loc ts;
  ra_cha : entry_is (b_cha b) t_cha ts;
  ra_net : forall t, In t ts -> t_net t = b_net b;
  ra_sta : forall t, In t ts -> t_sta t = b_sta b;
  ra_sr : forall t, In t ts -> (t_sr t == b_sr b)%Q;
  ra_lag : forall t, In t ts -> (t_lag t == b_lag b)%Q }.

(** the number of rows in the header is right *)
Definition counted (b : bulk) : Prop := b_ntrcs b = length (b_data b).

(** the same trace, apart from coordinates *)
Record same_row (a b : ctr) : Prop := {
  sr_net : t_net a = t_net b; sr_sta : t_sta a = t_sta b; sr_cha : t_cha a = t_cha b; sr_loc : t_loc a = t_loc b;
  sr_start : t_start a = t_start b; sr_end : t_end a = t_end b;
  sr_sr : (t_sr a == t_sr b)%Q; sr_lag : (t_lag a == t_lag b)%Q; sr_data : t_data a = t_data b }.

(** the correlation lies in the interval / has a time in common with it *)
Definition lies_in (s e : Z) (t : ctr) : bool := (s <=? t_start t)%Z && (t_end t <=? e)%Z.
Definition touches (s e : Z) (t : ctr) : bool := (s <=? t_end t)%Z && (t_start t <=? e)%Z.

(** the weight asked for by its name: by the length of the correlated interval or not *)
Definition weight_ok (w : string) (by_len : bool) : Prop :=
  (by_len = true /\ w = "by_length"%string) \/ (by_len = false /\ (w = "mean"%string \/ w = "average"%string)).
