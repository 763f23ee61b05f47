(** Vocabulary for the statements about lag axes, time bins and lag windows. *)
From Verif Require Import Lib.Base Model.CorrStream Model.LagMatrix Model.Similarity.
Local Open Scope nat_scope.

(** ** Lag axis *)

(** lag of sample number i *)
Definition lag_at (h : hdr) (i : nat) : Q := (h_lag h + inject_Z (Z.of_nat i) / h_sr h)%Q.
(** the row has the sample v at lag x *)
Definition at_lag (h : hdr) (row : list sample) (x : Q) (v : sample) : Prop :=
  exists i, nth_error row i = Some v /\ (lag_at h i == x)%Q.
(** the header describes the row *)
Definition describes (h : hdr) (row : list sample) : Prop := (0 < h_sr h)%Q /\ length row = h_npts h.

(** exactly the samples with lags in [st, et], each at its lag *)
Definition trimmed (h : hdr) (row : list sample) (st et : Q) (h' : hdr) (row' : list sample) : Prop :=
  length row' = h_npts h' /\
  forall x v, at_lag h' row' x v <-> at_lag h row x v /\ (st <= x <= et)%Q.

(** a lag axis that passes through lag x *)
Definition on_grid (h : hdr) (x : Q) : Prop := exists k : Z, (x == h_lag h + inject_Z k / h_sr h)%Q.

(** mean of two samples, NaN if one is NaN *)
Definition mean2 (a b v : sample) : Prop :=
  match a, b, v with
  | Some x, Some y, Some z => (z + z == x + y)%Q
  | Some _, Some _, None => False
  | _, _, None => True
  | _, _, Some _ => False
  end.
Definition same_number (a b : sample) : Prop :=
  match a, b with Some x, Some y => (x == y)%Q | None, None => True | _, _ => False end.

(** causal and acausal part averaged *)
Record mirrored (h : hdr) (row : list sample) (h' : hdr) (row' : list sample) : Prop := {
  mi_zero : h_lag h' = 0%Q;
  mi_rate : h_sr h' = h_sr h;
  mi_npts : length row' = h_npts h';
  mi_both : forall x a b, (0 <= x)%Q -> at_lag h row x a -> at_lag h row (- x) b ->
            exists v, at_lag h' row' x v /\ mean2 a b v;
  mi_causal : forall x a, (0 <= x)%Q -> at_lag h row x a -> (forall b, ~ at_lag h row (- x) b) ->
              exists v, at_lag h' row' x v /\ same_number a v;
  mi_acausal : forall x b, (0 <= x)%Q -> at_lag h row (- x) b -> (forall a, ~ at_lag h row x a) ->
               exists v, at_lag h' row' x v /\ same_number b v;
  mi_nothing_else : forall x v, at_lag h' row' x v ->
               (exists a, at_lag h row x a) \/ (exists b, at_lag h row (- x) b) }.

(** ** Time bins *)

(** [v] is the average of the samples that are not NaN *)
Definition is_average (l : list sample) (v : sample) : Prop :=
  match v with
  | None => forall x, In x l -> x = None
  | Some q => exists xs, map Some xs = filter is_some l /\ xs <> [] /\
                         (q * inject_Z (Z.of_nat (length xs)) == fold_right Qplus 0%Q xs)%Q
  end.

(** the correlations that start in [s, e), in order *)
Definition starting_in (s e : Z) (starts : list Z) (data : matrix) : matrix :=
  flat_map (fun p => if ((s <=? fst p) && (fst p <? e))%Z then [snd p] else []) (combine starts data).

(** row of a bin *)
Definition bin_content (width : nat) (members : matrix) (row : list sample) : Prop :=
  length row = width /\
  match members with
  | [] => forall j, j < width -> nth_error row j = Some None
  | [r] => row = r
  | _ => forall j, j < width -> is_average (map (fun r => nth j r None) members) (nth j row None)
  end.

(** ** Lag windows *)

(** sample i of n samples has lag i - center; the window ctw on the requested side.
    A single-sided trace has lag 0 at its first sample. *)
Definition wanted (s : sides) (n : nat) (ctw : list Z) (i : nat) : Prop :=
  let lag := (Z.of_nat i - center (Z.of_nat n))%Z in
  match s with
  | Both => In lag ctw \/ In (- lag)%Z ctw
  | LeftSide => In (- lag)%Z ctw
  | RightSide => In lag ctw
  | Single => In (Z.of_nat i) ctw
  end.
(** the window lies on the traces *)
Definition window_fits (s : sides) (n : nat) (ctw : list Z) : Prop :=
  forall t, In t ctw ->
    match s with
    | Both | LeftSide => (0 <= t <= center (Z.of_nat n))%Z
    | RightSide => (0 <= t < Z.of_nat n - center (Z.of_nat n))%Z
    | Single => (0 <= t < Z.of_nat n)%Z
    end.
