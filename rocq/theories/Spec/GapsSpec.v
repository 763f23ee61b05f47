(** What a user expects of functions that treat the parts of a trace between gaps one by one. *)
From Coq Require Import Reals Qreals.
From Verif Require Import Lib.Base Model.Masking Model.Gaps.
Local Open Scope Z_scope.

(** samples by position: those of a trace, of a trace that may have been removed altogether, and of several traces *)
Definition samples A := Z -> option A.
Definition at_opt {A} (o : option (trace A)) : samples A := fun p => match o with Some t => at_pos t p | None => None end.
Fixpoint at_stream {A} (l : list (trace A)) : samples A :=
  fun p => match l with [] => None | t :: r => match at_pos t p with Some v => Some v | None => at_stream r p end end.

Section Parts.
  Context {A : Type}.
  (** the samples [x] from position [a] on are a part between two gaps: all of them exist and the neighbours do not *)
  Definition part (t : samples A) (a : Z) (x : list A) : Prop :=
    x <> [] /\
    (forall k, (k < length x)%nat -> t (a + Z.of_nat k) = nth_error x k) /\
    t (a - 1) = None /\ t (a + Z.of_nat (length x)) = None.
  (** the traces follow each other without overlaps *)
  Fixpoint in_order (l : list (trace A)) : Prop :=
    match l with
    | t :: ((u :: _) as r) => t_start t + Z.of_nat (length (t_data t)) <= t_start u /\ in_order r
    | _ => True
    end.
  (** the position is inside of the trace, where a sample may be masked *)
  Definition inside (t : trace A) (p : Z) : Prop := t_start t <= p <= last_pos t.
  (** all samples were moved by [d] positions *)
  Definition moved (d : Z) (t u : samples A) : Prop := forall p, u p = t (p - d).
End Parts.

(** Each part of [t] that is [keep]t was turned into one of the same length as [f] says, at the same times; everything else is missing. *)
Definition each_part {A B} (keep : list A -> Prop) (f : list A -> list B -> Prop) (t : samples A) (u : samples B) : Prop :=
  (forall p, t p = None -> u p = None) /\
  (forall a x, part t a x ->
     (keep x -> exists y, f x y /\ length y = length x /\ forall k, (k < length x)%nat -> u (a + Z.of_nat k) = nth_error y k) /\
     (~ keep x -> forall k, (k < length x)%nat -> u (a + Z.of_nat k) = None)).

(** Both ends of [x] are tapered over [n] samples if it is long enough; shorter parts are unchanged. *)
Definition tapered (n : nat) (x y : list R) : Prop :=
  ((n = 0 \/ length x < 2 * n)%nat -> y = x) /\
  ((1 <= n)%nat /\ (2 * n <= length x)%nat ->
     exists w : nat -> R, forall i, (i < length x)%nat ->
       (nth i y 0 = nth i x 0 * w i /\ 0 <= w i <= 1)%R /\ ((n <= i < length x - n)%nat -> w i = 1%R) /\
       ((i = 0 \/ i = length x - 1)%nat -> w i = 0%R) /\ w (length x - 1 - i)%nat = w i /\ ((S i < n)%nat -> (w i <= w (S i))%R)).

(** the part is longer than [retain] seconds *)
Definition longer (sr retain : Q) {A} (x : list A) : Prop := (retain < inject_Z (Z.of_nat (length x)) / sr)%Q.
(** a trace of exact values as one of real numbers *)
Definition real_trace (t : trace Q) : trace R := mkT (t_start t) (map (option_map Q2R) (t_data t)).
(** [u]: the trace [t] with short gaps interpolated, see C42 *)
Definition interpolated (max : Z) (t u : trace Q) : Prop := t_start u = t_start t /\ interpolate_gaps max (t_data t) = Ok (t_data u).
(** the traces [l'] have the same samples as [l], and at least one sample is missing between two of them *)
Fixpoint separate {A} (l : list (trace A)) : Prop :=
  match l with
  | t :: ((u :: _) as r) => t_start t + Z.of_nat (length (t_data t)) < t_start u /\ separate r
  | _ => True
  end.
(** [d] samples are masked before the first sample that exists *)
Definition masked_before {A} (t : trace A) (d : Z) : Prop :=
  0 <= d /\ at_pos t (t_start t + d) <> None /\ forall p, p < t_start t + d -> at_pos t p = None.
(** number of samples of a trace and its sampling rate, for two traces that obspy takes as equal *)
Definition same_shape {T} (npts : T -> nat) (sr : T -> Q) (same : T -> T -> bool) : Prop :=
  (forall x, same x x = true) /\ (forall x y, same y x = true -> npts y = npts x /\ sr y = sr x).
(** [w] holds the [len] samples of [t] from position [s] on; those that do not exist are masked *)
Definition is_window {A} (s len : Z) (t w : trace A) : Prop :=
  t_start w = s /\ Z.of_nat (length (t_data w)) = len /\ forall p, s <= p < s + len -> at_pos w p = at_pos t p.
Definition has_data {A} (s len : Z) (t : trace A) : Prop := exists p, s <= p < s + len /\ at_pos t p <> None.
(** the position of the last sample of all traces is [e] *)
Definition ends_at {A} (st : list (trace A)) (e : Z) : Prop := (exists t, In t st /\ last_pos t = e) /\ forall t, In t st -> last_pos t <= e.
