(** What displaced and stretched traces are.  Positions are counted in samples. *)
From Coq Require Import Reals QArith.
From Verif Require Import Lib.Base Model.LagMatrix Model.Shift.
Local Open Scope R_scope.

(** The trace equals the reference [m] samples later: row(t) = ref(t + m), at all samples that are at least [r] samples away from the
    ends of the trace. *)
Definition displaced (r : nat) (m : Z) (ref : list R) (row : list (option R)) : Prop :=
  length row = length ref /\
  forall k j, (r <= k)%nat -> (k + r < length ref)%nat -> (Z.of_nat j = Z.of_nat k + m)%Z -> (j < length ref)%nat -> nth k row None = Some (nth j ref 0).

(** An interpolation goes through the samples it was made from. *)
Definition through_samples (sp : list R -> R -> R) : Prop := forall y k, (k < length y)%nat -> sp y (INR k) = nth k y 0.

(** a waveform and its samples *)
Definition sampled (n : nat) (f : R -> R) : list R := map (fun k => f (INR k)) (seq 0 n).
(** The interpolation of the samples of a waveform is the waveform. *)
Definition reproduced (sp : list R -> R -> R) (n : nat) (f : R -> R) : Prop := forall u, 0 <= u <= INR (n - 1) -> sp (sampled n f) u = f u.
(** the waveform stretched by a factor about position [c] *)
Definition stretched (c v : R) (f : R -> R) : R -> R := fun u => f (c + (u - c) * exp (- v)).

(** Sample [k] of the axis belongs to the lag window [a, b): its lag is not before [a], and that of the next sample not after [b]. *)
Definition lag_of (lag sr : Q) (k : nat) : Q := (lag + inject_Z (Z.of_nat k) / sr)%Q.
Definition within (w : Q * Q) (sr lag : Q) : Prop := (fst w <= lag)%Q /\ (lag + 1 / sr <= snd w)%Q.
Definition whole (x : Q) : Prop := exists k : Z, (x == inject_Z k)%Q.

(** what is reported for trace [i] *)
Definition reported (m : measured) (i : nat) : option (option R) :=
  match m with Number v => match i with O => Some v | _ => None end | Values l => nth_error l i end.
(** The windows, displaced by up to [range], lie on the lag axis; with both sides also when mirrored. *)
Definition fits (h : hdr) (sd : shift_sides) (range : Q) (tw : option (list (Q * Q))) : Prop :=
  match tw with
  | Some l => l <> [] /\ forall w x, In w l -> x = fst w \/ x = snd w ->
      (x + range <= end_lag h)%Q /\ match sd with BothSides => (0 <= x /\ h_lag h <= - (x + range))%Q | _ => (h_lag h <= x - range)%Q end
  | None => (2 * range <= end_lag h - h_lag h)%Q /\ (sd = BothSides -> (h_lag h == - end_lag h)%Q)
  end.

(** the windows that are compared *)
Definition windows_of (h : hdr) (range : Q) (tw : option (list (Q * Q))) : list (Q * Q) :=
  match tw with Some l => l | None => [(h_lag h + range, end_lag h - range)%Q] end.
(** sample [p] is used for window [w] *)
Definition compared (h : hdr) (sd : shift_sides) (w : Q * Q) (p : nat) : Prop :=
  within w (h_sr h) (lag_of (h_lag h) (h_sr h) p) \/ (sd = BothSides /\ within w (h_sr h) (- lag_of (h_lag h) (h_sr h) p)%Q).
(** all bounds are multiples of the sampling interval *)
Definition on_samples (h : hdr) (range : Q) (l : list (Q * Q)) : Prop :=
  whole (h_lag h * h_sr h) /\ whole (range * h_sr h) /\ forall w, In w l -> whole (fst w * h_sr h) /\ whole (snd w * h_sr h).
