(** What the decimated and the tapered matrix have to contain. *)
From Coq Require Import QArith Qround Qabs.
From Verif Require Import Lib.Base Model.CorrStream Model.LagMatrix Model.Resampling Spec.LagSpec.
Local Open Scope nat_scope.

(** the row after the low pass in both directions *)
Definition filtered (lf : list sample -> list sample) (row : list sample) : list sample := rev (lf (rev (lf row))).
(** the filter keeps the number of samples *)
Definition keeps_length (lf : list sample -> list sample) : Prop := forall row, length (lf row) = length row.

(** ** taper_center *)
(** half of the width in samples, rounded up, and the width of each slope in samples, rounded up *)
Definition half_width (h : hdr) (width : Q) : Z := Qceiling (width * h_sr h / 2).
Definition slope_width (h : hdr) (width frac : Q) : Z := Qceiling (inject_Z (half_width h width) * frac).
(** [d] samples after zero lag: unchanged outside the window, zero in its centre, weighted with the two slopes between *)
Definition tapered_value (tap : nat -> list Q) (half slope d : Z) (v v' : sample) : Prop :=
  if (half <? Z.abs d)%Z then v' = v
  else if (Z.abs d <=? half - slope)%Z then v' = scale 0 v
  else v' = scale (nth (Z.to_nat (if (d <? 0)%Z then (slope + half + d)%Z else (slope - 1 - half + d)%Z)) (tap (Z.to_nat (2 * slope))) 0%Q) v.
(** [z] is the number of the sample at zero lag *)
Definition tapered_row (tap : nat -> list Q) (half slope z : Z) (row row' : list sample) : Prop :=
  length row' = length row /\
  forall k v, nth_error row k = Some v -> exists v', nth_error row' k = Some v' /\ tapered_value tap half slope (Z.of_nat k - z) v v'.
(** the window lies within the lag axis or does not reach beyond its end by one sample, or it covers the whole axis *)
Definition fits (half z : Z) (npts : nat) : Prop :=
  (half <= z /\ z + half <> Z.of_nat npts)%Z \/ (z < half /\ Z.of_nat npts - 1 <= z + half)%Z.
