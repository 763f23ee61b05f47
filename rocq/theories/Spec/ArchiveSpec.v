(** Specification of the waveform archive properties, in terms of times and days only. *)
From Coq Require Import Sorted.
From Verif Require Import Lib.Base Lib.Str Lib.Time Lib.TimeFacts Model.Archive.
Local Open Scope Z_scope.

(** the two times lie on the same UTC day *)
Definition same_day (a b : Z) : Prop := exists d, d * day <= a < (d + 1) * day /\ d * day <= b < (d + 1) * day.
Definition is_midnight (t : Z) : Prop := exists d, t = d * day.
(** [m] is the midnight that ends the day of [t] *)
Definition ends_day_of (m t : Z) : Prop := is_midnight m /\ t < m <= t + day.

(** consecutive samples with numbers lo, lo+1, ... *)
Definition samples_from (lo : Z) (vals : list Z) : piece :=
  combine (map (fun k => lo + Z.of_nat k) (seq 0 (length vals))) vals.

(** every instant of [a, b] is within one sampling interval of a segment *)
Definition covers (st : list seg) (a b : Z) : Prop :=
  forall t, a <= t <= b -> exists s, In s st /\ s_start s - s_delta s <= t <= s_end s + s_delta s.

(** consecutive segments leave no gap longer than the tolerance *)
Fixpoint gapless (st : list seg) : Prop :=
  match st with
  | f :: (g :: _) as r => s_start g - s_delta g <= s_end f + s_delta f + 1 /\ gapless r
  | _ => True
  end.

(** a wildcard in a request *)
Definition has_wildcard (s : string) : bool := has_char "*" s || has_char "?" s.

(** an SDS archive of one channel: years in ascending order, one file per day, named ....%03d *)
Definition sds_archive (files : string -> list string) (ys : list Z) : Prop :=
  StronglySorted Z.lt ys /\
  forall y, In y ys -> 1 <= y <= 9999 /\
    forall f, In f (files (dec 4 y)) ->
      exists d, julday f = dec 3 d /\ 1 <= d <= days_before_year (y + 1) - days_before_year y.
(** the archive has a file of day n (days since 0001-01-01) *)
Definition has_day (files : string -> list string) (ys : list Z) (n : Z) : Prop :=
  exists y f d, In y ys /\ In f (files (dec 4 y)) /\ julday f = dec 3 d /\ 1 <= d <= 366 /\
    n = days_before_year y + d - 1.

(** number of the calendar month *)
Definition month_index (t : Z) : Z := 12 * year_of t + month_of t.

(** number of the period of time that a file whose name ends with the time indicator [p] covers;
    weeks begin on Sunday (%U) or Monday (%W), 1970-01-01 was a Thursday *)
Definition period (p : string) (t : Z) : option Z :=
  if mem_s p ["%H"; "%I"]%string then Some (t / (3600 * sec))
  else if mem_s p ["%p"]%string then Some (t / (12 * 3600 * sec))
  else if mem_s p ["%a"; "%A"; "%w"; "%d"; "%j"; "%-j"]%string then Some (t / day)
  else if mem_s p ["%U"]%string then Some ((t / day + 4) / 7)
  else if mem_s p ["%W"]%string then Some ((t / day + 3) / 7)
  else if mem_s p ["%b"; "%B"; "%m"]%string then Some (month_index t)
  else if mem_s p ["%y"; "%Y"]%string then Some (year_of t)
  else None.
Definition is_month_ind (p : string) : bool := mem_s p ["%b"; "%B"; "%m"]%string.
Definition is_year_ind (p : string) : bool := mem_s p ["%y"; "%Y"]%string.
(** the month with this index has a day [d] *)
Definition month_has_day (mi d : Z) : Prop := 1 <= d <= days_in_month ((mi - 1) / 12) ((mi - 1) mod 12 + 1).
