(** Lag axis and consistency of correlation headers. *)
From Verif Require Import Lib.Base Lib.Str Model.CorrTrace Model.CorrStats Model.WriteOut.
Local Open Scope string_scope.

(** lag of sample number i *)
Definition lag_at (start sr : Q) (i : nat) : Q := (start + inject_Z (Z.of_nat i) / sr)%Q.

Definition consistent (s : stats) : Prop :=
  (s_sr s == 0 -> s_delta s == 0) /\ (~ s_sr s == 0 -> s_delta s * s_sr s == 1) /\
  s_elag s == (if (s_npts s =? 0)%nat then s_slag s else s_slag s + inject_Z (Z.of_nat (s_npts s) - 1) * s_delta s) /\
  s_start s = s_cstart s /\ s_end s = s_cend s.

(** the same header: equal numbers, codes and entries *)
Definition same_header (s t : stats) : Prop :=
  s_sr s == s_sr t /\ s_delta s == s_delta t /\ s_start s = s_start t /\ s_end s = s_end t /\ s_cstart s = s_cstart t /\ s_cend s = s_cend t /\
  s_slag s == s_slag t /\ s_elag s == s_elag t /\ s_npts s = s_npts t /\ s_cha s = s_cha t /\
  forall k, dget (s_other s) k = dget (s_other t) k.

(** name of the file a correlation belongs to *)
Definition own_file (sep : bool) (tr : ctrace) : string :=
  c_net tr ++ "." ++ c_sta tr ++ (if sep then "." ++ c_cha tr else "") ++ ".h5".

(** codes of a batch: no '.', no wildcard characters, no two codes that differ in capitalisation only *)
Definition code_fine (s : string) : Prop := has_char "." s = false /\ plain s = true.
Definition batch_ok (cst : list ctrace) : Prop :=
  (forall a, In a cst -> code_fine (c_net a) /\ code_fine (c_sta a) /\ code_fine (c_cha a)) /\
  forall a b, In a cst -> In b cst ->
    (upper (c_net a) = upper (c_net b) -> c_net a = c_net b) /\ (upper (c_sta a) = upper (c_sta b) -> c_sta a = c_sta b) /\
    (upper (c_cha a) = upper (c_cha b) -> c_cha a = c_cha b).
