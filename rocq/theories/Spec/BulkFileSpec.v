(** Headers of correlation matrices: times under the names of times, texts, numbers and arrays otherwise; names that are
    not used for something else in the files. *)
From Coq Require Import QArith.
From Verif Require Import Lib.Base Lib.Str Model.DVFile Model.BulkFile.
Local Open Scope string_scope.

Definition names_of_times : list string := ["starttime"; "endtime"; "corr_start"; "corr_end"].
Definition usual_value (k : string) (v : bval) : Prop :=
  match v with
  | BTime _ => In k names_of_times
  | BTimes l => In k names_of_times /\ length l <> 1%nat
  | BScalar _ | BTexts _ | BArr _ => ~ In k names_of_times
  | BObj => False
  end.
Definition free_name (k : string) : Prop := k <> "file" /\ ~ In k no_stats /\ is_prefix "reftr" k = false.
Definition usual_header (h : list (string * bval)) : Prop :=
  h <> [] /\ NoDup (map fst h) /\ forall k v, In (k, v) h -> free_name k /\ usual_value k v.
(** a matrix that was made of correlations *)
Definition fresh (b : bulk) : Prop := bk_dict b = false /\ exists l, dget (bk_stats b) "processing_bulk" = Some (BTexts l).
