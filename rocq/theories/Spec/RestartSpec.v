(** A run that was interrupted and started again, seen from one output file. *)
From Verif Require Import Lib.Base Lib.Str Lib.Time Model.CorrTrace Model.CorrDB Spec.DBSpec.
Local Open Scope nat_scope.
Local Open Scope string_scope.

Definition adds (tag : string) (w : list ctrace) : list op := map (fun tr => Add tr tag) w.

(** some correlation of the same codes and start time is in the file *)
Definition in_file (m : db) (tag : string) (tr : ctrace) : Prop :=
  exists e, m (mkKey tag (c_net tr) (c_sta tr) (c_cha tr) (tick (c_start tr)) e) <> None.

(** the operations of one batch on one file (correlate.py:440-449): the subdivisions, then their stack *)
Definition batch_ops (stack : list ctrace -> list ctrace) (stag : string) (w : list ctrace) : list op :=
  match w with
  | [] => []                                   (* nothing new: the file is not touched (407-409) *)
  | _ => adds "subdivision" w ++ adds stag (stack w)
  end.
