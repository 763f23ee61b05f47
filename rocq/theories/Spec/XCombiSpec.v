(** Requested combinations "Net1-Net2.Sta1-Sta2[.Cha1-Cha2]" and the pairs of traces they name. *)
From Verif Require Import Lib.Base Lib.Str Model.Combos Spec.DBSpec.
Local Open Scope string_scope.

Record entry := mkEntry { e_n1 : string; e_n2 : string; e_s1 : string; e_s2 : string; e_cha : option (string * string) }.

Definition entry_text (e : entry) : string :=
  e_n1 e ++ "-" ++ e_n2 e ++ "." ++ e_s1 e ++ "-" ++ e_s2 e ++
  match e_cha e with Some (c1, c2) => "." ++ c1 ++ "-" ++ c2 | None => "" end.

(** the entry names the pair in this order *)
Definition names_in_order (e : entry) (a b : trace) : Prop :=
  t_net a = e_n1 e /\ t_sta a = e_s1 e /\ t_net b = e_n2 e /\ t_sta b = e_s2 e /\
  match e_cha e with Some (c1, c2) => t_cha a = c1 /\ t_cha b = c2 | None => True end.
Definition names (e : entry) (a b : trace) : Prop := names_in_order e a b \/ names_in_order e b a.

(** SEED codes: not empty, no '.', '-', '/' or wildcard characters *)
Definition seed (s : string) : Prop := name_ok s /\ has_char "." s = false /\ has_char "-" s = false.
Definition seed_trace (a : trace) : Prop := seed (t_net a) /\ seed (t_sta a) /\ seed (t_cha a).
Definition seed_entry (e : entry) : Prop :=
  seed (e_n1 e) /\ seed (e_n2 e) /\ seed (e_s1 e) /\ seed (e_s2 e) /\
  match e_cha e with Some (c1, c2) => seed c1 /\ seed c2 | None => True end.

(** the second code of the last part of the entry is as long as the codes of the trace *)
Definition same_length (e : entry) (a : trace) : Prop :=
  match e_cha e with
  | Some (_, c2) => String.length (t_cha a) = String.length c2
  | None => String.length (t_sta a) = String.length (e_s2 e)
  end.
