(** What a user expects of the list of preprocessing functions. *)
From Verif Require Import Lib.Base Lib.Str.
Local Open Scope string_scope.

Section Steps.
  Context {St Args : Type} (import : string -> result (string -> result (St -> Args -> result St))).
  (** [s] is the path "module.name", and importing the module and asking for the name gives [f] *)
  Definition names (s : string) (f : St -> Args -> result St) : Prop :=
    exists m n attributes, m <> "" /\ has_char "." n = false /\ s = m ++ "." ++ n /\ import m = Ok attributes /\ attributes n = Ok f.
  (** all functions were applied in order *)
  Inductive applied : list (string * Args) -> St -> St -> Prop :=
  | applied_nil x : applied [] x x
  | applied_cons s a f x y z r : names s f -> f x a = Ok y -> applied r y z -> applied ((s, a) :: r) x z.
  (** the path contains the name of one of the two functions that are no longer used *)
  Definition mentions (s : string) : Prop := exists a b, s = a ++ "detrend_st" ++ b \/ s = a ++ "cos_taper_st" ++ b.
End Steps.
(** the channel code of a vertical component *)
Definition vertical (code : string) : Prop := exists a, code = a ++ "Z" \/ code = a ++ "z".
