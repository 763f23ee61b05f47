(** What a user expects of a header that was written and read again. *)
From Coq Require Import QArith.
From Verif Require Import Lib.Base Lib.Str Lib.Time Model.HeaderIO.
Local Open Scope Z_scope.

Definition is_time_key (k : string) : bool := existsb (String.eqb k) ["starttime"; "endtime"; "corr_start"; "corr_end"]%string.
(** times lie in the years 1 to 9999; under the four keys of times there are times, or entries that cannot be stored *)
Definition well_typed (e : string * hval) : Prop :=
  (forall t, snd e = HTime t -> time_ok t) /\
  (is_time_key (fst e) = true -> snd e = HOther \/ exists t, snd e = HTime t).
(** what comes back *)
Definition back (e : string * hval) : option hval :=
  match snd e with
  | HTime t => Some (if is_time_key (fst e) then HTime (tick t * 100000) else HText (format_fissures t))
  | HOther => None
  | v => if is_time_key (fst e) then None else Some v
  end.
(** a header that can be kept as it is: times under the four keys, at 100 microseconds, and only there; everything can be stored *)
Definition plain (e : string * hval) : Prop :=
  match snd e with
  | HTime t => is_time_key (fst e) = true /\ time_ok t /\ t mod 100000 = 0
  | HOther => False
  | _ => is_time_key (fst e) = false
  end.
