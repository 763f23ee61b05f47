(** The documented meaning of the options 'network' and 'station' (docs/source/modules/correlate/get_started.rst and
    the messages of the exceptions), stated for lists of codes: a single text counts as a list of one. *)
From Verif Require Import Lib.Base Lib.Str Model.Stations.
Local Open Scope nat_scope.
Local Open Scope string_scope.

Inductive setting := Text (s : string) | Texts (l : list string).
Definition codes (x : setting) : list string := match x with Text s => [s] | Texts l => l end.
Definition as_value (x : setting) : value := match x with Text s => Str s | Texts l => Lst (map Str l) end.

(** one pair (network, station) is requested; both may contain wildcards *)
Inductive requested (archive : list folder) (N S : setting) (n s : string) : Prop :=
| by_position i : length (codes N) = length (codes S) -> nth_error (codes N) i = Some n -> nth_error (codes S) i = Some s ->
    requested archive N S n s
| one_network : codes N = [n] -> In s (codes S) -> requested archive N S n s
| all_stations m f : codes S = ["*"] -> In m (codes N) -> In f archive -> fnmatch (f_net f) (if String.eqb m "" then "*" else m) = true ->
    length (codes N) <> 1 -> n = f_net f -> s = f_sta f -> requested archive N S n s.

(** settings that are refused with ValueError *)
Definition refused (N S : setting) : Prop :=
  (exists s, codes N = ["*"] /\ codes S = [s] /\ has_char "*" s = false) \/
  (length (codes N) <> length (codes S) /\ length (codes N) <> 1 /\ codes S <> ["*"]).

(** the directory of a channel of the station exists *)
Definition has_data (archive : list folder) (comp n s : string) : Prop :=
  exists f, In f archive /\ f_net f = n /\ f_sta f = s /\ fnmatch (f_cha f) ("??" ++ comp ++ ".?") = true.
