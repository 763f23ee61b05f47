(** What a user expects of the metadata of stations and of the selection of pairs by distance. *)
From Coq Require Import QArith.
From Verif Require Import Lib.Base Lib.Str Model.Metadata Model.Combos.
Local Open Scope string_scope.

(** requests to one client object *)
Definition in_use (o : op) : Prop := match o with Request _ _ _ | Select _ _ _ => True | _ => False end.
(** the answer of the server that comes with an operation *)
Definition answer_of (o : op) : option (result inventory) :=
  match o with Request _ _ a => Some a | Select _ _ a => Some a | _ => None end.
(** [full n s]: everything there is about a station.  Every answer is complete for one station. *)
Definition of_its_station (full : string -> string -> inventory) : Prop :=
  forall n s m, In m (full n s) -> m_net m = n /\ m_sta m = s /\ has_char "." n = false.
Definition complete_answer (full : string -> string -> inventory) (o : op) : Prop :=
  forall inv, answer_of o = Some (Ok inv) -> exists n s, inv = full n s.
(** a directory filled in this way *)
Definition complete_files (full : string -> string -> inventory) (fs : list (string * inventory)) : Prop :=
  forall name inv, In (name, inv) fs -> inv <> [] /\ exists n s, name = n ++ "." ++ s ++ ".xml" /\ inv = full n s.
(** name of the file for the first channel of an answer *)
Definition writes (name : string) (o : op) : Prop :=
  exists m r, answer_of o = Some (Ok (m :: r)) /\ name = m_net m ++ "." ++ m_sta m ++ ".xml".

(** coordinates of a station: those of its first channel *)
Definition position (inv : inventory) (x : string * string) : option (Q * Q) :=
  option_map m_pos (find (fun m => String.eqb (m_net m) (fst x) && String.eqb (m_sta m) (snd x)) inv).
(** the server answers only about the station it is asked about *)
Definition honest (server : string -> string -> result inventory) : Prop :=
  forall n s inv m, server n s = Ok inv -> In m inv -> m_net m = n /\ m_sta m = s.
(** two stations are not further apart than [d] *)
Definition within (dist : Q * Q -> Q * Q -> Q) (inv : inventory) (d : Q) (x y : string * string) : Prop :=
  exists p q, position inv x = Some p /\ position inv y = Some q /\ (dist p q <= d)%Q.
Definition station_of (a : trace) : string * string := (t_net a, t_sta a).
