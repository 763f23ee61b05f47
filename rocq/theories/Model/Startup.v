(** A Correlator that is made by several processes: [Correlator.__init__] (correlate/correlate.py 62-205) as the program of a process between
    collective operations (Collectives.v).  Logging but for its level, the yaml file and the options that are only copied are left out; so are
    failures of a single process other than the first, e.g. to open its log file. *)
From Verif Require Import Lib.Base Lib.Str Model.Collectives Model.Stations.
Local Open Scope nat_scope.
Local Open Scope string_scope.

(** what goes wrong outside of the search for stations, if anything: making the directories (75-77, first process), looking up the log
    level (88, each process), writing the options to a file (106-120, first process: json refuses, e.g., times, or the file is refused) *)
Record trouble := mkTrouble { t_dirs : option exc; t_level : option exc; t_dump : option exc }.
(** values sent: the text of the time (84), the stations (165), the channels of the stations (201-202); None except on rank 0 *)
Inductive sent := PStamp | PStations (l : option (list (value * value))) | PRaw (l : option (list (string * string * string))).
Notation found := (result (list (string * string * string) * list (string * string))).

Section Start.
  Variable archive : list folder.
  Variables network station component : value.
  Variable tr : trouble.

  (** 201-204 *)
  Definition finish (vs : list sent) : prog sent found :=
    match vs with PRaw (Some raw) :: _ => Done (Ok (raw, unique2 (map fst raw))) | _ => Done (Raise TypeError) end.
  (** 185-202 *)
  Definition search (rank : nat) (ps : list (value * value)) : prog sent found :=
    if Nat.eqb rank 0
    then match concatM (translate archive component) ps with
         | Raise e => Done (Raise e)
         | Ok raw => Coll Bcast (PRaw (Some (unique3 raw))) finish
         end
    else Coll Bcast (PRaw None) finish.
  (** 165 *)
  Definition received (rank : nat) (vs : list sent) : prog sent found :=
    match vs with PStations (Some l) :: _ => search rank l | _ => Done (Raise TypeError) end.
  (** 141-184 *)
  Definition stations (rank : nat) : prog sent found :=
    match unwrap network, unwrap station with
    | Str n, Str s => if String.eqb n "*" && negb (has_char "*" s) then Done (Raise ValueError) else search rank [(Str n, Str s)]
    | Lst ns, Str s =>
        if String.eqb s "*"
        then if Nat.eqb rank 0
             then match concatM (available archive) ns with
                  | Raise e => Done (Raise e)
                  | Ok l => Coll Bcast (PStations (Some l)) (received rank)
                  end
             else Coll Bcast (PStations None) (received rank)
        else Done (Raise ValueError)
    | Lst ns, Lst ss => if Nat.eqb (length ns) (length ss) then search rank (combine ns ss) else Done (Raise ValueError)
    | Str n, Lst ss => search rank (map (fun s => (Str n, s)) ss)
    | _, _ => Done (Raise ValueError)
    end.
  (** an exception that only the first process meets *)
  Definition at_root (rank : nat) (e : option exc) (k : prog sent found) : prog sent found :=
    if Nat.eqb rank 0 then match e with Some x => Done (Raise x) | None => k end else k.
  (** 65-205 *)
  Definition start (rank : nat) : prog sent found :=
    at_root rank (t_dirs tr) (Coll Bcast PStamp (fun _ =>
      match t_level tr with
      | Some e => Done (Raise e)
      | None => at_root rank (t_dump tr) (stations rank)
      end)).
  Definition start_all (n : nat) : list (prog sent found) := map start (seq 0 n).
End Start.
