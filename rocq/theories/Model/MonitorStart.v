(** A Monitor that is made by several processes, and used by them: [Monitor.__init__] (monitor/monitor.py 35-124) as the program of a process
    between collective operations (Collectives.v), followed by [Monitor.compute_velocity_change_bulk] (MonitorProcs.v).  Logging but for its
    level, and the yaml file, are left out; so are failures of a single process other than the first, e.g. to open its log file. *)
From Verif Require Import Lib.Base Lib.Str Model.Collectives Model.Startup Model.H5 Model.CorrDB Model.MonitorFiles Model.MonitorRun Model.MonitorProcs.
Local Open Scope nat_scope.

Section Start.
  Context {P : Type}.
  Variable stamp : P.                     (** the text of the time (79-83) *)
  Variable times : option exc.            (** what make_time_list raises, if anything (52, each process) *)
  (** making the directories (72-74, first process), looking up the log level (77, each process, before the broadcast), writing the
      options to a file (106-120, first process) *)
  Variable tr : trouble.
  Variables net sta : filt.
  Variable listing : nat -> list string.  (** the directory of correlations as the process sees it *)

  (** 52-124 *)
  Definition monitor_start (rank : nat) : prog P (result (list (string * string * string))) :=
    let root e := if Nat.eqb rank 0 then e else None in
    match times with
    | Some e => Done (Raise e)
    | None =>
        match root (t_dirs tr) with
        | Some e => Done (Raise e)
        | None =>
            match t_level tr with
            | Some e => Done (Raise e)
            | None =>
                Coll Bcast stamp (fun _ =>
                  match root (t_dump tr) with
                  | Some e => Done (Raise e)
                  | None => Done (Ok (corr_find_filter net sta (listing rank)))
                  end)
            end
        end
    end.
  Definition monitor_start_all (n : nat) := map monitor_start (seq 0 n).
End Start.

(** one statement of a script after another: an exception ends the script *)
Fixpoint andthen {P A B : Type} (p : prog P (result A)) (f : A -> prog P (result B)) : prog P (result B) :=
  match p with
  | Done (Ok a) => f a
  | Done (Raise e) => Done (Raise e)
  | Coll k v next => Coll k v (fun vs => andthen (next vs) f)
  end.

(** m = Monitor(options); m.compute_velocity_change_bulk() *)
Definition monitor_script {W : Type} (times : option exc) (tr : trouble) (net sta : filt) (listing : nat -> list string) (opened : string -> result file)
  (psize rank : nat) : prog (@shared W) (result (list item)) :=
  andthen (monitor_start (SList None) times tr net sta listing rank) (fun listed => velocity opened listed psize rank).
Definition monitor_script_all {W : Type} times tr net sta listing opened (psize : nat) : list (prog (@shared W) (result (list item))) :=
  map (monitor_script times tr net sta listing opened psize) (seq 0 psize).
(** m = Monitor(options); m.compute_waveform_coherence_bulk() *)
Definition coherence_script {W A : Type} (times : option exc) (tr : trouble) (net sta : filt) (listing : nat -> list string) (opened : string -> result file)
  (compute : item -> result (list W)) (average : list W -> result A) (psize rank : nat) : prog (@shared W) (result A) :=
  andthen (monitor_start (SList None) times tr net sta listing rank) (fun listed => coherence opened listed compute average psize rank).
Definition coherence_script_all {W A : Type} times tr net sta listing opened compute (average : list W -> result A) (psize : nat) : list (prog (@shared W) (result A)) :=
  map (coherence_script times tr net sta listing opened compute average psize) (seq 0 psize).
