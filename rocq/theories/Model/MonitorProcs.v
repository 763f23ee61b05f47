(** The runs of a Monitor on several processes: [Monitor.compute_velocity_change_bulk] (monitor/monitor.py 328-367) and
    [Monitor.compute_waveform_coherence_bulk] (480-560) as the programs of a process between collective operations (Collectives.v).
    What is computed for one combination, and the averages made of all coherences, are parameters. *)
From Verif Require Import Lib.Base Lib.Str Model.Collectives Model.Partition Model.H5 Model.CorrDB Model.MonitorRun.
Local Open Scope nat_scope.

Section Bulk.
  Context {W A : Type}.          (** a coherence; what the averages end up in *)
  Variable opened : string -> result file.
  Variable listed : list (string * string * string).
  Variable compute : item -> result (list W).       (** compute_waveform_coherence, run to its end; the exception leaves the loop (509-514) *)
  Variable average : list W -> result A.            (** 524-560; all processes do this, with the same list *)

  (** values sent: the combinations (349, 503; None except on rank 0), the coherences of a process (520) *)
  Inductive shared := SList (l : option (list item)) | SWfc (ws : list W).
  Definition get_wfc (s : shared) : list W := match s with SWfc ws => ws | SList _ => [] end.

  (** 340-349, 494-503 *)
  Definition share_list {R : Type} (rank : nat) (next : list item -> prog shared (result R)) : prog shared (result R) :=
    let go vs := match vs with SList (Some l) :: _ => next l | _ => Done (Raise TypeError) end in
    if Nat.eqb rank 0
    then match plist opened listed with
         | Raise e => Done (Raise e)
         | Ok l => Coll Bcast (SList (Some l)) go
         end
    else Coll Bcast (SList None) go.

  (** 328-367: returns the combinations that the process has worked on; no exception leaves the loop *)
  Definition velocity (psize rank : nat) : prog shared (result (list item)) :=
    share_list rank (fun l => Done (Ok (my_items psize rank l))).
  (** 480-560 *)
  Definition coherence (psize rank : nat) : prog shared (result A) :=
    share_list rank (fun l =>
      match mapM compute (my_items psize rank l) with
      | Raise e => Done (Raise e)
      | Ok ws => Coll Allgather (SWfc (concat ws)) (fun vs => Done (average (concat (map get_wfc vs))))
      end).
  Definition velocity_all (psize : nat) := map (velocity psize) (seq 0 psize).
  Definition coherence_all (psize : nat) := map (coherence psize) (seq 0 psize).
End Bulk.
