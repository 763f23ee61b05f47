(** The run over all correlations of a project: [Monitor.compute_velocity_change_bulk] (monitor/monitor.py:328-367).
    What is computed for one combination (compute_velocity_change, 162-326) is a parameter here: it reads one correlation file,
    which nothing in the run changes, and writes one file of results. *)
From Verif Require Import Lib.Base Lib.Str Model.Partition Model.H5 Model.CorrDB Model.MonitorFiles.
Local Open Scope string_scope.
Local Open Scope nat_scope.

(** [f, n, s, c] *)
Record item := mkItem { i_file : string; i_net : string; i_sta : string; i_cha : string }.

(** 341-348, on process 0.  [opened f]: the content of the correlation file, or the error of opening it;
    [listed] is what corr_find_filter returned: (network, station, file). *)
Definition plist (opened : string -> result file) (listed : list (string * string * string)) : result (list item) :=
  do l <- mapM (fun e => let '(n, s, f) := e in
                         do db <- opened f;
                         Ok (map (mkItem f n s) (get_available_channels db "subdivision" n s))) listed;
  Ok (concat l).

(** os.path.join(outdir, 'DV-%s.%s.%s'), 311-312; np.savez_compressed appends '.npz' *)
Definition out_name (i : item) : string := "DV-" ++ i_net i ++ "." ++ i_sta i ++ "." ++ i_cha i ++ ".npz".

Section Run.
  Context {V : Type}.          (** what a result file contains *)

  (** How compute_velocity_change ends: an error before the result is saved (line 313), or the result is saved and the plot, if
      wanted (314-321), is made or fails. *)
  Inductive outcome := Failed (e : exc) | Saved (v : V) (plot : option exc).
  Variable compute : item -> outcome.

  (** the directory of the results and the errors logged (357-367) *)
  Record rstate := mkS { dir : string -> option V; log : list (item * exc) }.

  Definition put (name : string) (v : V) (d : string -> option V) : string -> option V :=
    fun x => if String.eqb x name then Some v else d x.

  (** body of the loop: both [except] clauses log and go on *)
  Definition attempt (s : rstate) (i : item) : rstate :=
    match compute i with
    | Failed e => mkS (dir s) (log s ++ [(i, e)])
    | Saved v None => mkS (put (out_name i) v (dir s)) (log s)
    | Saved v (Some e) => mkS (put (out_name i) v (dir s)) (log s ++ [(i, e)])
    end.

  Definition attempts (s : rstate) (l : list item) : rstate := fold_left attempt l s.

  (** 349-355: the items of every process, in the order in which it works on them *)
  Definition shares (p : nat) (l : list item) : list (list item) := map (fun r => my_items p r l) (seq 0 p).
End Run.
Arguments outcome : clear implicits.
Arguments rstate : clear implicits.
