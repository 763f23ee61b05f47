(** A whole script on several processes: c = Correlator(client, options); c.pxcorr().  The programs of Startup.v (correlate/correlate.py 62-205),
    RunStart.v (321-340, 461-468) and Collectives.v (the loop, 342-356, 358-398, 469-642) one after the other.
    What is found in the directory and what the processes read are parameters that may depend on the stations found. *)
From Verif Require Import Lib.Base Lib.Str Model.PxcorrLoop Model.Collectives Model.Stations Model.Combos Model.Rerun.
From Verif Require Model.Startup Model.RunStart Model.MonitorStart.
Local Open Scope nat_scope.

(** the same program with its messages among others; [g]: what becomes of its result *)
Fixpoint embed {P Q R U : Type} (inj : P -> Q) (prj : Q -> P) (g : R -> U) (p : prog P R) : prog Q U :=
  match p with
  | Done r => Done (g r)
  | Coll k v next => Coll k (inj v) (fun vs => embed inj prj g (next (map prj vs)))
  end.

Section Script.
  Context {T C K I : Type}.
  Variable archive : list folder.
  Variables network station component : value.
  Variable tr : Startup.trouble.
  Notation stations := (list (string * string * string) * list (string * string))%type.
  Variable inventory : result I.
  Variable remove_response : bool.
  Variable refused : stations -> option exc.
  Variable search : stations -> result ex_dict.
  Variable pc : @proc T C K.
  Variable subdiv : bool.
  Variables read_len corr_inc : Z.
  (** for every read increment its start and what each process finds *)
  Variable world : stations -> option I * ex_dict -> list (Z * list (@outcome T)).

  Inductive message := MStart (s : Startup.sent) | MBegin (t : @RunStart.told I) | MLoop (p : @payload T C K).
  (** a value of another kind cannot be received: no process can be in another part of the script *)
  Definition un_start (m : message) : Startup.sent := match m with MStart s => s | _ => Startup.PStamp end.
  Definition un_begin (m : message) : @RunStart.told I := match m with MBegin t => t | _ => RunStart.TInv None end.
  Definition un_loop (m : message) : @payload T C K := match m with MLoop p => p | _ => PM end.

  Definition corr_script (rank : nat) : prog message (result (list (@event K))) :=
    MonitorStart.andthen (embed MStart un_start (fun x => x) (Startup.start archive network station component tr rank)) (fun found =>
    MonitorStart.andthen (embed MBegin un_begin (fun x => x) (RunStart.begin_run inventory remove_response (refused found) (search found) rank)) (fun b =>
    embed MLoop un_loop Ok (process pc subdiv read_len corr_inc rank (rank_incs (world found b) rank)))).
  Definition corr_script_all (n : nat) := map corr_script (seq 0 n).
End Script.
