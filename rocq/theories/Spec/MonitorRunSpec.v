(** Runs on several processes. *)
From Verif Require Import Lib.Base Lib.Str Model.MonitorRun.

(** [t] is an order in which the processes, each working through its own list, can get their work done. *)
Inductive schedule {A} : list (list A) -> list A -> Prop :=
| sched_end : forall ls, Forall (fun l => l = []) ls -> schedule ls []
| sched_step : forall ls1 ls2 x r t, schedule (ls1 ++ r :: ls2) t -> schedule (ls1 ++ (x :: r) :: ls2) (x :: t).

(** what has to be in a result file afterwards, [old] being its content before *)
Definition expected {V} (o : outcome V) (old : option V) : option V := match o with Failed _ => old | Saved v _ => Some v end.
(** what has to be logged *)
Definition complaint {V} (o : outcome V) : option exc := match o with Failed e => Some e | Saved _ e => e end.

(** the name of a correlation file that Correlator writes: network and station codes, and nothing else *)
Definition plain_name (f : string) : Prop := exists n s, split_on "." f = [n; s; "h5"%string].
