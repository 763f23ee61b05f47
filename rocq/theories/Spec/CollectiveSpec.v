(** Vocabulary for the statements about collective operations. *)
From Verif Require Import Lib.Base Model.PxcorrLoop Model.Collectives.

Definition is_done {P R} (p : prog P R) : Prop := match p with Done _ => True | Coll _ _ _ => False end.

(** the processes all return, with the given results *)
Definition completes {P R} (ps : list (prog P R)) (rs : list R) : Prop :=
  exists n, mrun n ps = map Done rs.

(** after some collectives nothing can happen any more although a process still waits *)
Definition deadlocks {P R} (ps : list (prog P R)) : Prop :=
  exists n, mstep (mrun n ps) = None /\ exists p, In p (mrun n ps) /\ ~ is_done p.

Section World.
  Context {T : Type}.
  Variable read_len corr_inc : Z.
  Notation wins := (@windows T read_len corr_inc).

  (** in every read increment all processes have the same number of windows *)
  Definition balanced (psize : nat) (world : list (Z * list (@outcome T))) : Prop :=
    Forall (fun i => length (snd i) = psize /\
                     forall o o', In o (snd i) -> In o' (snd i) -> length (wins o) = length (wins o')) world.

  (** no process fails; every process with data cuts ceil(read_len/corr_inc) windows *)
  Definition regular (psize : nat) (world : list (Z * list (@outcome T))) : Prop :=
    Forall (fun i => length (snd i) = psize /\
                     forall o, In o (snd i) ->
                       match o with
                       | Failed => False
                       | NoData => True
                       | Data ws => length ws = empty_windows read_len corr_inc
                       end) world.

  (** windows that a process has in the whole run *)
  Definition total (world : list (Z * list (@outcome T))) (rank : nat) : nat :=
    list_sum (map (fun i => length (wins (nth rank (snd i) NoData))) world).

  (** a single process that holds the data of all processes: window j is made of the windows j of
      all processes *)
  Definition merged_inc (i : Z * list (@outcome T)) : Z * @outcome T :=
    (fst i,
     Data (map (fun j => flat_map (fun o => nth j (wins o) []) (snd i))
               (seq 0 (match snd i with o :: _ => length (wins o) | [] => 0 end)))).
End World.
