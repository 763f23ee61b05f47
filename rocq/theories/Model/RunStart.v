(** The beginning of a run on several processes, up to the loop over the data: [Correlator.pxcorr] (correlate/correlate.py 321-340) and
    [Correlator._generate_data] (461-468) as the program of a process between collective operations (Collectives.v). *)
From Verif Require Import Lib.Base Lib.Str Model.Collectives Model.Combos Model.Rerun.
Local Open Scope nat_scope.

Section RunStart.
  Context {I : Type}.            (** station metadata *)
  Variable inventory : result I.            (** store_client.read_inventory() *)
  Variable remove_response : bool.          (** options['remove_response'] *)
  (** what is found in the directory: the exception with which one of its files refuses to be opened (DBOpen.v), if there is one, and
      otherwise the result of the search (Rerun.v) *)
  Variable refused : option exc.
  Variable search : result ex_dict.

  (** values sent: the metadata (340), the existing correlations (468); None except on rank 0 *)
  Inductive told := TInv (i : option I) | TEx (e : option ex_dict).
  Notation begun := (result (option I * ex_dict)).
  (** 468 *)
  Definition know (i : option I) (vs : list told) : prog told begun :=
    match vs with TEx (Some ex) :: _ => Done (Ok (i, ex)) | _ => Done (Raise TypeError) end.
  (** 461-468 *)
  Definition existing (rank : nat) (i : option I) : prog told begun :=
    if Nat.eqb rank 0
    then match (match refused with Some e => Raise e | None => search end) with
         | Raise e => Done (Raise e)
         | Ok ex => Coll Bcast (TEx (Some ex)) (know i)
         end
    else Coll Bcast (TEx None) (know i).
  Definition metadata (rank : nat) (vs : list told) : prog told begun :=
    match vs with TInv i :: _ => existing rank i | _ => Done (Raise TypeError) end.
  (** 325-340 *)
  Definition begin_run (rank : nat) : prog told begun :=
    if Nat.eqb rank 0
    then match inventory with
         | Ok i => Coll Bcast (TInv (Some i)) (metadata rank)
         | Raise _ => if remove_response then Done (Raise FileNotFoundError) else Coll Bcast (TInv None) (metadata rank)
         end
    else Coll Bcast (TInv None) (metadata rank).
  Definition begin_all (n : nat) : list (prog told begun) := map begin_run (seq 0 n).
End RunStart.
