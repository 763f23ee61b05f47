(** An HDF5 file as h5py presents it: a tree of groups whose children are iterated in alphabetical
    order, and data sets.  Model of the h5py calls used in db/corr_hdf5.py:
    [self[path]], [create_dataset], [del self[path]], [group.keys()], [group.values()]. *)
From Verif Require Import Lib.Base Lib.Str.
Local Open Scope string_scope.

Section H5.
  Context {D : Type}.
  Inductive node := Data (d : D) | Group (ch : list (string * node)).

  (** insert or replace a child, keeping the keys in alphabetical order *)
  Fixpoint kput (ch : list (string * node)) (k : string) (v : node) : list (string * node) :=
    match ch with
    | [] => [(k, v)]
    | (k', v') :: r =>
        if String.eqb k k' then (k, v) :: r
        else if str_lt k k' then (k, v) :: (k', v') :: r
        else (k', v') :: kput r k v
    end.

  (** [self[path]]; [None] is KeyError *)
  Fixpoint lookup (n : node) (p : list string) : option node :=
    match p with
    | [] => Some n
    | k :: r => match n with
                | Group ch => match dget ch k with Some c => lookup c r | None => None end
                | Data _ => None
                end
    end.

  (** [create_dataset(path, ...)]: intermediate groups are created as needed;
      [None] is ValueError (name already exists) *)
  Fixpoint create (n : node) (p : list string) (d : D) : option node :=
    match n with
    | Data _ => None
    | Group ch =>
        match p with
        | [] => None
        | [k] => match dget ch k with
                 | Some _ => None
                 | None => Some (Group (kput ch k (Data d)))
                 end
        | k :: r => let c := match dget ch k with Some c => c | None => Group [] end in
                    match create c r d with
                    | Some c' => Some (Group (kput ch k c'))
                    | None => None
                    end
        end
    end.

  (** [del self[path]]; [None] is KeyError *)
  Fixpoint delete (n : node) (p : list string) : option node :=
    match n with
    | Data _ => None
    | Group ch =>
        match p with
        | [] => None
        | [k] => match dget ch k with
                 | Some _ => Some (Group (ddel ch k))
                 | None => None
                 end
        | k :: r => match dget ch k with
                    | Some c => match delete c r with
                                | Some c' => Some (Group (kput ch k c'))
                                | None => None
                                end
                    | None => None
                    end
        end
    end.

  (** [group.keys()]; a data set has no keys() (AttributeError), not reached on the hierarchy *)
  Definition keys (n : node) : list string := match n with Group ch => dkeys ch | Data _ => [] end.

  (** all data sets below a node with their absolute names, in iteration order *)
  Fixpoint leaves (prefix : list string) (n : node) : list (list string * D) :=
    match n with
    | Data d => [(prefix, d)]
    | Group ch => flat_map (fun kv => leaves (prefix ++ [fst kv])%list (snd kv)) ch
    end.

  Definition empty_file : node := Group [].
End H5.
Arguments node D : clear implicits.

(** components of a path string; repeated and trailing slashes are ignored by HDF5 *)
Definition comps (path : string) : list string :=
  filter (fun s => negb (String.eqb s "")) (split_on "/" path).
Definition abs_name (p : list string) : string := "/" ++ join "/" p.
