(** Which velocity changes can be stored completely. *)
From Coq Require Import QArith.
From Verif Require Import Lib.Base Lib.Str Model.DVFile.
Local Open Scope string_scope.

(** a header whose entries are texts, numbers, arrays and times, under names that the file format does not use
    itself; lists of times do not have exactly one element *)
Definition entry_ok (kv : string * hval) : Prop :=
  mem (fst kv) no_stats = false /\ is_prefix "reftr" (fst kv) = false /\ mem (fst kv) ["stretches"; "corrs"; "n_stat"] = false /\
  if mem (fst kv) t_keys
  then match snd kv with HTime _ => True | HTimes l => length l <> 1%nat | _ => False end
  else match snd kv with HScalar _ | HArr _ => True | _ => False end.
Definition header_ok (h : list (string * hval)) : Prop := NoDup (map fst h) /\ Forall entry_ok h.

(** the processing parameters are empty or hold the four numbers *)
Definition proc_ok (p : option (list (string * pval))) : Prop :=
  match p with
  | None | Some [] => True
  | Some p => forall k, In k ["freq_min"; "freq_max"; "tw_start"; "tw_len"] -> exists q, dget p k = Some (PNum q)
  end.

(** equality of two parameters up to being stored in a 0-d array *)
Fixpoint strip (p : pval) : pval := match p with PArr0 p => strip p | _ => p end.
