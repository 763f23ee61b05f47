(** What counts as processing parameter: everything except bookkeeping keys and masking steps. *)
From Verif Require Import Lib.Base Lib.Str Lib.TimeFacts Model.DBOpen.
Local Open Scope string_scope.

Definition bookkeeping : list string :=
  ["subdir"; "read_start"; "read_end"; "read_len"; "read_inc"; "combination_method"; "combinations";
   "starttime"; "xcombinations"; "preprocess_subdiv"; "allow_different_params"].

(** options as the schema of SeisMIC has them: nested dictionaries corr_args and subdivision, and a list
    of preprocessing steps, each a dictionary with the name of a function *)
Record options := mkOpt {
  o_other : list (string * pv);      (* all other keys *)
  o_corr_args : list (string * pv);
  o_subdivision : list (string * pv);
  o_steps : list (string * pv) }.    (* function name, arguments *)

Definition masking (name : string) : bool := is_substr "stream_mask_at_utc" name.

(** the processing parameters *)
Definition without (ks : list string) (d : list (string * pv)) : list (string * pv) :=
  filter (fun kv => negb (existsb (String.eqb (fst kv)) ks)) d.
Definition processing (o : options) : options :=
  mkOpt (without bookkeeping (o_other o))
        (without ["combinations"] (o_corr_args o))
        (without ["recombine_subdivision"; "delete_subdivision"] (o_subdivision o))
        (filter (fun s => negb (masking (fst s))) (o_steps o)).

(** the dictionary of an options record; the dictionary keys of [o_other] come after the three nested ones
    (the order of a Python dictionary does not matter for equality) *)
Definition step_dict (s : string * pv) : pv := PDict [("args", snd s); ("function", PAtom (fst s))].
Definition dict_of (o : options) : list (string * pv) :=
  ("corr_args", PDict (o_corr_args o)) :: ("preProcessing", PList (map step_dict (o_steps o))) ::
  ("subdivision", PDict (o_subdivision o)) :: o_other o.

Definition unique_keys (d : list (string * pv)) : Prop := NoDup (dkeys d).
Definition options_ok (o : options) : Prop :=
  unique_keys (o_other o) /\ unique_keys (o_corr_args o) /\ unique_keys (o_subdivision o) /\
  (forall k, In k (dkeys (o_other o)) -> k <> "corr_args" /\ k <> "preProcessing" /\ k <> "subdivision").

(** no two masking steps directly after each other *)
Fixpoint masks_apart (l : list (string * pv)) : bool :=
  match l with
  | a :: ((b :: _) as r) => negb (masking (fst a) && masking (fst b)) && masks_apart r
  | _ => true
  end.

Definition all_digits (s : string) : bool := all_chars is_digit s.
Definition all_letters (s : string) : bool := all_chars (fun c => is_word c && negb (is_digit c)) s.
