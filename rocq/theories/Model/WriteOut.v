(** [Correlator._write], correlate/correlate.py:400-449: which process writes which correlations to which file. *)
From Verif Require Import Lib.Base Lib.Str Lib.Sorting Model.Partition Model.CorrTrace.
Local Open Scope nat_scope.
Local Open Scope string_scope.

(** str.upper() on ASCII *)
Definition upper_char (c : ascii) : ascii :=
  let n := nat_of_ascii c in if ((97 <=? n) && (n <=? 122))%nat then ascii_of_nat (n - 32) else c.
Fixpoint upper (s : string) : string :=
  match s with EmptyString => "" | String c r => String (upper_char c) (upper r) end.

(** obspy Stream.select for one code *)
Definition sel_code (pat s : string) : bool := fnmatch (upper s) (upper pat).

(** list(set(l)) followed by sort() *)
Fixpoint nub (l : list string) : list string :=
  match l with [] => [] | x :: r => if existsb (String.eqb x) r then nub r else x :: nub r end.
Definition sorted_set (l : list string) : list string := sort str_le (nub l).

(** f'{network}.{station}' or f'{network}.{station}.{channel}' (412-420) *)
Definition code_of (sep : bool) (tr : ctrace) : string :=
  if sep then c_net tr ++ "." ++ c_sta tr ++ "." ++ c_cha tr else c_net tr ++ "." ++ c_sta tr.

(** body of the loop over the codes (427-437): file name and selected correlations *)
Definition select_file (sep : bool) (cst : list ctrace) (code : string) : result (string * list ctrace) :=
  if sep then
    match split_on "." code with
    | [net; sta; cha] => Ok (net ++ "." ++ sta ++ "." ++ cha ++ ".h5",
        filter (fun tr => sel_code net (c_net tr) && sel_code sta (c_sta tr) && sel_code cha (c_cha tr)) cst)
    | _ => Raise ValueError
    end
  else
    match split_on "." code with
    | [net; sta] => Ok (net ++ "." ++ sta ++ ".h5", filter (fun tr => sel_code net (c_net tr) && sel_code sta (c_sta tr)) cst)
    | _ => Raise ValueError
    end.

(** what process [rank] of [p] writes *)
Definition writes (p rank : nat) (sep : bool) (cst : list ctrace) : result (list (string * list ctrace)) :=
  match cst with
  | [] => Ok []                                  (* 407-409 *)
  | _ => mapM (select_file sep cst) (my_items p rank (sorted_set (map (code_of sep) cst)))
  end.

(** what all processes together write *)
Definition all_writes (p : nat) (sep : bool) (cst : list ctrace) : list (string * list ctrace) :=
  flat_map (fun r => match writes p r sep cst with Ok l => l | Raise _ => [] end) (seq 0 p).
