(** Selection of the trace pairs to correlate (correlate/correlate.py). *)
From Verif Require Import Lib.Base Lib.Str Lib.Sorting Lib.Time.
Local Open Scope string_scope.

(** Header of a raw data trace as far as the pair selection looks at it. [t_data] stands for the
    rest of the trace (samples, coordinates). *)
Record trace := mkTr {
  t_net : string; t_sta : string; t_loc : string; t_cha : string;
  t_start : Z;                     (* starttime, ns *)
  t_data : Z }.

(** [sort_comb_name_alphabetically], correlate.py:1167-1233; the isinstance check (1209-1211)
    is static typing here.  Result: the ordered ((net, sta, cha), (net, sta, cha)). *)
Definition sort_comb (n1 s1 n2 s2 c1 c2 : string) :
  (string * string) * (string * string) * (string * string) :=
  let k1 := n1 ++ s1 ++ c1 in
  let k2 := n2 ++ s2 ++ c2 in
  (* sort = [k1, k2]; sorted = sort.copy().sort(); sort == sorted *)
  if str_le k1 k2 then ((n1, n2), (s1, s2), (c1, c2))
  else ((n2, n1), (s2, s1), (c2, c1)).

(** dictionary returned by find_existing_times:
    'net0.stat0' -> 'net1.stat1' -> 'cha0-cha1' -> list of formatted start times *)
Definition ex_dict := list (string * list (string * list (string * list string))).

Definition ex_get (ex : ex_dict) (a b c : string) : option (list string) :=
  match dget ex a with
  | None => None
  | Some d1 => match dget d1 b with
               | None => None
               | Some d2 => dget d2 c
               end
  end.

Definition str_in (s : string) (l : list string) : bool := existsb (String.eqb s) l.

(** [_compare_existing_data], correlate.py:800-825 *)
Definition compare_existing_data (ex : ex_dict) (tr0 tr1 : trace) : bool :=
  let '(nn, ss, cc) := sort_comb (t_net tr0) (t_sta tr0) (t_net tr1) (t_sta tr1) (t_cha tr0) (t_cha tr1) in
  let same := (String.eqb (fst nn) (t_net tr0) && String.eqb (snd nn) (t_net tr1))
           && (String.eqb (fst ss) (t_sta tr0) && String.eqb (snd ss) (t_sta tr1))
           && (String.eqb (fst cc) (t_cha tr0) && String.eqb (snd cc) (t_cha tr1)) in
  let flip := negb same in
  let corr_start := Z.max (t_start tr0) (t_start tr1) in
  let a := if flip then tr1 else tr0 in
  let b := if flip then tr0 else tr1 in
  match ex_get ex (t_net a ++ "." ++ t_sta a) (t_net b ++ "." ++ t_sta b) (t_cha a ++ "-" ++ t_cha b) with
  | Some l => str_in (format_fissures corr_start) l
  | None => false                                   (* KeyError *)
  end.

(** [is_in_xcombis], correlate.py:828-842.  The ids are built from the traces; SEED codes contain no '.',
    so splitting them again (834-835) returns the codes. *)
Definition is_in_xcombis (tr1 tr2 : trace) (rcombis : list string) : bool :=
  let tcombi  := t_net tr1 ++ "-" ++ t_net tr2 ++ "." ++ t_sta tr1 ++ "-" ++ t_sta tr2 ++ "."
                 ++ t_cha tr1 ++ "-" ++ t_cha tr2 in
  let tcombi2 := t_net tr2 ++ "-" ++ t_net tr1 ++ "." ++ t_sta tr2 ++ "-" ++ t_sta tr1 ++ "."
                 ++ t_cha tr2 ++ "-" ++ t_cha tr1 in
  existsb (fun combi => fnmatch tcombi (combi ++ "*") || fnmatch tcombi2 (combi ++ "*")) rcombis.

(** Stream.sort(keys=['network', 'station', 'channel']): stable, lexicographic *)
Definition key_le (a b : trace) : bool :=
  match String.compare (t_net a) (t_net b) with
  | Lt => true
  | Gt => false
  | Eq => match String.compare (t_sta a) (t_sta b) with
          | Lt => true
          | Gt => false
          | Eq => str_le (t_cha a) (t_cha b)
          end
  end.
Definition sort_stream (st : list trace) : list trace := sort key_le st.

(** index pairs in the order of the nested loops *)
Definition pairs_from (off : nat -> nat) (n : nat) : list (nat * nat) :=
  flat_map (fun i => map (fun j => (i, j)) (seq (off i) (n - off i))) (seq 0 n).

(** [for ii, tr ...: for jj ...: if <cond>: combis.append((ii, jj))] where the condition may raise *)
Fixpoint filterM {A} (f : A -> result bool) (l : list A) : result (list A) :=
  match l with
  | [] => Ok []
  | x :: r => do b <- f x; do t <- filterM f r; Ok (if b then x :: t else t)
  end.

Definition at_pair (st : list trace) (f : trace -> trace -> result bool) (ij : nat * nat) : result bool :=
  match nth_error st (fst ij), nth_error st (snd ij) with
  | Some a, Some b => f a b
  | _, _ => Raise IndexError
  end.

Definition str_neq (a b : string) : bool := negb (String.eqb a b).

(** branch conditions of [calc_cross_combis] *)
Definition cond_between_stations (ex : ex_dict) (rc : option (list string)) (a b : trace) : result bool :=
  if str_neq (t_net a) (t_net b) || str_neq (t_sta a) (t_sta b) then
    if compare_existing_data ex a b then Ok false
    else match rc with
         | Some l => Ok (is_in_xcombis a b l)
         | None => Ok true
         end
  else Ok false.
Definition cond_between_components (ex : ex_dict) (a b : trace) : result bool :=
  if String.eqb (t_net a) (t_net b) && String.eqb (t_sta a) (t_sta b) then
    match last_char (t_cha a), last_char (t_cha b) with
    | Some x, Some y => Ok (negb (Ascii.eqb x y) && negb (compare_existing_data ex a b))
    | _, _ => Raise IndexError                     (* channel[-1] of an empty code *)
    end
  else Ok false.
Definition cond_not_existing (ex : ex_dict) (a b : trace) : result bool :=
  Ok (negb (compare_existing_data ex a b)).

(** [calc_cross_combis], correlate.py:845-933.  Returns the stream sorted in place together with the
    combinations (indices into the sorted stream).  The warning for an empty result is omitted. *)
Definition calc_cross_combis (st : list trace) (ex : ex_dict) (method : string)
           (rc : option (list string)) : result (list trace * list (nat * nat)) :=
  let st := sort_stream st in
  let n := length st in
  do c <- (if String.eqb method "betweenStations" then
             filterM (at_pair st (cond_between_stations ex rc)) (pairs_from S n)
           else if String.eqb method "betweenComponents" then
             filterM (at_pair st (cond_between_components ex)) (pairs_from S n)
           else if String.eqb method "autoComponents" then
             filterM (at_pair st (cond_not_existing ex)) (map (fun i => (i, i)) (seq 0 n))
           else if String.eqb method "allSimpleCombinations" then
             filterM (at_pair st (cond_not_existing ex)) (pairs_from (fun i => i) n)
           else if String.eqb method "allCombinations" then
             filterM (at_pair st (cond_not_existing ex)) (pairs_from (fun _ => 0) n)
           else Raise ValueError);
  Ok (st, c).

(** Pruning of unused traces, correlate.py:575-595: delete the traces whose index occurs in no
    combination, then recompute the combinations (only if something was deleted). *)
Definition used (combis : list (nat * nat)) (i : nat) : bool :=
  existsb (fun c => (fst c =? i)%nat || (snd c =? i)%nat) combis.
Definition del_unused (combis : list (nat * nat)) (win : list trace) : list trace :=
  map snd (filter (fun q => used combis (fst q)) (enumerate win)).
Definition select_pairs (win : list trace) (ex : ex_dict) (method : string) (rc : option (list string)) :
  result (list trace * list (nat * nat)) :=
  do wc <- calc_cross_combis win ex method rc;
  let '(win, combis) := wc in
  match combis with
  | [] => Ok (win, [])                             (* 570-574: continue *)
  | _ =>
      let win' := del_unused combis win in
      if (length win' =? length win)%nat then Ok (win, combis)
      else calc_cross_combis win' ex method rc
  end.

(** The pairs of traces that are correlated (what _pxcorr_inner does with the index pairs, 386-394). *)
Definition pair_traces (win : list trace) (combis : list (nat * nat)) : list (option trace * option trace) :=
  map (fun c => (nth_error win (fst c), nth_error win (snd c))) combis.
