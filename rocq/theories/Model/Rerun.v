(** Which stations, station pairs and existing correlations a run looks at
    (correlate/correlate.py: _filter_by_rcombis 219-235, find_existing_times 272-314,
    compute_network_station_combinations 1236-1300). *)
From Verif Require Import Lib.Base Lib.Str Lib.Sorting Model.H5 Model.CorrTrace Model.CorrDB Model.Combos.
Local Open Scope nat_scope.
Local Open Scope string_scope.

(** [fnmatch.filter(rcombis, pattern)] is not empty *)
Definition any_match (rcombis : list string) (pattern : string) : bool :=
  match fnfilter rcombis pattern with [] => false | _ => true end.

(** [_filter_by_rcombis], for the list of [network, station] *)
Definition keep_station (rcombis : list string) (ns : string * string) : bool :=
  any_match rcombis (fst ns ++ "-*." ++ snd ns ++ "-*") || any_match rcombis ("*-" ++ fst ns ++ ".*-" ++ snd ns).
Definition filter_by_rcombis (rc : option (list string)) (method : string) (stations : list (string * string)) :
  list (string * string) :=
  match rc with
  | Some l => if String.eqb method "betweenStations" then filter (keep_station l) stations else stations
  | None => stations
  end.

(** the traces of the stations that are read *)
Definition read_stations (rc : option (list string)) (st : list trace) : list trace :=
  filter (fun t => match rc with Some l => keep_station l (t_net t, t_sta t) | None => true end) st.

(** combined codes of two stations, [sort_comb_name_alphabetically] without channels *)
Definition pair_codes (p q : string * string) : string * string :=
  let '(nn, ss, _) := sort_comb (fst p) (snd p) (fst q) (snd q) "" "" in
  (fst nn ++ "-" ++ snd nn, fst ss ++ "-" ++ snd ss).

Definition later_pairs {A} (l : list A) : list (A * A) :=
  (fix go l := match l with [] => [] | x :: r => map (fun y => (x, y)) r ++ go r end)%list l.
Definition simple_pairs {A} (l : list A) : list (A * A) :=
  (fix go l := match l with [] => [] | x :: r => map (fun y => (x, y)) (x :: r) ++ go r end)%list l.

(** [compute_network_station_combinations] *)
Definition station_combinations (stations : list (string * string)) (method : string) (combis : option (list string)) :
  result (list (string * string)) :=
  if String.eqb method "betweenStations" then
    Ok (filter (fun c => match combis with Some l => str_in (fst c ++ "." ++ snd c) l | None => true end)
          (map (fun pq => pair_codes (fst pq) (snd pq))
             (filter (fun pq => str_neq (fst (fst pq)) (fst (snd pq)) || str_neq (snd (fst pq)) (snd (snd pq)))
                (later_pairs stations))))
  else if String.eqb method "betweenComponents" || String.eqb method "autoComponents" then
    Ok (map (fun p => (fst p ++ "-" ++ fst p, snd p ++ "-" ++ snd p)) stations)
  else if String.eqb method "allSimpleCombinations" then
    Ok (map (fun pq => pair_codes (fst pq) (snd pq)) (simple_pairs stations))
  else if String.eqb method "allCombinations" then
    Ok (map (fun pq => pair_codes (fst pq) (snd pq)) (list_prod stations stations))
  else Raise ValueError.

(** the correlation directory: file names and contents *)
Definition dir := list (string * file).
(** glob.glob('<nc>.<sc>*.h5') *)
Definition glob_pair (d : dir) (nc sc : string) : dir :=
  filter (fun nf => fnmatch (fst nf) (nc ++ "." ++ sc ++ "*.h5")) d.

(** dict.update *)
Definition dupdate {V} (d e : list (string * V)) : list (string * V) :=
  fold_left (fun d kv => dset d (fst kv) (snd kv)) e d.

Fixpoint collect (fs : dir) (nc sc tag cha : string) (d : list (string * list string)) : result (list (string * list string)) :=
  match fs with
  | [] => Ok d
  | nf :: r =>
      do e <- get_available_starttimes (snd nf) nc sc tag cha;
      collect r nc sc tag cha (dupdate d e)
  end.

Definition two (l : list string) : result (string * string) :=
  match l with [a; b] => Ok (a, b) | _ => Raise ValueError end.

(** [find_existing_times].  Opening the files with the current options may be refused: see Model/DBOpen.v. *)
Fixpoint existing_loop (d : dir) (combs : list (string * string)) (tag cha : string) (ex : ex_dict) : result ex_dict :=
  match combs with
  | [] => Ok ex
  | (nc, sc) :: r =>
      match glob_pair d nc sc with
      | [] => existing_loop d r tag cha ex
      | fs =>
          do t <- collect fs nc sc tag cha [];
          do ss <- two (split_on "-" sc);
          do nn <- two (split_on "-" nc);
          let k0 := fst nn ++ "." ++ fst ss in
          let k1 := snd nn ++ "." ++ snd ss in
          let inner := match dget ex k0 with Some i => i | None => [] end in
          existing_loop d r tag cha (dset ex k0 (dset inner k1 t))
      end
  end.
Definition find_existing_times (d : dir) (stations : list (string * string)) (method : string) (rc : option (list string))
           (tag cha : string) : result ex_dict :=
  do combs <- station_combinations stations method rc;
  existing_loop d combs tag cha [].
