(** From the options 'network' and 'station' to the stations whose data are read
    (Correlator.__init__, correlate/correlate.py:135-208; Store_Client, trace_data/waveform.py:141-255). *)
From Verif Require Import Lib.Base Lib.Str Lib.Sorting.
Local Open Scope nat_scope.
Local Open Scope string_scope.

(** values of options: texts, lists, None *)
Inductive value := Str (s : string) | Lst (l : list value) | Non.

(** 144-147: a list of one element is replaced by its element *)
Definition unwrap (v : value) : value := match v with Lst [x] => x | _ => v end.

Fixpoint concatM {A B} (f : A -> result (list B)) (l : list A) : result (list B) :=
  match l with [] => Ok [] | x :: r => do y <- f x; do ys <- concatM f r; Ok (y ++ ys)%list end.

(** the archive: the directories year/network/station/channel.type.  Years are numbers of four digits. *)
Record folder := mkF { f_year : string; f_net : string; f_sta : string; f_cha : string }.

Section Client.
  Variable archive : list folder.

  (** get_available_stations, waveform.py:141-169: glob root/????/network/*; duplicates are dropped (the last
      occurrence is kept here, the first one in the code).  os.path.join raises TypeError for anything but a text. *)
  Definition available (network : value) : result (list (value * value)) :=
    match network with
    | Str n =>
        let pat := if String.eqb n "" then "*" else n in
        let l := map (fun f => (f_net f, f_sta f)) (filter (fun f => fnmatch (f_net f) pat) archive) in
        match l with
        | [] => Raise FileNotFoundError
        | _ => Ok (map (fun p => (Str (fst p), Str (snd p)))
                       (dedup (fun p q => String.eqb (fst p) (fst q) && String.eqb (snd p) (snd q)) l))
        end
    | _ => Raise TypeError
    end.

  (** 149-184: the list of pairs of network and station *)
  Definition pairs_of (network station : value) : result (list (value * value)) :=
    match unwrap network, unwrap station with
    | Str n, Str s => if String.eqb n "*" && negb (has_char "*" s) then Raise ValueError else Ok [(Str n, Str s)]
    | Lst ns, Str s => if String.eqb s "*" then concatM available ns else Raise ValueError
    | Lst ns, Lst ss => if (length ns =? length ss)%nat then Ok (combine ns ss) else Raise ValueError
    | Str n, Lst ss => Ok (map (fun s => (Str n, s)) ss)
    | _, _ => Raise ValueError
    end.

  (** 176-178: [station[ii] = [network, stat]] changes the list in the options that were handed over *)
  Definition station_after (network station : value) : value :=
    match unwrap network with
    | Str n => let paired := map (fun s => Lst [Str n; s]) in
               match station with
               | Lst [Lst ss] => Lst [Lst (paired ss)]
               | Lst [_] => station
               | Lst ss => Lst (paired ss)
               | _ => station
               end
    | _ => station
    end.

  (** _translate_wildcards, waveform.py:231-255: glob root/*/network/station/'??' + component + '.?' *)
  Definition before_dot (s : string) : string := hd "" (split_on "." s).
  Definition translate (component : value) (p : value * value) : result (list (string * string * string)) :=
    match fst p, snd p, component with
    | Str n, Str s, Str c =>
        Ok (map (fun f => (f_net f, f_sta f, before_dot (f_cha f)))
                (filter (fun f => fnmatch (f_net f) n && fnmatch (f_sta f) s && fnmatch (f_cha f) ("??" ++ c ++ ".?")) archive))
    | _, _, _ => Raise TypeError
    end.

  (** np.unique(axis=0): sorted rows without duplicates *)
  Definition eq2 (a b : string * string) : bool := String.eqb (fst a) (fst b) && String.eqb (snd a) (snd b).
  Definition le2 (a b : string * string) : bool :=
    str_lt (fst a) (fst b) || (String.eqb (fst a) (fst b) && str_le (snd a) (snd b)).
  Definition eq3 (a b : string * string * string) : bool := eq2 (fst a) (fst b) && String.eqb (snd a) (snd b).
  Definition le3 (a b : string * string * string) : bool :=
    (le2 (fst a) (fst b) && negb (eq2 (fst a) (fst b))) || (eq2 (fst a) (fst b) && str_le (snd a) (snd b)).
  Definition unique2 (l : list (string * string)) := sort le2 (dedup eq2 l).
  Definition unique3 (l : list (string * string * string)) := sort le3 (dedup eq3 l).

  (** 185-205: avail_raw_data and station *)
  Definition find_stations (network station component : value) : result (list (string * string * string) * list (string * string)) :=
    do ps <- pairs_of network station;
    do raw <- concatM (translate component) ps;
    let raw := unique3 raw in
    Ok (raw, unique2 (map fst raw)).
End Client.
