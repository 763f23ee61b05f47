(** [DBHandler] (db/corr_hdf5.py): storing, reading, listing and deleting correlations. *)
From Verif Require Import Lib.Base Lib.Str Lib.Sorting Lib.Time Model.H5 Model.CorrTrace.
Local Open Scope string_scope.

Definition file := node ctrace.

(** [hierarchy.format(...)], corr_hdf5.py:31 *)
Definition hierarchy (tag net sta cha st et : string) : string :=
  "/" ++ tag ++ "/" ++ net ++ "/" ++ sta ++ "/" ++ cha ++ "/" ++ st ++ "/" ++ et.

(** [self[path]] for a path string *)
Definition at_path (f : file) (path : string) : option (node ctrace) := lookup f (comps path).

(** Times are written to the header as fissures strings (corr_hdf5.py:455-477) and parsed back
    (480-511): what is read has lost the part below 100 microseconds. *)
Definition file_time (t : Z) : Z := (tick t * 100000)%Z.
Definition stored (tr : ctrace) : ctrace :=
  {| c_net := c_net tr; c_sta := c_sta tr; c_loc := c_loc tr; c_cha := c_cha tr;
     c_start := file_time (c_start tr); c_end := file_time (c_end tr);
     c_lag := c_lag tr; c_sr := c_sr tr; c_data := c_data tr |}.

Definition trace_path (tag : string) (tr : ctrace) : string :=
  hierarchy tag (c_net tr) (c_sta tr) (c_cha tr)
            (format_fissures (c_start tr)) (format_fissures (c_end tr)).

(** [add_correlation], corr_hdf5.py:101-142: ValueError (exists) is caught, the trace is omitted.
    Compression is transparent.  The type check (118-122) is static typing. *)
Definition add_one (tag : string) (f : file) (tr : ctrace) : file :=
  match create f (comps (trace_path tag tr)) (stored tr) with
  | Some f' => f'
  | None => f
  end.
Definition add_correlation (f : file) (trs : list ctrace) (tag : string) : file :=
  fold_left (add_one tag) trs f.

(** The ordering of the two stations in a query, corr_hdf5.py:169-175 and 243-249. *)
Fixpoint zip3 (a b c : list string) : list (list string) :=
  match a, b, c with
  | x :: a', y :: b', z :: c' => [x; y; z] :: zip3 a' b' c'
  | _, _, _ => []
  end.
Fixpoint list_eqb (a b : list string) : bool :=
  match a, b with
  | [], [] => true
  | x :: a', y :: b' => String.eqb x y && list_eqb a' b'
  | _, _ => false
  end.
Definition sort_query (net sta cha : string) : result (string * string * string) :=
  let l := map (join ".") (zip3 (split_on "-" net) (split_on "-" sta) (split_on "-" cha)) in
  let l' := sort str_le l in
  if list_eqb l' l then Ok (net, sta, cha)
  else match l' with
       | x :: y :: _ =>
           match map (fun p => fst p ++ "-" ++ snd p) (combine (split_on "." x) (split_on "." y)) with
           | [n; s; c] => Ok (n, s, c)
           | _ => Raise ValueError            (* unpacking into three names *)
           end
       | _ => Raise IndexError                (* unreachable: lists of length < 2 are sorted *)
       end.

(** [all_traces_recursive], corr_hdf5.py:427-452 *)
Definition all_traces (base : list string) (g : node ctrace) (pattern : string) : list ctrace :=
  map snd (filter (fun pd => fnmatch (abs_name (fst pd)) pattern || is_substr (abs_name (fst pd)) pattern)
                  (leaves base g)).

(** a time argument of get_data: UTCDateTime or None (anything that is not a UTCDateTime is '*') *)
Definition time_arg (t : option Z) : string :=
  match t with Some t => format_fissures t | None => "*" end.

Definition wild (s : string) : bool := has_char "*" s || has_char "?" s.

(** [get_data], corr_hdf5.py:219-277.  Opening a path that ends at a data set as a group is an
    AttributeError ('Dataset' has no values()). *)
Definition get_data (f : file) (net sta cha tag : string) (st et : option Z) : result (list ctrace) :=
  do q <- sort_query net sta cha;
  let '(net, sta, cha) := q in
  let path := hierarchy tag net sta cha (time_arg st) (time_arg et) in
  if negb (wild path) then
    match at_path f path with
    | Some (Data d) => Ok [d]
    | Some (Group _) => Raise TypeError        (* np.array(group) and its missing attributes *)
    | None => Raise KeyError
    end
  else
    let path := replace_char "?" "*" path in
    let pattern := replace_slash_star path in
    let root := match split_on "*" path with h :: _ => h | [] => "" end in
    match at_path f root with
    | Some (Group ch) => Ok (all_traces (comps root) (Group ch) pattern)
    | Some (Data _) => Raise AttributeError
    | None => Raise KeyError
    end.

(** [get_available_starttimes], corr_hdf5.py:279-316, for a string [channel] *)
Definition get_available_starttimes (f : file) (net sta tag cha : string) :
  result (list (string * list string)) :=
  if negb (has_char "*" cha) then
    (* path = '/'.join(path.split('/')[:-2]) *)
    match at_path f ("/" ++ tag ++ "/" ++ net ++ "/" ++ sta ++ "/" ++ cha) with
    | Some n => Ok [(cha, keys n)]
    | None => Ok []                            (* except KeyError: pass *)
    end
  else
    (* path = '/'.join(path.split('/')[:-3]): the components "tag/net/sta" *)
    match at_path f ("/" ++ tag ++ "/" ++ net ++ "/" ++ sta) with
    | Some (Group ch) =>
        Ok (map (fun m => (m, match dget ch m with Some n => keys n | None => [] end))
                (fnfilter (dkeys ch) cha))
    | Some (Data _) => Raise AttributeError
    | None => Raise KeyError
    end.

(** [get_available_channels], corr_hdf5.py:318-341 *)
Definition get_available_channels (f : file) (tag net sta : string) : list string :=
  let path := hierarchy tag net sta "*" "*" "*" in
  let root := match split_on "*" path with h :: _ => h | [] => "" end in
  match at_path f root with
  | Some n => keys n
  | None => []
  end.

(** strip trailing "/*", corr_hdf5.py:189-190 *)
Fixpoint strip_stars (l : list string) : list string :=
  match l with
  | [] => []
  | s :: r => if String.eqb s "*" then strip_stars r else s :: r
  end.
Definition strip_trailing_stars (path : string) : string :=
  join "/" (rev (strip_stars (rev (split_on "/" path)))).

Definition delete_path (f : file) (path : string) : option file := delete f (comps path).

(** [remove_data], corr_hdf5.py:144-206; [st] is the fissures string (possibly with wildcards) or a
    formatted UTCDateTime *)
Definition remove_data (f : file) (net sta cha tag st : string) : result file :=
  if has_char "*" (net ++ sta ++ cha) then Raise ValueError
  else
  do q <- sort_query net sta cha;
  let '(net, sta, cha) := q in
  let path := strip_trailing_stars (hierarchy tag net sta cha st "*") in
  if negb (wild path) then
    match delete_path f path with
    | Some f' => Ok f'
    | None => Ok f                              (* KeyError: warning *)
    end
  else
    let pattern := replace_slash_star (replace_char "?" "*" path) in
    do d <- get_available_starttimes f net sta tag cha;
    match dget d cha with
    | None => Raise KeyError
    | Some l =>
        Ok (fold_left (fun f sst =>
              let sub := "/" ++ tag ++ "/" ++ net ++ "/" ++ sta ++ "/" ++ cha ++ "/" ++ sst in
              if fnmatch sub pattern
              then match delete_path f sub with Some f' => f' | None => f end
              else f) l f)
    end.
