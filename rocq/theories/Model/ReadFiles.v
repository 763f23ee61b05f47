(** Reading from a directory tree that is described by a list of format strings
    (trace_data/waveform.py, read_from_filesystem).  Times are ns since 1970; that [datetime] has no more than
    microseconds is not modelled.  The files hold traces of the requested channel on one time grid. *)
From Verif Require Import Lib.Base Lib.Str Lib.Sorting Lib.Time Model.Archive Model.MonitorFiles.
Local Open Scope string_scope.
Local Open Scope Z_scope.

(** ** datetime.strftime *)
Definition month_names : list string :=
  ["January"; "February"; "March"; "April"; "May"; "June"; "July"; "August"; "September"; "October"; "November";
   "December"].
Definition day_names : list string :=
  ["Sunday"; "Monday"; "Tuesday"; "Wednesday"; "Thursday"; "Friday"; "Saturday"].
(** 0: Sunday; 1970-01-01 was a Thursday *)
Definition weekday (t : Z) : Z := (t / day + 4) mod 7.
Definition hour_of (t : Z) : Z := t mod day / (3600 * sec).
(** decimal without leading zeros, up to 366 *)
Definition short_dec (n : Z) : string :=
  if n <? 10 then dec 1 n else if n <? 100 then dec 2 n else dec 3 n.
(** the text for %c; directives that are not listed are copied (glibc) *)
Definition directive (c : ascii) (t : Z) : string :=
  (if Ascii.eqb c "Y" then dec 4 (year_of t)
  else if Ascii.eqb c "y" then dec 2 (year_of t mod 100)
  else if Ascii.eqb c "C" then dec 2 (year_of t / 100)
  else if Ascii.eqb c "m" then dec 2 (month_of t)
  else if Ascii.eqb c "B" then nth (Z.to_nat (month_of t - 1)) month_names ""
  else if Ascii.eqb c "b" then substring 0 3 (nth (Z.to_nat (month_of t - 1)) month_names "")
  else if Ascii.eqb c "d" then dec 2 (dom_of t)
  else if Ascii.eqb c "j" then dec 3 (doy_of t)
  else if Ascii.eqb c "A" then nth (Z.to_nat (weekday t)) day_names ""
  else if Ascii.eqb c "a" then substring 0 3 (nth (Z.to_nat (weekday t)) day_names "")
  else if Ascii.eqb c "w" then dec 1 (weekday t)
  else if Ascii.eqb c "U" then dec 2 ((doy_of t + 6 - weekday t) / 7)
  else if Ascii.eqb c "W" then dec 2 ((doy_of t + 6 - (weekday t + 6) mod 7) / 7)
  else if Ascii.eqb c "H" then dec 2 (hour_of t)
  else if Ascii.eqb c "I" then dec 2 ((hour_of t + 11) mod 12 + 1)
  else if Ascii.eqb c "p" then (if (hour_of t <? 12)%Z then "AM" else "PM")
  else if Ascii.eqb c "M" then dec 2 (t mod day / (60 * sec) mod 60)
  else if Ascii.eqb c "S" then dec 2 (t mod day / sec mod 60)
  else if Ascii.eqb c "f" then dec 6 (t mod sec / 1000)
  else if Ascii.eqb c "%" then "%"
  else String "%" (String c ""))%string.
Fixpoint strftime (f : string) (t : Z) : string :=
  match f with
  | EmptyString => ""
  | String a r =>
      if Ascii.eqb a "%" then
        match r with
        | EmptyString => "%"
        | String c r' =>
            if Ascii.eqb c "-" then
              match r' with
              | String "j" r'' => (short_dec (doy_of t) ++ strftime r'' t)%string
              | _ => String a (strftime r t)
              end
            else (directive c t ++ strftime r' t)%string
        end
      else String a (strftime r t)
  end.

(** ** _fs_translate, 748-777.  re.search('(.*?)', part).group(0) is the empty string for every part, so that
    [trans] is never true: nothing is removed from the part and nothing is replaced. *)
Fixpoint index_of (p : string) (l : list string) : option nat :=
  match l with [] => None | x :: r => if String.eqb p x then Some O else option_map S (index_of p r) end.
Definition fs_translate (part ID : string) (t : Z) : result string :=
  match index_of part IDformat with
  | Some idx =>
      match nth_error (split_on "." ID) (idx / 2) with
      | None => Raise IndexError
      | Some res => Ok (if Nat.odd idx then lower res else res)
      end
  | None => Ok (strftime part t)
  end.

(** os.path.join of two *)
Definition path_join (a b : string) : string :=
  match b with
  | String "/" _ => b
  | _ => match a with
         | EmptyString => b
         | _ => match last_char a with Some "/"%char => a ++ b | _ => a ++ "/" ++ b end
         end
  end%string.

(** ** _current_filepattern, 732-745 *)
Definition current_filepattern (ID : string) (t : Z) (fs : list (list string)) : result string :=
  do parts <- mapM (fun part => do l <- mapM (fun q => fs_translate q ID t) part; Ok (cat l)) fs;
  Ok (fold_left path_join parts "").

(** 594-597: a single string is the directory of an SDS archive *)
Definition sds_structure (base : string) : list (list string) :=
  [[base]; ["%Y"]; ["%NET"]; ["%STA"]; ["%CHA"; ".D"];
   ["%NET"; "."; "%STA"; "."; "%LOC"; "."; "%CHA"; ".D."; "%Y"; "."; "%j"]].

(** ** Traces (obspy): number of the first sample on the time grid and values ([None]: masked) *)
Record trace := mkTr { no : Z; vals : list (option Z) }.
Definition npts (w : trace) : Z := Z.of_nat (length (vals w)).
Definition end_no (w : trace) : Z := no w + npts w - 1.

Section Reading.
  (** time of sample 0 and sampling interval *)
  Variables (origin delta : Z).
  Definition time_no (n : Z) : Z := origin + n * delta.
  Definition starttime (w : trace) : Z := time_no (no w).
  Definition endtime (w : trace) : Z := time_no (end_no w).

  (** numpy/obspy round_away of a / delta *)
  Definition round_away (a : Z) : Z :=
    if 0 <=? a then (2 * a + delta) / (2 * delta) else - ((2 * (- a) + delta) / (2 * delta)).
  (** Trace._ltrim and _rtrim (nearest_sample=True, pad=False) *)
  Definition ltrim (s : Z) (w : trace) : trace :=
    let d := round_away (s - starttime w) in
    if d <=? 0 then w else mkTr (no w + d) (skipn (Z.to_nat d) (vals w)).
  Definition rtrim (e : Z) (w : trace) : trace :=
    let d := round_away (e - starttime w) - npts w + 1 in
    if 0 <=? d then w
    else if e <? starttime w then mkTr (no w) []
    else if e =? starttime w then mkTr (no w) (firstn 1 (vals w))
    else mkTr (no w) (firstn (Z.to_nat (npts w + d)) (vals w)).
  Definition has_samples (w : trace) : bool := 0 <? npts w.
  (** Stream.trim: ValueError if the start is after the end; traces without samples are removed *)
  Definition trim_stream (s e : Z) (st : list trace) : result (list trace) :=
    match st with
    | [] => Ok []
    | _ => if e <? s then Raise ValueError
           else Ok (filter has_samples (map (fun w => rtrim e (ltrim s w)) st))
    end.

  (** Trace.__add__ of a trace [b] that does not begin before [a] (method 0): a gap is masked.  What comes out for
      overlapping traces is left open. *)
  Variable overlap : trace -> trace -> trace.
  Definition add (a b : trace) : trace :=
    let gap := no b - (no a + npts a) in
    if 0 <=? gap then mkTr (no a) (vals a ++ repeat None (Z.to_nat gap) ++ vals b) else overlap a b.
  (** Stream.merge of traces with the same id: sorted by start and end, then added one by one *)
  Definition earlier (a b : trace) : bool := (no a <? no b) || ((no a =? no b) && (end_no a <=? end_no b)).
  Definition merge (st : list trace) : list trace :=
    match sort earlier st with [] => [] | w :: r => [fold_left add r w] end.

  (** the contents of the files whose names match a pattern, in the order of glob.glob *)
  Variable glob : string -> list (list trace).

  (** ** _read_filepattern, 633-665.  Merging traces of one channel on one grid does not fail. *)
  Definition read_file (s e : Z) (trim : bool) (f : list trace) : result (list trace) :=
    match f, rev f with
    | first :: _, last :: _ =>
        if (starttime first <? e) && (endtime last >? s) then (if trim then trim_stream s e f else Ok f) else Ok []
    | _, _ => Raise IndexError
    end.
  Definition read_filepattern (pat : string) (s e : Z) (trim : bool) : result (list trace) :=
    do sts <- mapM (read_file s e trim) (glob pat); Ok (merge (concat sts)).

  (** ** read_from_filesystem, 505-630 *)
  Section Request.
    Variables (ID : string) (fs : list (list string)) (s e : Z) (trim : bool).
    Definition read_at (t : Z) : result (list trace) :=
      do pat <- current_filepattern ID t fs; read_filepattern pat s e trim.
    (** 606-612 *)
    Definition begins_late (st : list trace) : bool :=
      match st with [] => true | w :: _ => starttime w - delta >? s end.
    Definition ends_early (st : list trace) : bool :=
      match st with [] => true | w :: _ => endtime w <? e end.
    (** 613-623 *)
    Fixpoint later_files (fuel : nat) (this : Z) (st : list trace) : result (list trace) :=
      if ends_early st && (this <? e) then
        match fuel with
        | O => Raise OutOfFuel
        | S k =>
            do this' <- adjacent_time fs this 1;
            do pat <- current_filepattern ID this' fs;
            if this' =? s then Ok st
            else do more <- read_filepattern pat s e trim;
                 later_files k this' (merge (st ++ more))
        end
      else Ok st.
    Definition read_from_filesystem (fuel : nat) : result (list trace) :=
      do st <- read_at s;
      do st <- (if begins_late st then
                  do t <- adjacent_time fs s (-1);
                  do more <- read_at t;
                  Ok (merge (st ++ more))
                else Ok st);
      do st <- later_files fuel s st;
      if trim then trim_stream s e st else Ok st.
  End Request.
End Reading.
