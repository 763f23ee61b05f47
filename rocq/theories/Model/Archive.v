(** The local waveform archive (trace_data/waveform.py).  Times are integers (ns), a trace is its start,
    its sampling interval (ns, an integer here) and its number of samples. *)
From Verif Require Import Lib.Base Lib.Str Lib.StrFacts Lib.Sorting Lib.Time Lib.TimeFacts.
Local Open Scope Z_scope.

(** ** _write_local_data, 346-359 *)
Record wave := mkW { w_start : Z; w_delta : Z; w_npts : nat }.
Definition w_time (w : wave) (k : nat) : Z := w_start w + Z.of_nat k * w_delta w.
Definition w_end (w : wave) : Z := w_time w (w_npts w - 1).
(** midnight of the date of t plus 1.5 days, truncated to the date *)
Definition date (t : Z) : Z := t / day * day.
Definition next_midnight (t : Z) : Z := date (date t + 86400 * sec * 3 / 2).
(** trim(nearest_sample=False): the samples within [s, e] (by index) *)
Definition trim_idx (w : wave) (s e : Z) : list nat :=
  filter (fun k => (s <=? w_time w k) && (w_time w k <=? e)) (seq 0 (w_npts w)).
(** the pieces that are handed to _sds_write, each with the time that names its file;
    [None]: the loop has not ended after [fuel] iterations *)
Fixpoint write_loop (fuel : nat) (w : wave) (start : Z) : option (list (Z * list nat)) :=
  if start <? w_end w then
    match fuel with
    | O => None
    | S k => let e := next_midnight start in
             option_map (cons (start, trim_idx w start e)) (write_loop k w e)
    end
  else Some [].
(** SDS_FMTSTR with year and julday of the start *)
Definition file_of (t : Z) : Z * Z := (year_of t, doy_of t).

(** ** _sds_write, 361-378, for one channel: the file holds samples by number on a common time grid.
    [Stream.merge] (obspy, method 0) fills a gap and overlapping samples that differ with a mask, and
    [Stream.write] (obspy) raises NotImplementedError for masked data. *)
Definition piece := list (Z * Z).                       (* sample number, value: consecutive numbers *)
Definition lookup (n : Z) (p : piece) : option Z :=
  match filter (fun x => fst x =? n) p with x :: _ => Some (snd x) | [] => None end.
Definition first_no (p : piece) : Z := match p with x :: _ => fst x | [] => 0 end.
Definition last_no (p : piece) : Z := match rev p with x :: _ => fst x | [] => -1 end.
(** value after merging: None is masked *)
Definition merged_at (a b : piece) (n : Z) : option Z :=
  match lookup n a, lookup n b with
  | Some x, Some y => if x =? y then Some x else None
  | Some x, None => Some x
  | None, o => o
  end.
Definition sds_write (old : option piece) (new : piece) : result piece :=
  match old with
  | None => Ok new
  | Some a =>
      let lo := Z.min (first_no a) (first_no new) in
      let hi := Z.max (last_no a) (last_no new) in
      mapM (fun n => match merged_at a new n with Some v => Ok (n, v) | None => Raise NotImplementedError end)
           (arange lo (hi + 1) 1)
  end.

(** ** _load_local, 287-311: traces (start, end, sampling interval) sorted by start;
    [true]: the local data are used, [false]: the data are requested from the server *)
Record seg := mkS { s_start : Z; s_end : Z; s_delta : Z }.
Definition use_local (check : bool) (st : list seg) (starttime endtime : Z) : bool :=
  negb (check && match st with
                 | [] => true
                 | f :: _ => match rev st with
                             | l :: _ => (starttime <? s_start f - s_delta f) || (s_end l + s_delta l <? endtime)
                             | [] => true
                             end
                 end).

(** ** get_waveforms, 124-139: [assert ~x]: the bitwise complement of a bool is an int; 0 is false *)
Definition py_invert (b : bool) : Z := - (if b then 1 else 0) - 1.
Definition truthy (z : Z) : bool := negb (z =? 0).
Definition check_request (network station location channel : string) : result unit :=
  let s := (network ++ station ++ location ++ channel)%string in
  if negb (truthy (py_invert (has_char "?" s))) then Raise AssertionError
  else if negb (truthy (py_invert (has_char "*" s))) then Raise AssertionError
  else Ok tt.

(** ** get_day_in_folder, 780-829 *)
Inductive which_day := FirstDay | LastDay.
Section Folder.
  (** the files of the channel in the folder of a year (glob) *)
  Variable files : string -> list string.
  Definition julday (f : string) : string := last (split_on "." f) EmptyString.
  (** dirlist[i0], dirlist[i0 + ii], ... : an index beyond the list raises IndexError *)
  Fixpoint find_year (years : list string) : result (string * list string) :=
    match years with
    | [] => Raise IndexError
    | y :: r => match files y with [] => find_year r | l => Ok (y, map julday l) end
    end.
  (** julday.sort(key=lambda li: (len(li), li)) *)
  Definition key_le (a b : string) : bool :=
    (String.length a <? String.length b)%nat || ((String.length a =? String.length b)%nat && str_le a b).
  (** number of the day (days since 0001-01-01) that begins at the returned time *)
  Definition get_day (w : which_day) (dirlist : list string) : result Z :=
    do yj <- find_year (match w with FirstDay => dirlist | LastDay => rev dirlist end);
    let '(y, j) := yj in
    let s := sort key_le j in
    let num x := days_before_year (undec y) + undec x - 1 in
    match w with
    | FirstDay => match s with x :: _ => Ok (num x) | [] => Raise IndexError end
    | LastDay => match rev s with x :: _ => Ok (num x + 1) | [] => Raise IndexError end
    end.
End Folder.

(** ** _adjacent_filepattern, 668-729: the time of the adjacent file.  Times are ns since 1970 in the
    proleptic Gregorian calendar. *)
Definition leap (y : Z) : bool := ((y mod 4 =? 0) && negb (y mod 100 =? 0)) || (y mod 400 =? 0).
Definition month_lengths (lp : bool) : list Z := [31; if lp then 29 else 28; 31; 30; 31; 30; 31; 31; 30; 31; 30; 31].
Definition days_in_month (y m : Z) : Z := nth (Z.to_nat (m - 1)) (month_lengths (leap y)) 0.
Definition days_before_month (y m : Z) : Z := fold_right Z.add 0 (firstn (Z.to_nat (m - 1)) (month_lengths (leap y))).
(** month and day of the month of a day of the year *)
Fixpoint month_day_from (m : Z) (lens : list Z) (doy : Z) : Z * Z :=
  match lens with
  | [] => (m, doy)
  | l :: r => if doy <=? l then (m, doy) else month_day_from (m + 1) r (doy - l)
  end.
Definition month_day (t : Z) : Z * Z := month_day_from 1 (month_lengths (leap (year_of t))) (doy_of t).
Definition month_of (t : Z) : Z := fst (month_day t).
Definition dom_of (t : Z) : Z := snd (month_day t).
(** datetime(y, m, d, time of day of t): ValueError if there is no such day *)
Definition at_date (y m d t : Z) : result Z :=
  if (1 <=? d) && (d <=? days_in_month y m) && (1 <=? y) && (y <=? 9999)
  then Ok ((days_before_year y + days_before_month y m + d - 1 - epoch_day) * day + t mod day)
  else Raise ValueError.

(** IDformat, line 502 *)
Definition IDformat : list string := ["%NET"; "%net"; "%STA"; "%sta"; "%LOC"; "%loc"; "%CHA"; "%cha"]%string.
Definition is_time_part (p : string) : bool :=
  negb ((has_char "(" p && has_char ")" p) || existsb (String.eqb p) IDformat) && has_char "%" p.
(** the last time indicator of the structure: the loop looks at no other one *)
Definition last_indicator (fs : list (list string)) : option string :=
  match filter is_time_part (concat (map (fun part => rev part) (rev fs))) with p :: _ => Some p | [] => None end.
Definition mem_s (p : string) (l : list string) : bool := existsb (String.eqb p) l.
(** [inc] is 1 or -1 (assertion) *)
Definition adjacent_time (fs : list (list string)) (t inc : Z) : result Z :=
  if negb ((inc =? 1) || (inc =? -1)) then Raise AssertionError
  else match last_indicator fs with
  | None => Raise UnboundLocalError
  | Some p =>
      if mem_s p ["%H"; "%I"]%string then Ok (t + inc * (3600 * sec))
      else if mem_s p ["%p"]%string then Ok (t + inc * (12 * 3600 * sec))
      else if mem_s p ["%a"; "%A"; "%w"; "%d"; "%j"; "%-j"]%string then Ok (t + inc * day)
      else if mem_s p ["%U"; "%W"]%string then Ok (t + inc * (7 * day))
      else if mem_s p ["%b"; "%B"; "%m"]%string then
        if month_of t + inc =? 0 then at_date (year_of t - 1) 12 (dom_of t) t
        else if month_of t + inc =? 13 then at_date (year_of t + 1) 1 (dom_of t) t
        else at_date (year_of t) (month_of t + inc) (dom_of t) t
      else if mem_s p ["%y"; "%Y"]%string then at_date (year_of t - inc) (month_of t) (dom_of t) t
      else Raise UnboundLocalError
  end.
