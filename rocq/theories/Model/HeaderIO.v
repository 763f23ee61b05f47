(** Headers in the file of correlations: convert_header_to_hdf5 and read_hdf5_header (db/corr_hdf5.py 455-511).
    Numbers are rationals, numpy arrays of numbers or texts are lists. *)
From Coq Require Import QArith.
From Verif Require Import Lib.Base Lib.Str Lib.Time.
Local Open Scope Z_scope.
Local Open Scope string_scope.
Local Open Scope Z_scope.

(** an entry of a header; [HOther]: a type for which h5py raises TypeError, e.g. None or a dictionary *)
Inductive hval := HTime (ns : Z) | HText (s : string) | HNum (q : Q) | HList (l : list Q) | HTexts (l : list string) | HOther.
(** an attribute of a data set *)
Inductive attr := AText (s : string) | ANum (q : Q) | AList (l : list Q) | ATexts (l : list string).

(** convert_header_to_hdf5, 455-477: one entry; None: warning, the entry is not written *)
Definition to_attr (v : hval) : option attr :=
  match v with
  | HTime t => Some (AText (format_fissures t))
  | HText s => Some (AText s)
  | HNum q => Some (ANum q)
  | HList l => Some (AList l)
  | HTexts l => Some (ATexts l)
  | HOther => None
  end.
Definition convert_header (h : list (string * hval)) : list (string * attr) :=
  flat_map (fun e => match to_attr (snd e) with Some a => [(fst e, a)] | None => [] end) h.

(** ** obspy's UTCDateTime of a text written by format_fissures; texts in other formats are not modelled *)
Definition undigit (c : ascii) : option Z :=
  let n := Z.of_N (N_of_ascii c) in if (48 <=? n) && (n <=? 57) then Some (n - 48) else None.
Fixpoint take_dec (w : nat) (acc : Z) (s : string) : option (Z * string) :=
  match w with
  | O => Some (acc, s)
  | S w' => match s with
            | String c r => match undigit c with Some d => take_dec w' (10 * acc + d) r | None => None end
            | EmptyString => None
            end
  end.
Definition expect (c : ascii) (s : string) : option string :=
  match s with String d r => if Ascii.eqb c d then Some r else None | EmptyString => None end.
Notation "'let?' p := a 'in' b" := (match a with Some p => b | None => None end) (at level 200, p pattern, a at level 100, b at level 200).
Definition fissures_fields (s : string) : option (Z * Z * Z) :=
  let? (y, s) := take_dec 4 0 s in
  let? (d, s) := take_dec 3 0 s in
  let? s := expect "T" s in
  let? (h, s) := take_dec 2 0 s in
  let? (m, s) := take_dec 2 0 s in
  let? (sc, s) := take_dec 2 0 s in
  let? s := expect "." s in
  let? (f, s) := take_dec 4 0 s in
  let? s := expect "Z" s in
  if String.eqb s "" then Some (y, d, ((h * 60 + m) * 60 + sc) * sec + f * 100000) else None.
(** [old]: versions of obspy that raise ValueError on day 360 *)
Definition utc (old : bool) (s : string) : result Z :=
  match fissures_fields s with
  | None => Raise ValueError
  | Some (y, d, tod) => if old && (d =? 360) then Raise ValueError else Ok ((days_before_year y + d - 1 - epoch_day) * day + tod)
  end.
Fixpoint set_char (n : nat) (c : ascii) (s : string) : string :=
  match s, n with
  | String _ r, O => String c r
  | String d r, S n' => String d (set_char n' c r)
  | EmptyString, _ => EmptyString
  end.
(** 490-503 *)
Definition read_time (old : bool) (s : string) : result Z :=
  match utc old s with
  | Ok t => Ok t
  | Raise e => if String.eqb (substring 4 4 s) "360T" then do t <- utc old (set_char 6 "1" s); Ok (t - day) else Raise e
  end.
Definition time_keys : list string := ["starttime"; "endtime"; "corr_start"; "corr_end"].
(** read_hdf5_header, 480-511: one entry.  Numbers and lists under the key of a time are not modelled: TypeError. *)
Definition from_attr (old : bool) (key : string) (a : attr) : result hval :=
  if existsb (String.eqb key) time_keys then
    match a with AText s => do t <- read_time old s; Ok (HTime t) | _ => Raise TypeError end
  else Ok match a with AText s => HText s | ANum q => HNum q | AList l => HList l | ATexts l => HTexts l end.
Definition read_header (old : bool) (h : list (string * attr)) : result (list (string * hval)) :=
  mapM (fun e => do v <- from_attr old (fst e) (snd e); Ok (fst e, v)) h.
