(** Saving and reading velocity changes: DV.save, read_dv (monitor/dv.py) and the conversion of headers
    (utils/miic_utils.py).  Texts and numbers of the header are texts here, times are integers (obspy compares
    times at microsecond resolution, which survives the conversion to a float), arrays are lists of rows. *)
From Coq Require Import QArith.
From Verif Require Import Lib.Base Lib.Str.
Local Open Scope string_scope.

Notation arr := (list (list Q)).
(** a value in a header *)
Inductive hval :=
| HScalar (s : string)           (* text or number *)
| HTime (t : Z)                  (* UTCDateTime *)
| HTimes (l : list Z)            (* list of UTCDateTime *)
| HArr (row : list Q)            (* numpy array *)
| HObj.                          (* None, dictionaries, other objects *)
(** a value in the dictionary of processing parameters *)
Inductive pval := PNum (q : Q) | PStr (s : string) | PBool (b : bool) | PArr0 (p : pval) (* 0-d array *).
(** a member of the npz file *)
Inductive npv :=
| NText (s : string)             (* np.array([x]) *)
| NStamps (l : list Z)
| NArr (a : arr)
| NObj                           (* object array: np.load raises ValueError on access (allow_pickle=False) *)
| N0 (p : pval).                 (* 0-d array *)

(** t_keys and no_stats, 241-248 *)
Definition t_keys : list string := ["starttime"; "endtime"; "corr_start"; "corr_end"].
Definition no_stats : list string :=
  ["corr"; "value"; "sim_mat"; "second_axis"; "method_array"; "vt_array"; "data"; "tw_len"; "tw_start"; "freq_min";
   "freq_max"; "aligned"; "subdir"; "plot_vel_change"; "start_date"; "end_date"; "win_len"; "date_inc"; "sides";
   "compute_tt"; "rayleigh_wave_velocity"; "stretch_range"; "stretch_steps"; "dt_ref"; "preprocessing"; "postprocessing"].
Definition mem (k : string) (l : list string) : bool := existsb (String.eqb k) l.

(** convert_utc_to_timestamp, 296-310 *)
Definition to_stamps (v : hval) : result npv :=
  match v with HTime t => Ok (NStamps [t]) | HTimes l => Ok (NStamps l) | _ => Raise TypeError end.
(** convert_timestamp_to_utcdt, 313-328: a list with one element becomes that element *)
Definition from_stamps (l : list Z) : hval := match l with [t] => HTime t | _ => HTimes l end.
(** np.array([x]) *)
Definition np_wrap (v : hval) : npv :=
  match v with HScalar s => NText s | HArr r => NArr [r] | _ => NObj end.

(** save_header_to_np_array, 251-268 *)
Definition save_header (h : list (string * hval)) : result (list (string * npv)) :=
  mapM (fun kv => if mem (fst kv) t_keys then do n <- to_stamps (snd kv); Ok (fst kv, n)
                  else Ok (fst kv, np_wrap (snd kv))) h.

(** load_header_from_np_array, 271-293 *)
Definition load_member (kv : string * npv) : result (list (string * hval)) :=
  let '(k, n) := kv in
  if mem k no_stats || is_prefix "reftr" k then Ok []
  else if mem k t_keys then
    match n with
    | NStamps l => Ok [(k, from_stamps l)]
    | NObj => Raise ValueError
    | _ => Raise TypeError
    end
  else match n with
       | NText s => Ok [(k, HScalar s)]
       | NArr (r :: _) => Ok [(k, HArr r)]
       | NArr [] => Ok []                            (* IndexError: warning *)
       | NStamps _ => Raise TypeError
       | NObj => Raise ValueError
       | N0 _ => Ok []                               (* IndexError: warning *)
       end.
Definition load_header (d : list (string * npv)) : result (list (string * hval)) :=
  do ls <- mapM load_member d; Ok (concat ls).

(** DV.__init__, 28-80; [proc]: dv_processing, None if it is None *)
Record dv := mkDV {
  dv_corr : arr; dv_value : arr; dv_type : string; dv_sim : arr; dv_axis : arr; dv_method : string;
  dv_stats : list (string * hval); dv_stretches : option arr; dv_corrs : option arr; dv_nstat : option arr;
  dv_proc : option (list (string * pval)) }.

Definition lookup_p (k : string) (d : list (string * pval)) : result pval :=
  match dget d k with Some v => Ok v | None => Raise KeyError end.
Definition get_p (k : string) (d : list (string * pval)) (default : pval) : pval :=
  match dget d k with Some v => v | None => default end.
Definition update {A} (d new : list (string * A)) : list (string * A) :=
  fold_left (fun acc kv => dset acc (fst kv) (snd kv)) new d.
Definition some_arr (k : string) (o : option arr) : list (string * npv) :=
  match o with Some a => [(k, NArr a)] | None => [] end.

(** DV.save, 100-132 *)
Definition save (d : dv) : result (list (string * npv)) :=
  do h <- save_header (dv_stats d);
  do h <- match dv_proc d with
          | None | Some [] => Ok h
          | Some p =>
              do f0 <- lookup_p "freq_min" p; do f1 <- lookup_p "freq_max" p;
              do tl <- lookup_p "tw_len" p; do ts <- lookup_p "tw_start" p;
              Ok (update h [("freq_min", N0 f0); ("freq_max", N0 f1); ("tw_len", N0 tl); ("tw_start", N0 ts);
                            ("sides", N0 (get_p "sides" p (PStr "unknown"))); ("aligned", N0 (get_p "aligned" p (PBool false)))])
          end;
  Ok (update h ([("method_array", NText (dv_method d)); ("vt_array", NText (dv_type d)); ("corr", NArr (dv_corr d));
                 ("value", NArr (dv_value d)); ("sim_mat", NArr (dv_sim d)); ("second_axis", NArr (dv_axis d))]
                ++ some_arr "stretches" (dv_stretches d) ++ some_arr "corrs" (dv_corrs d) ++ some_arr "n_stat" (dv_nstat d))%list).

Definition member (k : string) (f : list (string * npv)) : result npv :=
  match dget f k with Some NObj => Raise ValueError | Some n => Ok n | None => Raise KeyError end.
Definition as_arr (n : npv) : result arr := match n with NArr a => Ok a | _ => Raise TypeError end.
Definition as_text (n : npv) : result string := match n with NText s => Ok s | _ => Raise TypeError end.
(** float(0-d array) *)
Fixpoint as_float (p : pval) : result Q :=
  match p with PNum q => Ok q | PBool b => Ok (if b then 1 else 0)%Q | PStr _ => Raise ValueError | PArr0 p => as_float p end.
Definition float_member (k : string) (f : list (string * npv)) : result pval :=
  do n <- member k f; match n with N0 p => do q <- as_float p; Ok (PNum q) | _ => Raise TypeError end.
(** np.load gives a 0-d array *)
Definition get_0d (k : string) (f : list (string * npv)) (default : pval) : pval :=
  match dget f k with Some (N0 (PArr0 p)) => PArr0 p | Some (N0 p) => PArr0 p | _ => default end.
Definition opt_arr (k : string) (f : list (string * npv)) : option arr :=
  match dget f k with Some (NArr a) => Some a | _ => None end.

(** read_dv, 225-269, for one file *)
Definition read_dv (f : list (string * npv)) : result dv :=
  do h <- load_header f;
  do vt <- member "vt_array" f; do vt <- as_text vt;
  do me <- member "method_array" f; do me <- as_text me;
  do proc <- match (do f0 <- float_member "freq_min" f; do f1 <- float_member "freq_max" f;
                    do ts <- float_member "tw_start" f; do tl <- float_member "tw_len" f;
                    Ok [("freq_min", f0); ("freq_max", f1); ("tw_start", ts); ("tw_len", tl);
                        ("sides", get_0d "sides" f (PStr "unknown")); ("aligned", get_0d "aligned" f (PBool false))]) with
             | Raise KeyError => Ok []
             | r => r
             end;
  do c <- member "corr" f; do c <- as_arr c; do v <- member "value" f; do v <- as_arr v;
  do s <- member "sim_mat" f; do s <- as_arr s; do x <- member "second_axis" f; do x <- as_arr x;
  Ok (mkDV c v vt s x me h (opt_arr "stretches" f) (opt_arr "corrs" f) (opt_arr "n_stat" f) (Some proc)).
