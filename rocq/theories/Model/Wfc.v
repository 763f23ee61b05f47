(** Waveform coherence: compute_wfc, wfc_multi_reftr (monitor/stretch_mod.py 68-200), WFC, WFCBulk, read_wfc
    (monitor/wfc.py 24-170), average_components_wfc and the grouping of compute_waveform_coherence_bulk
    (monitor/monitor.py 480-560, 1154-1183).  Samples are reals, [None] is NaN.  Infinities are not modelled. *)
From Coq Require Import Reals QArith.
From Verif Require Import Lib.Base Lib.Str Model.Similarity Model.Spectral Model.TimeDomain Model.Shift Model.DVFile Model.Averages.
Local Open Scope nat_scope.

(** ** values *)

(** mat * mask and refcorr * mask without replacing NaN: NaN * 0 is NaN, and a NaN anywhere makes the sums NaN *)
Definition samples (remove_nans : bool) (row : list (option R)) : option (list R) :=
  if remove_nans then Some (nan_to_num row) else all_samples row.
Definition coherence (m : list bool) (row ref : option (list R)) : option R :=
  match row, ref with Some a, Some b => similarity (masked m a) (masked m b) | _, _ => None end.

(** compute_wfc, 68-145; [n]: mat.shape[1]; the reference is not cleaned here *)
Definition compute_wfc (sd : sides) (remove_nans : bool) (n : nat) (mat : list (list (option R))) (tw : list (list Z))
    (ref : list (option R)) : result (list (list (option R))) :=
  if negb (length ref =? n) then Raise AssertionError
  else mapM (fun w => do m <- window_mask sd n w;
                      Ok (map (fun row => coherence m (samples remove_nans row) (all_samples ref)) mat)) tw.

(** wfc_multi_reftr, 148-200; [refs] is the two-dimensional array of references, each of [k] samples.  np.squeeze
    makes one reference of several references with one sample each; len() of a 0-d array is a TypeError.  The
    list has the entries reftr_0, reftr_1, ... of the dictionary. *)
Definition wfc_multi (sd : sides) (remove_nans : bool) (n k : nat) (mat : list (list (option R))) (tw : list (list Z))
    (refs : list (list (option R))) : result (list (list (list (option R)))) :=
  let refs := if remove_nans then map (fun r => map Some (nan_to_num r)) refs else refs in
  match refs with
  | [r] => if k =? 1 then Raise TypeError else do v <- compute_wfc sd remove_nans n mat tw r; Ok [v]
  | _ => if k =? 1 then do v <- compute_wfc sd remove_nans n mat tw (concat refs); Ok [v]
         else mapM (compute_wfc sd remove_nans n mat tw) refs
  end.

(** ** objects *)

(** WFC, 24-53; w_refs: entries reftr_0, reftr_1, ...; w_mean: None is the empty array *)
Record wfc := mkWfc {
  w_net : string; w_sta : string; w_cha : string;
  w_refs : list (list (list (option R)));
  w_start : Q; w_len : Q; w_fmin : Q; w_fmax : Q;
  w_av : list (option R); w_mean : option (option R) }.

(** WFC.compute_average, 55-67 *)
Definition compute_average (w : wfc) : wfc :=
  let av := map (fun v => nan_mean (concat v)) (w_refs w) in
  mkWfc (w_net w) (w_sta w) (w_cha w) (w_refs w) (w_start w) (w_len w) (w_fmin w) (w_fmax w) av (Some (nan_mean av)).

(** shape of a two-dimensional array: windows and times *)
Definition same_dims (a b : list (list (option R))) : bool :=
  (length a =? length b) && forallb (fun p => length (fst p) =? length (snd p)) (combine a b).
(** np.nanmean(list of arrays, axis=0); arrays of different shapes: ValueError *)
Definition nan_mean_arrays (l : list (list (list (option R)))) : result (list (list (option R))) :=
  match l with
  | [] => Raise ValueError
  | a :: _ => if forallb (same_dims a) l
              then Ok (map (fun i => map (fun j => nan_mean (map (fun b => nth j (nth i b []) None) l)) (seq 0 (length (nth i a []))))
                         (seq 0 (length a)))
              else Raise ValueError
  end.
Definition same_parameters (a b : wfc) : bool :=
  Qeq_bool (w_start a) (w_start b) && Qeq_bool (w_len a) (w_len b) && Qeq_bool (w_fmin a) (w_fmin b) && Qeq_bool (w_fmax a) (w_fmax b).
(** average_components_wfc, 1154-1183 *)
Definition average_wfcs (l : list wfc) : result wfc :=
  match l with
  | [] => Raise IndexError
  | w :: _ =>
      if negb (forallb (same_parameters w) l) then Raise ValueError
      else
        do m <- mapM (fun k =>
                  do arrays <- mapM (fun v => match nth_error (w_refs v) k with Some a => Ok a | None => Raise KeyError end) l;
                  nan_mean_arrays arrays) (seq 0 (length (w_refs w)));
        Ok (mkWfc (w_net w) (w_sta w) "av" m (w_start w) (w_len w) (w_fmin w) (w_fmax w) [] None)
  end.

(** compute_waveform_coherence_bulk: the files of one station, frequency band and window are averaged; a set of
    the combinations, here in the order of their first occurrence *)
Definition same_group (a b : wfc) : bool :=
  String.eqb (w_net a) (w_net b) && String.eqb (w_sta a) (w_sta b) && same_parameters a b.
Fixpoint first_of_groups (l seen : list wfc) : list wfc :=
  match l with
  | [] => []
  | w :: r => if existsb (same_group w) seen then first_of_groups r seen else w :: first_of_groups r (w :: seen)
  end.
Definition groups (l : list wfc) : list (list wfc) := map (fun w => filter (same_group w) l) (first_of_groups l []).

(** compute_waveform_coherence, 600-711, of one correlation: errors of a window are logged (682-709), those before
    them (reading, normalising, resampling, options; filtering and preprocessing of a band) leave the generator *)
Record wfc_job := mkJob { j_prepare : option exc; j_bands : list (option exc * list (result wfc)) }.
Definition band_windows (l : list (result wfc)) : list wfc := flat_map (fun r => match r with Ok w => [w] | Raise _ => [] end) l.
Fixpoint run_bands (l : list (option exc * list (result wfc))) : list wfc * option exc :=
  match l with
  | [] => ([], None)
  | (Some e, _) :: _ => ([], Some e)
  | (None, ws) :: r => let (out, e) := run_bands r in ((band_windows ws ++ out)%list, e)
  end.
Definition run_job (j : wfc_job) : list wfc * option exc :=
  match j_prepare j with Some e => ([], Some e) | None => run_bands (j_bands j) end.
(** compute_waveform_coherence_bulk, 509-519: the try surrounds only the append, not the generator *)
Fixpoint collect (jobs : list wfc_job) : result (list wfc) :=
  match jobs with
  | [] => Ok []
  | j :: r => match run_job j with
              | (_, Some e) => Raise e
              | (out, None) => do rest <- collect r; Ok (out ++ rest)%list
              end
  end.

(** ** grid of one station *)

(** WFCBulk.__init__, 86-115 *)
Definition mean_of (w : wfc) : option R :=
  match w_mean w with Some m => m | None => nan_mean (map (fun v => nan_mean (concat v)) (w_refs w)) end.
Definition cfreq (w : wfc) : Q := ((w_fmax w + w_fmin w) / 2)%Q.
Definition midpoint (w : wfc) : Q := (w_start w + w_len w / 2)%Q.
(** self.wfc[ii] = v for each of them in turn *)
Definition cell (l : list wfc) (f t : Q) : option R :=
  fold_left (fun acc w => if Qeq_bool (cfreq w) f && Qeq_bool (midpoint w) t then mean_of w else acc) l None.
Record wfc_grid := mkWG { g_freqs : list Q; g_times : list Q; g_values : list (list (option R)) }.
Definition wfc_bulk (l : list wfc) : wfc_grid :=
  let fs := unique (map (fun w => Some (cfreq w)) l) in let ts := unique (map (fun w => Some (midpoint w)) l) in
  mkWG fs ts (map (fun f => map (cell l f) ts) fs).

(** ** files; numbers are rational here, the file format stores all of them alike *)

(** f_refs, f_av: dictionaries; f_mean: None is the empty array *)
Record wfc_obj := mkWO {
  f_refs : list (string * arr); f_av : list (string * pval); f_mean : option pval;
  f_stats : list (string * hval); f_proc : list (string * pval) }.
Fixpoint distinct (l : list string) : bool := match l with [] => true | k :: r => negb (mem k r) && distinct r end.
(** WFC.save, 69-78: duplicate keyword arguments are a TypeError *)
Definition save_wfc (w : wfc_obj) : result (list (string * npv)) :=
  do h <- save_header (f_stats w);
  let h := update h (map (fun kv => (fst kv, N0 (snd kv))) (f_proc w)) in
  let members := (("mean"%string, match f_mean w with Some m => N0 m | None => NArr [] end)
                 :: map (fun kv => (fst kv, N0 (snd kv))) (f_av w)
                 ++ map (fun kv => (fst kv, NArr (snd kv))) (f_refs w) ++ h)%list in
  if distinct (map fst members) then Ok members else Raise TypeError.

(** the last three characters of the key *)
Definition is_av (k : string) : bool := String.eqb (substring (String.length k - 3) 3 k) "_av" && (3 <=? String.length k).
Definition zero_d (n : npv) : option pval := match n with N0 (PArr0 p) | N0 p => Some (PArr0 p) | _ => None end.
(** read_wfc, 134-170, for one file; np.load gives numbers as 0-d arrays *)
Record sorted_members := mkSM {s_av : list (string * npv); s_mean : option npv; s_refs : list (string * npv); s_stats : list (string * npv) }.
Definition sort_member (s : sorted_members) (kv : string * npv) : sorted_members :=
  if is_av (fst kv) then mkSM (s_av s ++ [kv]) (s_mean s) (s_refs s) (s_stats s)
  else if String.eqb (fst kv) "mean" then mkSM (s_av s) (Some (snd kv)) (s_refs s) (s_stats s)
  else if is_substr "reftr" (fst kv) then mkSM (s_av s) (s_mean s) (s_refs s ++ [kv]) (s_stats s)
  else mkSM (s_av s) (s_mean s) (s_refs s) (s_stats s ++ [kv]).
Definition number_member (d : list (string * npv)) (k : string) : result (string * pval) :=
  do n <- member k d; match zero_d n with Some p => Ok (k, p) | None => Raise TypeError end.
Definition read_wfc (f : list (string * npv)) : result wfc_obj :=
  if existsb (fun kv => match snd kv with NObj => true | _ => false end) f then Raise ValueError
  else
    let s := fold_left sort_member f (mkSM [] None [] []) in
    do proc <- mapM (number_member (s_stats s)) ["tw_start"; "tw_len"; "freq_min"; "freq_max"]%string;
    do h <- load_header (s_stats s);
    do av <- mapM (fun kv => match zero_d (snd kv) with Some p => Ok (fst kv, p) | None => Raise TypeError end) (s_av s);
    do refs <- mapM (fun kv => do a <- as_arr (snd kv); Ok (fst kv, a)) (s_refs s);
    match s_mean s with
    | None => Raise UnboundLocalError
    | Some n => Ok (mkWO refs av (zero_d n) h proc)
    end.
