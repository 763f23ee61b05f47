(** Correlation streams and matrices: [CorrStream], [CorrBulk] and the stacking functions of
    correlate/stream.py.

    Times are integers (ns), samples are exact rationals or NaN, header entries that the functions
    only compare are kept as they are.  numpy warnings are not modelled. *)
From Verif Require Import Lib.Base Lib.Str Lib.Sorting Lib.Time.
From Coq Require Export QArith Qabs.
Local Open Scope string_scope.
Local Open Scope nat_scope.

(** a sample; [None] is NaN *)
Notation sample := (option Q).

(** [CorrTrace] (1269-1393) with the header entries used below.  [t_geo] holds the optional
    entries stla, stlo, stel, evla, evlo, evel, dist, az, baz (None: not in the header).
    [end_lag] is a property computed from start_lag, npts and delta (correlate/stats.py). *)
Record ctr := mkT {
  t_net : string; t_sta : string; t_cha : string; t_loc : string;
  t_start : Z; t_end : Z;
  t_sr : Q; t_lag : Q; t_geo : list (option Q);
  t_data : list sample }.
Definition npts (t : ctr) : nat := length (t_data t).

(** [st.sort(keys=['corr_start'])]: obspy sorts with list.sort, which is stable *)
Definition start_leb (a b : ctr) : bool := (t_start a <=? t_start b)%Z.
Definition sort_start (st : list ctr) : list ctr := sort start_leb st.
(** [st.sort(keys=['npts'])] *)
Definition npts_leb (a b : ctr) : bool := npts a <=? npts b.

(** ** Filters of CorrStream *)

(** [pop_at_utcs] 1005-1022 *)
Definition pop_at_utcs (utcs : list Z) (st : list ctr) : list ctr :=
  filter (fun t => negb (existsb (fun u => (t_start t <? u)%Z && (u <? t_end t)%Z) utcs)) st.

(** equality of traces as in obspy's Trace.__eq__: headers equal and np.array_equal of the data, in
    which NaN differs from NaN *)
Definition sample_eqb (a b : sample) : bool :=
  match a, b with Some x, Some y => Qeq_bool x y | _, _ => false end.
Fixpoint all2 {A B} (f : A -> B -> bool) (l : list A) (m : list B) : bool :=
  match l, m with
  | [], [] => true
  | x :: l', y :: m' => f x y && all2 f l' m'
  | _, _ => false
  end.
Definition geo_eqb (a b : option Q) : bool :=
  match a, b with Some x, Some y => Qeq_bool x y | None, None => true | _, _ => false end.
Definition header_eqb (a b : ctr) : bool :=
  String.eqb (t_net a) (t_net b) && String.eqb (t_sta a) (t_sta b) && String.eqb (t_cha a) (t_cha b) &&
  String.eqb (t_loc a) (t_loc b) && (t_start a =? t_start b)%Z && (t_end a =? t_end b)%Z &&
  Qeq_bool (t_sr a) (t_sr b) && Qeq_bool (t_lag a) (t_lag b) && all2 geo_eqb (t_geo a) (t_geo b) &&
  (npts a =? npts b).
Definition ctr_eqb (a b : ctr) : bool := header_eqb a b && all2 sample_eqb (t_data a) (t_data b).

(** [remove_duplicates] 1024-1036; distinct trace objects are assumed, so that [in] compares by value *)
Definition remove_duplicates (st : list ctr) : list ctr :=
  fold_left (fun acc t => if existsb (ctr_eqb t) acc then acc else (acc ++ [t])%list) st [].

(** [select_corr_time] 1038-1079 *)
Definition sel_partial (s e : Z) (t : ctr) : bool :=
  ((s <? t_end t)%Z && (t_end t <? e)%Z) || (t_end t =? e)%Z.
Definition sel_full (s e : Z) (t : ctr) : bool := (s <=? t_start t)%Z && (t_end t <=? e)%Z.
Definition select_corr_time (s e : Z) (partial : bool) (st : list ctr) : list ctr :=
  filter (if partial then sel_partial s e else sel_full s e) (sort_start st).

(** [select_time] 1081-1109: [UTCDateTime.time] is the time of day in microseconds; the arguments
    are times of day in microseconds *)
Definition tod (t : Z) : Z := (t mod day / 1000)%Z.
Definition inside_tod (s e : Z) (t : ctr) : bool := (s <=? tod (t_start t))%Z && (tod (t_end t) <=? e)%Z.
Definition select_time (s e : Z) (exclude : bool) (st : list ctr) : list ctr :=
  filter (fun t => if inside_tod s e t then negb exclude else exclude) st.

(** ** Stacking *)

Definition durat (t : ctr) : Z := (t_end t - t_start t)%Z.

(** [slide] 1111-1190.  [min]/[max] of an empty stream raise ValueError. *)
Definition zmin (l : list Z) : result Z :=
  match l with [] => Raise ValueError | x :: r => Ok (fold_left Z.min r x) end.
Definition zmax (l : list Z) : result Z :=
  match l with [] => Raise ValueError | x :: r => Ok (fold_left Z.max r x) end.
Definition slide (wlen step : Z) (partial : bool) (start stop : option Z) (st : list ctr)
  : result (list (list ctr)) :=
  do s <- (match start with Some s => Ok s | None => zmin (map t_start st) end);
  do e <- (match stop with Some e => Ok e | None => zmax (map t_end st) end);
  do longest <- zmax (map durat st);
  if (wlen <? longest)%Z then Raise ValueError
  else if (step <=? 0)%Z then Raise ValueError
  else Ok (filter (fun w => match w with [] => false | _ => true end)
             (map (fun a => select_corr_time a (a + wlen)%Z partial st) (arange s e step))).

(** sums over samples: np.nansum counts NaN as 0 *)
Definition qsum (l : list Q) : Q := fold_right Qplus 0%Q l.
Definition val (x : sample) : Q := match x with Some q => q | None => 0%Q end.
Definition defined (l : list sample) : list Q := flat_map (fun x => match x with Some q => [q] | None => [] end) l.
(** division by zero gives NaN here; it only happens with a zero numerator *)
Definition qdiv (x y : Q) : sample := if Qeq_bool y 0 then None else Some (x / y)%Q.
Definition sdiv (x y : sample) : sample := match x, y with Some a, Some b => qdiv a b | _, _ => None end.

(** column i of the matrix of the traces' data *)
Definition column (i : nat) (st : list ctr) : list sample := map (fun t => nth i (t_data t) None) st.
(** np.nanmean of a column *)
Definition nanmean (l : list sample) : sample := qdiv (qsum (defined l)) (inject_Z (Z.of_nat (length (defined l)))).
(** [np.nansum((A.T*dur).T, axis=0)/np.nansum(dur)], one column; durations in ns: the unit cancels *)
Definition by_length (dur : list Z) (l : list sample) : sample :=
  qdiv (qsum (map (fun p => (val (snd p) * inject_Z (fst p))%Q) (combine dur l)))
       (qsum (map inject_Z dur)).
(** np.nanmax(np.abs(data)) *)
Definition nanmaxabs (l : list sample) : sample :=
  match defined l with
  | [] => None
  | x :: r => Some (fold_left (fun a b => if Qle_bool a (Qabs b) then Qabs b else a) r (Qabs x))
  end.
Definition normalise (l : list sample) : list sample := map (fun x => sdiv x (nanmaxabs l)) l.

(** [stack_st] 1613-1651 (norm=True, the only use in stacking streams) *)
Definition stack_st (weight : string) (st : list ctr) : result ctr :=
  match sort_start st with
  | [] => Raise IndexError
  | h :: r =>
      let e := t_end (last (h :: r) h) in
      let byn := sort npts_leb (h :: r) in
      let n := npts (last byn h) in
      let sel := filter (fun t => npts t =? n) byn in
      let cols := map (fun i => column i sel) (seq 0 n) in
      let mk d := Ok (mkT (t_net h) (t_sta h) (t_cha h) (t_loc h) (t_start h) e (t_sr h) (t_lag h) (t_geo h) d) in
      if String.eqb weight "mean" || String.eqb weight "average" then
        mk (normalise (map nanmean cols))
      else if String.eqb weight "by_length" then
        mk (normalise (map (by_length (map durat sel)) cols))
      else Raise TypeError        (* stack_st returns None; appending it to a stream raises *)
  end.

(** [stack_st_by_group] 1588-1610: groups in order of first appearance *)
Definition group_key (regard_loc : bool) (t : ctr) : string :=
  if regard_loc then t_net t ++ "." ++ t_sta t ++ "." ++ t_cha t ++ "." ++ t_loc t
  else t_net t ++ "." ++ t_sta t ++ "." ++ t_cha t.
Fixpoint group_add (k : string) (t : ctr) (d : list (string * list ctr)) : list (string * list ctr) :=
  match d with
  | [] => [(k, [t])]
  | (k', l) :: r => if String.eqb k k' then (k', (l ++ [t])%list) :: r else (k', l) :: group_add k t r
  end.
Definition groups (regard_loc : bool) (st : list ctr) : list (string * list ctr) :=
  fold_left (fun d t => group_add (group_key regard_loc t) t d) st [].
Definition stack_by_group (regard_loc : bool) (weight : string) (st : list ctr) : result (list ctr) :=
  mapM (fun g => stack_st weight (snd g)) (groups regard_loc st).

(** [CorrStream.stack] 1192-1239 *)
Inductive stack_len := Whole | Daily | Secs (n : Z).   (* 0, 'daily', a length (ns) *)
Definition midnight (t : Z) : Z := (t - t mod day)%Z.   (* UTCDateTime(year=, julday=) *)
Definition stack_windows (start stop : option Z) (len : Z) (at_midnight : bool) (st : list ctr) : result (list (list ctr)) :=
  match sort_start st with
  | [] => Raise IndexError
  | h :: r =>
      let s := match start with Some s => s | None => t_start h end in
      let e := match stop with Some e => e | None => t_end (last (h :: r) h) end in
      slide len len true (Some (if at_midnight then midnight s else s)) (Some e) (h :: r)
  end.
Definition stack (weight : string) (start stop : option Z) (len : stack_len) (regard_loc : bool) (st : list ctr)
  : result (list ctr) :=
  match len with
  | Whole => stack_by_group regard_loc weight st
  | Daily =>
      do ws <- stack_windows start stop day true st;
      do ss <- mapM (stack_by_group regard_loc weight) ws; Ok (concat ss)
  | Secs n =>
      do ws <- stack_windows start stop n false st;
      do ss <- mapM (stack_by_group regard_loc weight) ws; Ok (concat ss)
  end.

(** ** Matrices *)

(** header entry that is either one value or a list with one value per row *)
Inductive hval := One (s : string) | Many (l : list string).
Record bulk := mkB {
  b_net : string; b_sta : string; b_cha : hval; b_loc : hval;
  b_start : list Z; b_end : list Z;
  b_sr : Q; b_lag : Q; b_geo : list (option Q);
  b_npts : nat; b_ntrcs : nat;
  b_data : list (list sample) }.

(** comparison [stats[key] != trstat[key]] of an optional entry: a missing key raises KeyError, which
    is caught (1700-1704) *)
Definition geo_differs (a b : option Q) : bool :=
  match a, b with Some x, Some y => negb (Qeq_bool x y) | _, _ => false end.
(** some immutable entry differs (1677-1699); end_lag is determined by the others *)
Definition immutable_differs (varying_cha : bool) (h t : ctr) : bool :=
  negb (npts h =? npts t) || negb (Qeq_bool (t_sr h) (t_sr t)) ||
  negb (String.eqb (t_net h) (t_net t)) || negb (String.eqb (t_sta h) (t_sta t)) ||
  negb (Qeq_bool (t_lag h) (t_lag t)) ||
  existsb (fun p => geo_differs (fst p) (snd p)) (combine (t_geo h) (t_geo t)) ||
  (negb varying_cha && negb (String.eqb (t_cha h) (t_cha t))).

(** [create_corr_bulk] 892-951 of a stream after select(); [convert_statlist_to_bulk_stats]
    1654-1707 with varying_loc=True *)
Definition create_corr_bulk (varying_cha : bool) (times : option (Z * Z)) (st0 : list ctr) : result bulk :=
  let st := match times with Some (s, e) => select_corr_time s e true st0 | None => st0 end in
  match st with
  | [] => Raise (match times with Some _ => ValueError | None => TypeError end)  (* times[0] of None, 919-922 *)
  | h :: _ =>
      (* 929-937: rows with another sampling rate are skipped; A[ii] = tr.data needs npts samples
         (a single sample is broadcast, but then npts differs below) *)
      let rows := filter (fun t => Qeq_bool (t_sr t) (t_sr h)) st in
      if existsb (immutable_differs varying_cha h) rows then Raise ValueError
      else Ok (mkB (t_net h) (t_sta h)
                   (if varying_cha then Many (map t_cha rows) else One (t_cha h))
                   (Many (map t_loc rows)) (map t_start rows) (map t_end rows)
                   (t_sr h) (t_lag h) (t_geo h) (npts h) (length rows) (map t_data rows))
  end.

(** [value[ii]] *)
Definition item_of {A} (l : list A) (i : nat) : result A :=
  match nth_error l i with Some x => Ok x | None => Raise IndexError end.
Definition hval_at (v : hval) (i : nat) : result string :=
  match v with One s => Ok s | Many l => item_of l i end.
(** row i as a trace: body of the loop of create_corr_stream (244-260) and __getitem__ with an
    integer (75-82); left over bookkeeping entries (ntrcs, processing_bulk) are not modelled *)
Definition row_trace (b : bulk) (i : nat) : result ctr :=
  do d <- item_of (b_data b) i;
  do s <- item_of (b_start b) i; do e <- item_of (b_end b) i;
  do lo <- hval_at (b_loc b) i; do ch <- hval_at (b_cha b) i;
  Ok (mkT (b_net b) (b_sta b) ch lo s e (b_sr b) (b_lag b) (b_geo b) d).
(** [create_corr_stream] 228-261 *)
Definition create_corr_stream (ind : option (list nat)) (b : bulk) : result (list ctr) :=
  mapM (row_trace b) (match ind with None => seq 0 (length (b_data b)) | Some l => l end).

(** selection with a boolean mask *)
Fixpoint mask {A} (m : list bool) (l : list A) : list A :=
  match m, l with
  | b :: m', x :: l' => if b then x :: mask m' l' else mask m' l'
  | _, _ => []
  end.
Definition hval_mask (m : list bool) (v : hval) : hval := match v with One s => One s | Many l => Many (mask m l) end.

(** [_find_slice_index] 796-825.  np.squeeze turns the index of a single row into a scalar; using
    it raises TypeError in [slice] (iteration over a 0-d array). *)
Definition slice_index (s e : Z) (partial : bool) (b : bulk) : result (list bool) :=
  if (e <=? s)%Z then Raise ValueError
  else Ok (map (fun p => if partial then (s <=? snd p)%Z && (fst p <=? e)%Z
                         else (s <=? fst p)%Z && (snd p <=? e)%Z)
               (combine (b_start b) (b_end b))).
(** [slice] 652-681; ntrcs keeps its old value *)
Definition slice (s e : Z) (partial : bool) (b : bulk) : result bulk :=
  do ii <- slice_index s e partial b;
  if length ii =? 1 then Raise TypeError
  else Ok (mkB (b_net b) (b_sta b) (hval_mask ii (b_cha b)) (hval_mask ii (b_loc b))
               (mask ii (b_start b)) (mask ii (b_end b)) (b_sr b) (b_lag b) (b_geo b)
               (b_npts b) (b_ntrcs b) (mask ii (b_data b))).

(** [__getitem__] 84-91 with an index array (rows by number) *)
Definition pick {A} (idx : list nat) (l : list A) : result (list A) := mapM (item_of l) idx.
Definition hval_pick (idx : list nat) (v : hval) : result hval :=
  match v with One s => Ok (One s) | Many l => do r <- pick idx l; Ok (Many r) end.
Definition getitem (idx : list nat) (b : bulk) : result bulk :=
  do s <- pick idx (b_start b); do e <- pick idx (b_end b);
  do lo <- hval_pick idx (b_loc b); do ch <- hval_pick idx (b_cha b);
  do d <- pick idx (b_data b);
  Ok (mkB (b_net b) (b_sta b) ch lo s e (b_sr b) (b_lag b) (b_geo b) (b_npts b) (length d) d).

(** [CorrBulk.select_corr_time] 638-650 *)
Definition bulk_select (s e : Z) (partial : bool) (b : bulk) : result bulk :=
  do cst <- create_corr_stream None b;
  create_corr_bulk true None (select_corr_time s e partial cst).
