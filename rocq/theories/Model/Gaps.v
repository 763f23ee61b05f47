(** Streams with gaps: detrending, tapering, filtering and gap handling (correlate/preprocessing_stream.py 22-210,
    utils/miic_utils.py 331-362, 453-485) and cutting into windows (correlate/correlate.py 1394-1435).
    Traces lie on a common grid: positions are sample numbers.  [None] is a masked sample; NaN are masked
    before they matter (masked_invalid in interpolate_gaps).  obspy's split, merge, trim and slide are modelled
    on this grid; overlapping traces and the text of warnings are not modelled. *)
From Coq Require Import Reals Qreals.
From Verif Require Import Lib.Base Model.Masking Model.TimeDomain.
Local Open Scope Z_scope.

Section Segments.
  Context {A : Type}.
  (** position of the first sample, samples *)
  Record trace := mkT { t_start : Z; t_data : list (option A) }.
  (** Trace.split: the runs of samples that are not masked, with the position of their first sample *)
  Fixpoint runs (i : Z) (l : list (option A)) : list (Z * list A) :=
    match l with
    | [] => []
    | None :: r => runs (i + 1) r
    | Some v :: r =>
        let rest := runs (i + 1) r in
        match r with
        | Some _ :: _ => match rest with (_, x) :: q => (i, v :: x) :: q | [] => [(i, [v])] end
        | _ => (i, [v]) :: rest
        end
    end.
  Definition split (t : trace) : list (Z * list A) := runs (t_start t) (t_data t).
  (** Stream.merge of runs in order: one trace from the first to the last sample, masked in between *)
  Fixpoint join (i : Z) (rs : list (Z * list A)) : list (option A) :=
    match rs with
    | [] => []
    | (s, x) :: q => repeat None (Z.to_nat (s - i)) ++ map Some x ++ join (s + Z.of_nat (length x)) q
    end.
  Definition merge (rs : list (Z * list A)) : option trace :=
    match rs with [] => None | (s, _) :: _ => Some (mkT s (join s rs)) end.
End Segments.
Arguments trace : clear implicits.

(** detrend_st, 112-133, for one trace: the data of the merged trace, the start time of the old one *)
Definition detrend_trace (dt : list R -> list R) (t : trace R) : result (trace R) :=
  match merge (map (fun r => (fst r, dt (snd r))) (split t)) with
  | None => Raise IndexError
  | Some m => Ok (mkT (t_start t) (t_data m))
  end.
(** cos_taper_st, 22-53, on runs: runs that cannot be tapered are left as they are *)
Definition taper_run (len : Q) (tl_n : nat) (x : list R) : list R :=
  match cos_taper (fun v => v) len tl_n x with Ok y => y | Raise _ => x end.
(** cos_taper with taper_at_masked, 56-98 *)
Definition taper_at_masked (len : Q) (tl_n : nat) (t : trace R) : result (trace R) :=
  if Qle_bool len 0 then Raise ValueError
  else match merge (map (fun r => (fst r, taper_run len tl_n (snd r))) (split t)) with
       | None => Raise ValueError
       | Some m => Ok (mkT (t_start t) (t_data m))
       end.
(** stream_filter, 136-210, for one trace: None if nothing is left *)
Definition filter_trace (f : list R -> list R) (t : trace R) : option (trace R) := merge (map (fun r => (fst r, f (snd r))) (split t)).

(** tr.stats.npts/tr.stats.sampling_rate <= length *)
Definition too_short (sr length_s : Q) (n : nat) : bool := Qle_bool (inject_Z (Z.of_nat n) / sr) length_s.
(** gap_handler, 453-485, for the traces of one channel that do not overlap: merge(method=-1) joins traces that follow
    each other without a gap, [joined]; gaps of at most [max] samples are interpolated inside of each trace *)
Fixpoint joined (l : list (trace Q)) : list (trace Q) :=
  match l with
  | [] => []
  | t :: r => match joined r with
              | u :: q => if t_start u =? t_start t + Z.of_nat (length (t_data t))
                          then mkT (t_start t) (t_data t ++ t_data u) :: q else t :: u :: q
              | [] => [t]
              end
  end.
Definition gap_handler (max : Z) (retain len : Q) (tl_n : nat) (sr : Q) (l : list (trace Q)) : result (option (trace R)) :=
  do l <- mapM (fun t => do d <- interpolate_gaps max (t_data t); Ok (mkT (t_start t) d)) (joined l);
  let rs := concat (map (fun t => split (mkT (t_start t) (map (option_map Q2R) (t_data t)))) l) in
  let rs := filter (fun r => negb (too_short sr retain (length (snd r)))) rs in
  Ok (merge (map (fun r => (fst r, taper_run len tl_n (snd r))) rs)).

(** ** removing traces from a stream while running over a copy of its list (obspy's Stream.__iter__); remove takes
    the first trace that is identical or equal.  [same a b]: a is b or a == b. *)
Section Remove.
  Context {T : Type} (same : T -> T -> bool) (bad : T -> bool).
  Fixpoint remove_first (x : T) (l : list T) : list T :=
    match l with [] => [] | y :: r => if same y x then r else y :: remove_first x r end.
  (** discard_short_traces, get_valid_traces: [todo] is the copy *)
  Fixpoint discard (todo l : list T) : list T :=
    match todo with [] => l | x :: r => discard r (if bad x then remove_first x l else l) end.
  Definition discard_traces (l : list T) : list T := discard l l.
End Remove.

(** ** windows *)
Section Windows.
  Context {A : Type}.
  (** the sample at a position; None outside of the trace and where it is masked *)
  Definition at_pos (t : trace A) (p : Z) : option A :=
    if p <? t_start t then None else nth (Z.to_nat (p - t_start t)) (t_data t) None.
  (** Trace.trim(pad=True) to [len] samples from position [s] *)
  Definition trim_pad (s len : Z) (t : trace A) : trace A :=
    mkT s (map (fun k => at_pos t (s + Z.of_nat k)) (seq 0 (Z.to_nat len))).
  Definition last_pos (t : trace A) : Z := t_start t + Z.of_nat (length (t_data t)) - 1.
  (** Trace.slice: the samples of the trace, masked ones too, at positions s ... s+len-1; None if there is none *)
  Definition slice (s len : Z) (t : trace A) : option (trace A) :=
    let a := Z.max s (t_start t) in
    let b := Z.min (s + len - 1) (last_pos t) in
    if b <? a then None else Some (trim_pad a (b - a + 1) t).
  Definition stream_start (st : list (trace A)) : Z :=
    match st with [] => 0 | t :: r => fold_left (fun m u => Z.min m (t_start u)) r (t_start t) end.
  Definition stream_end (st : list (trace A)) : Z :=
    match st with [] => 0 | t :: r => fold_left (fun m u => Z.max m (last_pos u)) r (last_pos t) end.
  (** np.arange(start, end, inc), inc > 0 *)
  Definition window_starts (start stop inc : Z) : list Z :=
    map (fun i => start + Z.of_nat i * inc) (seq 0 (Z.to_nat (- ((- (stop - start)) / inc)))).
  (** traces are kept with their number in the stream *)
  Definition slices (s len : Z) (st : list (trace A)) : list (nat * trace A) :=
    concat (map (fun p => match slice s len (snd p) with Some w => [(fst p, w)] | None => [] end) (enumerate st)).
  (** obspy's Stream.slide with include_partial_windows: windows without traces are skipped *)
  Definition slide (len inc : Z) (st : list (trace A)) : list (list (nat * trace A)) :=
    filter (fun w => negb (length w =? 0)%nat)
      (map (fun s => slices s len st) (window_starts (stream_start st) (stream_end st) inc)).
  Definition masked_all (d : list (option A)) : bool := forallb (fun o => negb (is_some o)) d.
  (** generate_corr_inc, 1394-1435; [read_inc]: int(np.ceil(read_len/corr_inc)).  Start of each window and its traces;
      the removal of masked traces by get_valid_traces is a filter, see [discard_traces] *)
  Definition generate_corr_inc (read_inc : nat) (len inc : Z) (st : list (trace A)) : list (option Z * list (nat * trace A)) :=
    match st with
    | [] => repeat (None, []) read_inc
    | t0 :: _ =>
        map (fun p => let s := t_start t0 + Z.of_nat (fst p) * inc in
                      (Some s, filter (fun q => negb (masked_all (t_data (snd q))))
                                 (map (fun q => (fst q, trim_pad s len (snd q))) (snd p))))
          (enumerate (slide len inc st))
    end.
End Windows.
