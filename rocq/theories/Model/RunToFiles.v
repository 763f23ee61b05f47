(** A run from the raw data to the files with the correlations: the windows (DataLoop.v), the pairs (Combos.v), their
    correlations (WindowCorrelation.v), the headers (Flip.v), the batches (PxcorrLoop.v), the files (WriteOut.v, CorrDB.v).
    correlate/correlate.py: find_existing_times 272-314 (Rerun.v), pxcorr 316-356, _pxcorr_inner 358-398, _write 400-449, _generate_data 451-642.
    Simplifications: recombine_subdivision and delete_subdivision False; the corr_options in the files are left out (see DBOpen.v); one trace for each
    channel; with preprocess_subdiv traces that are in no pair are preprocessed as well before they are discarded. *)
From Coq Require Import QArith Reals.
From Verif Require Import Lib.Base Lib.Str Lib.Sorting Model.Partition Model.H5 Model.CorrTrace Model.CorrDB Model.Combos Model.Rerun Model.Flip Model.WriteOut Model.PxcorrLoop
  Model.Masking Model.Gaps Model.MpiMatrix Model.Spectral Model.DataLoop Model.WindowCorrelation.
Local Open Scope string_scope.
Local Open Scope Z_scope.

(** with CorrelationDataBase(outf) as cdb: cdb.add_correlation(cstselect, 'subdivision'), 443-447; a file that does not exist
    is created *)
Definition write_file (d : dir) (w : string * list ctrace) : dir :=
  let f := match dget d (fst w) with Some f => f | None => H5.empty_file end in
  dset d (fst w) (add_correlation f (snd w) "subdivision").
(** _write on all processes.  The files of different processes are different, so that their order does not matter. *)
Definition write_batch (p : nat) (sep : bool) (d : dir) (cst : list ctrace) : result dir :=
  do l <- mapM (fun r => writes p r sep cst) (seq 0 p);
  Ok (fold_left write_file (concat l) d).
Fixpoint write_batches (p : nat) (sep : bool) (d : dir) (batches : list (list ctrace)) : result dir :=
  match batches with
  | [] => Ok d
  | b :: r => do d <- write_batch p sep d b; write_batches p sep d r
  end.

(** the first of the writes [ws] of a process that was stopped: [fst c] of them complete and, if it had opened the next file,
    [snd c] correlations in that one *)
Definition progress (c : nat * option nat) (ws : list (string * list ctrace)) : list (string * list ctrace) :=
  (firstn (fst c) ws ++ match snd c, nth_error ws (fst c) with Some q, Some w => [(fst w, firstn q (snd w))] | _, _ => [] end)%list.
(** the directory after all processes were stopped while they wrote a batch *)
Definition stopped_batch (p : nat) (sep : bool) (d : dir) (cst : list ctrace) (cut : nat -> nat * option nat) : result dir :=
  do l <- mapM (fun r => writes p r sep cst) (seq 0 p);
  Ok (fold_left write_file (concat (map (fun rw => progress (cut (fst rw)) (snd rw)) (enumerate l))) d).
(** ... after [n] complete batches *)
Definition stopped_batches (p : nat) (sep : bool) (d : dir) (batches : list (list ctrace)) (n : nat) (cut : nat -> nat * option nat) : result dir :=
  do d <- write_batches p sep d (firstn n batches);
  match nth_error batches n with Some b => stopped_batch p sep d b cut | None => Ok d end.

(** a channel of the archive: its codes and its samples *)
Record channel := mkCh { ch_net : string; ch_sta : string; ch_loc : string; ch_cha : string; ch_trace : Gaps.trace R }.

Section Run.
  (** [origin]: time of sample number 0, ns; [dt]: time between samples, ns; [f32]: the number that is stored for a sample of a
      correlation, C = np.zeros(..., dtype=np.float32), 706 *)
  Variables (o : times) (origin dt : Z) (sr len : Q) (normalize center : bool) (method : string) (rc : option (list string)).
  Variables (proc : Gaps.trace R -> result (option (Gaps.trace R))) (archive : list channel) (f32 : R -> Q).
  Variables (sadd : list cplx -> list cplx -> list cplx) (szero : list cplx) (cadd : result (list R) -> result (list R) -> result (list R)) (czero : result (list R)) (subdiv : bool).

  Definition time_of (q : Z) : Z := origin + q * dt.
  Definition channel_of (c : nat) : channel := nth c archive (mkCh "" "" "" "" (mkT 0 [])).
  (** the header of a trace of the window, for combine_stats *)
  Definition raw_head (w : nat * Gaps.trace R) : rhead :=
    let ch := channel_of (fst w) in
    mkRH (ch_net ch) (ch_sta ch) (ch_loc ch) (ch_cha ch) (time_of (Gaps.t_start (snd w))) (time_of (last_pos (snd w))).
  (** the headers of a window, for calc_cross_combis; [t_data] is the position in the window *)
  Definition pair_heads (win : list (nat * Gaps.trace R)) : list Combos.trace :=
    map (fun q => let ch := channel_of (fst (snd q)) in
                  mkTr (ch_net ch) (ch_sta ch) (ch_loc ch) (ch_cha ch) (time_of (Gaps.t_start (snd (snd q)))) (Z.of_nat (fst q)))
      (enumerate win).
  Definition no_trace : nat * Gaps.trace R := (0%nat, mkT 0 []).
  (** 553-603 and _pxcorr_inner: the correlations of one window *)
  Definition window_correlations (ex : ex_dict) (p : nat) (win : list (nat * Gaps.trace R)) : result (list ctrace) :=
    do hc <- select_pairs (pair_heads win) ex method rc;
    let win := map (fun h => nth (Z.to_nat (Combos.t_data h)) win no_trace) (fst hc) in
    let start k := Gaps.t_start (snd (nth k win no_trace)) in
    do rows <- correlate_window sadd szero cadd czero normalize center sr len p win (snd hc);
    mapM (fun q => let c := fst q in
                   do row <- snd q;
                   Ok (store_pair (raw_head (nth (fst c) win no_trace)) (raw_head (nth (snd c) win no_trace)) sr
                         (start_lag center sr len (inject_Z (start (fst c) - start (snd c)) / sr)) (map f32 row)))
      (combine (snd hc) rows).
  (** if not self.ex_dict and self.options['preprocess_subdiv']: self.options['preprocess_subdiv'] = False, 470-475 *)
  Definition subdiv_used (ex : ex_dict) : bool := match ex with [] => false | _ => subdiv end.
  (** windows without pairs are not yielded, 566-570; [flag i]: the write flag of window number [i], 497 and 642.  None: the
      program does not finish.  The correlations are those of process 0, which are broadcast, 396-397. *)
  Definition run_batches (ex : ex_dict) (p : nat) (flag : nat -> bool) : option (result (list (list ctrace))) :=
    option_map (fun ws =>
      do l <- mapM (fun w => window_correlations ex p (snd w)) ws;
      Ok (pxcorr (map (fun q => (snd q, flag (fst q))) (filter (fun q => match snd q with [] => false | _ => true end) (enumerate l)))))
      (correlation_windows o proc (map ch_trace archive) (subdiv_used ex) p 0).
  (** a run with the correlations in the directory [d]; [stations]: self.station *)
  Definition with_existing {A} (stations : list (string * string)) (d : dir) (f : ex_dict -> option (result A)) : option (result A) :=
    match find_existing_times d stations method rc "subdivision" "*" with Ok ex => f ex | Raise e => Some (Raise e) end.
  Definition run_files (stations : list (string * string)) (d : dir) (p : nat) (sep : bool) (flag : nat -> bool) : option (result dir) :=
    with_existing stations d (fun ex => option_map (fun b => do l <- b; write_batches p sep d l) (run_batches ex p flag)).
  (** ... that was stopped *)
  Definition stopped_run (stations : list (string * string)) (d : dir) (p : nat) (sep : bool) (flag : nat -> bool) (n : nat) (cut : nat -> nat * option nat) : option (result dir) :=
    with_existing stations d (fun ex => option_map (fun b => do l <- b; stopped_batches p sep d l n cut) (run_batches ex p flag)).
End Run.
