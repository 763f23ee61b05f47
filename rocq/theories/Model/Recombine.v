(** recombine_subdivision and delete_subdivision: what a batch of correlations leaves in the files (correlate/correlate.py: _write 400-449).
    Simplifications: see RunToFiles.v; a stack whose samples are all zero before they are scaled (NaN in the program) is zero here. *)
From Coq Require Import QArith Reals.
From Verif Require Import Lib.Base Lib.Str Model.H5 Model.CorrTrace Model.CorrDB Model.Combos Model.Rerun Model.WriteOut Model.PxcorrLoop Model.CorrStream
  Model.Gaps Model.MpiMatrix Model.Spectral Model.DataLoop Model.RunToFiles.
Local Open Scope string_scope.

(** the correlations as traces of a CorrStream; the coordinates are left out *)
Definition to_stream (tr : ctrace) : ctr :=
  CorrStream.mkT (c_net tr) (c_sta tr) (c_cha tr) (c_loc tr) (c_start tr) (c_end tr) (c_sr tr) (c_lag tr) [] (map Some (c_data tr)).
Definition of_stream (t : ctr) : ctrace :=
  mkCT (t_net t) (t_sta t) (t_loc t) (t_cha t) (CorrStream.t_start t) (CorrStream.t_end t) (t_lag t) (t_sr t) (map val (CorrStream.t_data t)).
(** cstselect.stack(regard_location=False), 439 *)
Definition stacked (sel : list ctrace) : result (list ctrace) :=
  do st <- stack "by_length" None None Whole false (map to_stream sel); Ok (map of_stream st).

Section Options.
  (** [tag]: 'stack_%s' % read_len, 440 *)
  Variables (recombine delete : bool) (tag : string).
  (** what is passed to add_correlation for one file, in this order: 'subdivision' and [tag], 438-449 *)
  Definition to_store (sel : list ctrace) : result (list ctrace * list ctrace) :=
    do st <- (if recombine then stacked sel else Ok []);
    Ok (if delete then [] else sel, st).
  Definition write_selected (d : dir) (w : string * list ctrace) : result dir :=
    do s <- to_store (snd w);
    let f := match dget d (fst w) with Some f => f | None => H5.empty_file end in
    Ok (dset d (fst w) (add_correlation (add_correlation f (fst s) "subdivision") (snd s) tag)).
  Fixpoint write_all_selected (d : dir) (ws : list (string * list ctrace)) : result dir :=
    match ws with [] => Ok d | w :: r => do d <- write_selected d w; write_all_selected d r end.
  (** _write on all processes; their files are different *)
  Definition write_options (p : nat) (sep : bool) (d : dir) (cst : list ctrace) : result dir :=
    do l <- mapM (fun r => writes p r sep cst) (seq 0 p);
    write_all_selected d (concat l).
  Fixpoint write_options_all (p : nat) (sep : bool) (d : dir) (batches : list (list ctrace)) : result dir :=
    match batches with
    | [] => Ok d
    | b :: r => do d <- write_options p sep d b; write_options_all p sep d r
    end.
  (** a single process that was stopped while it wrote a batch: [n] files complete and, of the next one, the first [q] of the correlations
      that are passed to add_correlation *)
  Definition stopped_writing (sep : bool) (d : dir) (cst : list ctrace) (n q : nat) : result dir :=
    do l <- writes 1 0 sep cst;
    do d <- write_all_selected d (firstn n l);
    match nth_error l n with
    | None => Ok d
    | Some w =>
        do s <- to_store (snd w);
        let f := match dget d (fst w) with Some f => f | None => H5.empty_file end in
        Ok (dset d (fst w) (add_correlation (add_correlation f (firstn q (fst s)) "subdivision") (firstn (q - length (fst s)) (snd s)) tag))
    end.

  (** the run, as in RunToFiles.run_files *)
  Variables (o : times) (origin dt : Z) (sr len : Q) (normalize center : bool) (method : string) (rc : option (list string)).
  Variables (proc : Gaps.trace R -> result (option (Gaps.trace R))) (archive : list channel) (f32 : R -> Q).
  Variables (sadd : list cplx -> list cplx -> list cplx) (szero : list cplx) (cadd : result (list R) -> result (list R) -> result (list R)) (czero : result (list R)) (subdiv : bool).
  Definition run_options (stations : list (string * string)) (d : dir) (p : nat) (sep : bool) (flag : nat -> bool) : option (result dir) :=
    with_existing method rc stations d (fun ex => option_map (fun b => do l <- b; write_options_all p sep d l)
      (run_batches o origin dt sr len normalize center method rc proc archive f32 sadd szero cadd czero subdiv ex p flag)).
  (** ... stopped after [n] batches; with the batches that were stored *)
  Definition stopped_between (stations : list (string * string)) (d : dir) (p : nat) (sep : bool) (flag : nat -> bool) (n : nat) : option (result (list (list ctrace) * dir)) :=
    with_existing method rc stations d (fun ex => option_map (fun b => do l <- b; do d' <- write_options_all p sep d (firstn n l); Ok (firstn n l, d'))
      (run_batches o origin dt sr len normalize center method rc proc archive f32 sadd szero cadd czero subdiv ex p flag)).
End Options.
