(** The waveform client with its local archive (Store_Client, trace_data/waveform.py) for one channel: requests that are
    answered from the archive or from the server, and mass downloads.  Samples lie on one time grid, sample [n] at
    [t0 + n * delta]; [buffer] is the time around a request in which obspy's SDS client looks for files (fileborder_seconds
    and fileborder_samples, waveform.py:62-63, 76-79: at least 30 s). *)
From Verif Require Import Lib.Base Lib.Time Model.Archive.
Local Open Scope Z_scope.

(** the files of the archive by year and day of the year (SDS_FMTSTR) *)
Definition disk := list ((Z * Z) * piece).
Definition key_eqb (a b : Z * Z) : bool := (fst a =? fst b) && (snd a =? snd b).
Definition file (d : disk) (k : Z * Z) : option piece := option_map snd (find (fun x => key_eqb (fst x) k) d).
Definition put (k : Z * Z) (p : piece) (d : disk) : disk := (k, p) :: filter (fun x => negb (key_eqb (fst x) k)) d.

(** a trace: number of the first sample and values *)
Record trc := mkT { t_lo : Z; t_vals : list Z }.
Definition piece_of (tr : trc) (ks : list nat) : piece := map (fun k => (t_lo tr + Z.of_nat k, nth k (t_vals tr) 0)) ks.
Definition all_of (tr : trc) : piece := piece_of tr (seq 0 (length (t_vals tr))).

(** maximal runs of consecutive samples: the traces of a stream after the clean up (merge method -1) of obspy's client *)
Fixpoint runs (p : piece) : list piece :=
  match p with
  | [] => []
  | x :: r => match runs r with
              | (y :: q) :: l => if fst y =? fst x + 1 then (x :: y :: q) :: l else [x] :: (y :: q) :: l
              | l => [x] :: l
              end
  end.

Section Client.
  Variables t0 delta buffer : Z.
  Definition stime (n : Z) : Z := t0 + n * delta.

  (** ** _sds_write, 361-378, for the pieces of a trace in turn: the file is replaced only if the write succeeds *)
  Fixpoint write_pieces (d : disk) (ps : list ((Z * Z) * piece)) : disk * option exc :=
    match ps with
    | [] => (d, None)
    | (k, p) :: r => match sds_write (file d k) p with
                     | Ok c => write_pieces (put k c d) r
                     | Raise e => (d, Some e)
                     end
    end.
  (** ** _write_local_data, 346-359 *)
  Definition wave_of (tr : trc) : wave := mkW (stime (t_lo tr)) delta (length (t_vals tr)).
  Definition day_pieces (tr : trc) : option (list ((Z * Z) * piece)) :=
    let w := wave_of tr in
    option_map (map (fun x => (file_of (fst x), piece_of tr (snd x))))
               (write_loop (Z.to_nat (w_end w / day - w_start w / day + 1)) w (w_start w)).
  Fixpoint write_local (d : disk) (st : list trc) : disk * option exc :=
    match st with
    | [] => (d, None)
    | tr :: r => match day_pieces tr with
                 | None => (d, Some OutOfFuel)
                 | Some ps => match write_pieces d ps with
                              | (d', None) => write_local d' r
                              | x => x
                              end
                 end
    end.

  (** ** lclient.get_waveforms (obspy.clients.filesystem.sds): the files of the days from [s - buffer] to [e + buffer] ... *)
  Definition searched (s e : Z) : list (Z * Z) := map file_of (arange (s - buffer) (e + buffer) day ++ [e + buffer]).
  (** ... are read from the sample nearest to [s] to the one nearest to [e].  Simplified: of different values for one sample
      (excluded in the theorems) the first counts. *)
  Definition nearest (t : Z) : Z := (2 * (t - t0) + delta) / (2 * delta).
  Fixpoint first_value (n : Z) (ps : list (option piece)) : option Z :=
    match ps with
    | [] => None
    | Some p :: r => match lookup n p with Some v => Some v | None => first_value n r end
    | None :: r => first_value n r
    end.
  Definition read_samples (d : disk) (s e : Z) : piece :=
    flat_map (fun n => match first_value n (map (file d) (searched s e)) with Some v => [(n, v)] | None => [] end)
             (arange (nearest s) (nearest e + 1) 1).
  Definition seg_of (p : piece) : seg := mkS (stime (first_no p)) (stime (last_no p)) delta.

  (** ** get_waveforms, 124-139, with _load_local, 287-311, and _load_remote, 257-285.  [answer] is what the server sends
      ([None]: FDSNNoDataException).  Not modelled: instrument responses. *)
  Definition get_waveforms (read_only : bool) (s e : Z) (answer : option (list trc)) (d : disk) : disk * result (list piece) :=
    let st := runs (read_samples d s e) in
    if use_local true (map seg_of st) s e then (d, Ok st)
    else match answer with
         | None => (d, Ok [])
         | Some sent =>
             if negb (length sent =? 0)%nat && negb read_only then
               match write_local d sent with
               | (d', None) => (d', Ok (map all_of sent))
               | (d', Some e) => (d', Raise e)
               end
             else (d, Ok (map all_of sent))
         end.

  (** ** download_waveforms_mdl, 82-122, with _get_mseed_storage, 171-191: obspy's MassDownloader asks for chunks of one day
      from [s] on (chunklength_in_sec=86400) and stores the records of a chunk in the returned file; [True]: nothing is
      downloaded.  [data]: the samples that the server has. *)
  Definition chunks (s e : Z) : list (Z * Z) := map (fun c => (c, Z.min (c + day) e)) (arange s e day).
  Definition download_chunk (data : piece) (d : disk) (c : Z * Z) : disk :=
    let k := file_of (fst c) in
    match file d k with
    | Some _ => d
    | None => match filter (fun x => (fst c <=? stime (fst x)) && (stime (fst x) <=? snd c)) data with
              | [] => d
              | p => put k p d
              end
    end.
  Definition download (data : piece) (s e : Z) (d : disk) : disk := fold_left (download_chunk data) (chunks s e) d.

  (** a history of the archive *)
  Inductive op :=
  | Request (read_only : bool) (s e : Z) (answer : option (list trc))
  | Download (s e : Z) (data : piece).
  Definition step (d : disk) (o : op) : disk :=
    match o with
    | Request ro s e a => fst (get_waveforms ro s e a d)
    | Download s e data => download data s e d
    end.
  Definition history (d : disk) (ops : list op) : disk := fold_left step ops d.
End Client.
