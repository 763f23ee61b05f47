(** What the monitoring reads: [Monitor.compute_velocity_change] (monitor/monitor.py:162-326) from the correlation file to the matrix
    (193-196 and 236-238, without preprocessing of the stream 230-235), for the files that Monitor.__init__ finds. *)
From Verif Require Import Lib.Base Lib.Str Model.H5 Model.CorrTrace Model.CorrDB Model.Rerun Model.WriteOut.
From Verif Require Model.CorrStream.
Local Open Scope string_scope.

(** CorrelationDataBase(f, mode='r') on a file that is not there (db/corr_hdf5.py:487-545, h5py.File) *)
Definition opened (d : dir) (name : string) : result file :=
  match dget d name with Some f => Ok f | None => Raise OSError end.

(** the traces of the stream that get_data returns; coordinates are left out, all samples are numbers *)
Definition to_ctr (tr : ctrace) : CorrStream.ctr :=
  CorrStream.mkT (c_net tr) (c_sta tr) (c_cha tr) (c_loc tr) (c_start tr) (c_end tr) (c_sr tr) (c_lag tr) [] (map Some (c_data tr)).

(** self.select(network, station, location, channel) with location None, stream.py:914; obspy compares capital letters *)
Definition selected (net sta cha : string) (t : CorrStream.ctr) : bool :=
  fnmatch (upper (CorrStream.t_net t)) (upper net) && fnmatch (upper (CorrStream.t_sta t)) (upper sta) &&
  fnmatch (upper (CorrStream.t_cha t)) (upper cha).

(** channel is None or '*' in channel or '?' in channel, stream.py:942 *)
Definition several_channels (cha : string) : bool := has_char "*" cha || has_char "?" cha.

(** cst = cdb.get_data(network, station, channel, tag); cb = cst.create_corr_bulk(network=, station=, channel=, inplace=True) *)
Definition read_matrix (f : file) (tag net sta cha : string) : result CorrStream.bulk :=
  do st <- get_data f net sta cha tag None None;
  CorrStream.create_corr_bulk (several_channels cha) None (filter (selected net sta cha) (map to_ctr st)).
