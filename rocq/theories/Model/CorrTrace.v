(** A correlation trace: [CorrTrace] with the header fields that the modelled functions use
    (correlate/stream.py:1269-1393). *)
From Verif Require Import Lib.Base.
From Coq Require Export QArith.

Record ctrace := mkCT {
  c_net : string;          (* stats.network, combined code "N1-N2" *)
  c_sta : string;          (* stats.station *)
  c_loc : string;          (* stats.location *)
  c_cha : string;          (* stats.channel *)
  c_start : Z;             (* stats.corr_start, ns *)
  c_end : Z;               (* stats.corr_end, ns *)
  c_lag : Q;               (* stats.start_lag, s *)
  c_sr : Q;                (* stats.sampling_rate, Hz *)
  c_data : list Q }.
