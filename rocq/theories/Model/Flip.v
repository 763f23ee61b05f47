(** From a pair of traces and the correlated samples to the stored correlation: order of the two stations,
    header and lag axis (correlate/correlate.py:386-394, correlate/stream.py:1396-1559 and 1300-1316). *)
From Verif Require Import Lib.Base Lib.Str Model.CorrTrace.
Local Open Scope string_scope.

(** header of a raw data trace, as far as it enters the header of the correlation *)
Record rhead := mkRH { r_net : string; r_sta : string; r_loc : string; r_cha : string; r_start : Z; r_end : Z }.

(** [combine_stats], stream.py:1485-1559: combined codes, time span common to both traces, start lag.
    Coordinates, distance and the other common header entries are not modelled; the sampling rate is common
    to both traces (copied at 1500-1508). *)
Definition combine_stats (h1 h2 : rhead) (sr start_lag : Q) (data : list Q) : ctrace :=
  {| c_net := r_net h1 ++ "-" ++ r_net h2; c_sta := r_sta h1 ++ "-" ++ r_sta h2;
     c_loc := r_loc h1 ++ "-" ++ r_loc h2; c_cha := r_cha h1 ++ "-" ++ r_cha h2;
     c_start := Z.max (r_start h1) (r_start h2); c_end := Z.min (r_end h1) (r_end h2);
     c_lag := start_lag; c_sr := sr; c_data := data |}.

(** [alphabetical_correlation], stream.py:1424-1439 *)
Definition alphabetical_correlation (h1 h2 : rhead) (sr start_lag end_lag : Q) (data : list Q) : ctrace :=
  if str_le (r_net h1 ++ r_sta h1 ++ r_cha h1) (r_net h2 ++ r_sta h2 ++ r_cha h2)
  then combine_stats h1 h2 sr start_lag data
  else combine_stats h2 h1 sr (- end_lag) (rev data).

(** one correlation of [_pxcorr_inner], correlate.py:386-394: endlag = startlag + len(A[ii, :])/sampling_rate *)
Definition store_pair (h1 h2 : rhead) (sr start_lag : Q) (data : list Q) : ctrace :=
  alphabetical_correlation h1 h2 sr start_lag (start_lag + inject_Z (Z.of_nat (length data)) / sr) data.
