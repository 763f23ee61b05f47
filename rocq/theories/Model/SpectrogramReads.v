(** Spectrograms of the data of a station (Store_Client.compute_spectrogram and _generate_time_windows,
    trace_data/waveform.py:392-470, with utils/raw_analysis.py:56-90).
    Times are numbers of samples.  The data of the channel are the samples [first] ... [last] without gaps. *)
From Verif Require Import Lib.Base Model.Gaps Model.Spectrogram.
Local Open Scope Z_scope.

Section Reads.
  Context {F P : Type}.
  Variables (first last : Z).
  (** the frequency axis, and the spectrum of the window that starts at a time in the read that starts at a time *)
  Variables (axis : F) (spec : Z -> Z -> P).

  (** tr.slide(window_length, step=window_length) without partial windows, for a trace from [a] to [b] *)
  Definition slide_starts (a b win : Z) : list Z := map (fun j => a + Z.of_nat j * win) (seq 0 (Z.to_nat ((b - a) / win))).
  (** 415-422: the data from [t] to [t] + increment, both ends included; no data: IndexError, skipped *)
  Definition read_stream (inc win t : Z) : option (list (Z * outcome F P)) :=
    let a := Z.max first t in let b := Z.min last (t + inc) in
    if b <? a then None else Some (map (fun s => (s, Computed axis (spec t s))) (slide_starts a b win)).
  (** 413-422: np.arange(0, endtime-starttime, increment) *)
  Definition generate_time_windows (start stop inc win : Z) : list (option (list (Z * outcome F P))) :=
    map (read_stream inc win) (window_starts start stop inc).
  (** compute_spectrogram on [p] processes: result of rank 0 *)
  Definition compute_spectrogram (p : nat) (start stop win inc : Z) : result (F * list Z * list P) :=
    if inc <? win then Raise ValueError else spectrogram p (generate_time_windows start stop inc win).
End Reads.
