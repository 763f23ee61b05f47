(** Spectral time series on several MPI processes (spct_series_welch, utils/raw_analysis.py:27-109).
    Reading, preprocessing, Welch's method and the interpolation are given by their outcomes. *)
From Verif Require Import Lib.Base Lib.Sorting.
Local Open Scope nat_scope.

Section Spectrogram.
  (** frequency axes and spectra *)
  Context {F P : Type}.
  (** one window: its start time and what happens in the try block, 77-84 *)
  Inductive outcome := Computed (f : F) (s : P)    (* appended *)
                     | Failed                      (* exception before f2 is assigned *)
                     | FailedLate (f : F).         (* exception after f2 is assigned *)
  Notation window := (Z * outcome)%type.
  (** one element of the iterator: [None] is skipped after an exception, 61-75 *)
  Notation stream := (option (list window)).

  (** 56-60: the streams of a rank, and their windows *)
  Definition my_windows (psize rank : nat) (streams : list stream) : list window :=
    flat_map (fun x => if fst x mod psize =? rank then match snd x with Some l => l | None => [] end else []) (enumerate streams).
  (** 76-90: what is appended to t and specl, and the last value of f2 *)
  Definition appended (ws : list window) : list (Z * P) :=
    flat_map (fun w => match snd w with Computed _ s => [(fst w, s)] | _ => [] end) ws.
  Fixpoint last_axis (ws : list window) : option F :=
    match ws with
    | [] => None
    | w :: r => match last_axis r with
                | Some f => Some f
                | None => match snd w with Computed f _ | FailedLate f => Some f | Failed => None end
                end
    end.
  Fixpoint has_duplicates (l : list Z) : bool :=
    match l with [] => false | x :: r => existsb (Z.eqb x) r || has_duplicates r end.
  (** 91-109 on rank 0.  sorted(zip(t, specl)) compares the spectra, which are arrays, if two times are equal: ValueError.
      Otherwise it sorts by time. *)
  Definition spectrogram (psize : nat) (streams : list stream) : result (F * list Z * list P) :=
    let gathered := flat_map (fun r => appended (my_windows psize r streams)) (seq 0 psize) in
    if has_duplicates (map fst gathered) then Raise ValueError
    else
      let sorted := sort (fun a b => (fst a <=? fst b)%Z) gathered in
      match last_axis (my_windows psize 0 streams) with
      | Some f => Ok (f, map fst sorted, map snd sorted)
      | None => Raise ValueError                     (* UnboundLocalError is turned into ValueError *)
      end.
End Spectrogram.
Arguments outcome : clear implicits.
