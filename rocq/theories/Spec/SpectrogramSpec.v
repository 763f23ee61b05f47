(** What a spectral time series has to contain, without processes. *)
From Coq Require Import Permutation Sorted.
From Verif Require Import Lib.Base Model.Spectrogram.

Section Spec.
  Context {F P : Type}.
  Notation stream := (option (list (Z * outcome F P))).
  (** the windows of all streams *)
  Definition all_windows (streams : list stream) : list (Z * outcome F P) :=
    flat_map (fun x => match x with Some l => l | None => [] end) streams.
  (** the windows with a spectrum *)
  Definition spectra (streams : list stream) : list (Z * P) := appended (all_windows streams).
  (** every spectrum once, in the order of time *)
  Definition time_ordered (l : list (Z * P)) (t : list Z) (s : list P) : Prop :=
    length t = length s /\ StronglySorted Z.lt t /\ Permutation (combine t s) l.
  (** all frequency axes are the same *)
  Definition one_axis (f : F) (streams : list stream) : Prop :=
    forall w, In w (all_windows streams) -> match snd w with Computed f' _ | FailedLate f' => f' = f | Failed => True end.
End Spec.
