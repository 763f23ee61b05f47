(** Filtering of spectra (FDfilter, correlate/preprocessing_fd.py:23-49).  Frequencies are rational numbers, weights and spectra are exact. *)
From Coq Require Import Reals QArith Qabs.
From Verif Require Import Lib.Base Model.Spectral.
Local Open Scope Z_scope.

(** np.argmin: the first smallest number *)
Fixpoint argmin (l : list Q) : nat :=
  match l with
  | [] => 0
  | x :: r => match r with [] => 0 | _ => let j := argmin r in if Qle_bool x (nth j r 0%Q) then 0 else S j end
  end.
Definition nearest (freqs : list Q) (f : Q) : Z := Z.of_nat (argmin (map (fun g => Qabs (g - f)) freqs)).
(** obspy's cosine_taper(npts, freqs=freqs, flimit=(f1, f2, f3, f4)): the weight of frequency i; cos_win[idx1:idx2+1], cos_win[idx2+1:idx3] and
    cos_win[idx3:idx4+1] are assigned in this order *)
Definition flank_weight (idx1 idx2 idx3 idx4 i : Z) : R :=
  if (idx3 <=? i) && (i <=? idx4) then ((1 + cos (PI * IZR (idx3 - i) / IZR (idx4 - idx3))) / 2)%R
  else if (idx2 <? i) && (i <? idx3) then 1%R
  else if (idx1 <=? i) && (i <=? idx2) then ((1 - cos (PI * IZR (i - idx1) / IZR (idx2 - idx1))) / 2)%R
  else 0%R.
(** Equal neighbours are moved apart; then the first slice may end after the array, or the last one begin before it, and its values do not fit *)
Definition frequency_taper (freqs : list Q) (f1 f2 f3 f4 : Q) : result (list R) :=
  let npts := Z.of_nat (length freqs) in
  let idx1 := nearest freqs f1 in let idx2 := nearest freqs f2 in let idx3 := nearest freqs f3 in let idx4 := nearest freqs f4 in
  let idx2 := if idx1 =? idx2 then idx2 + 1 else idx2 in
  let idx3 := if idx3 =? idx4 then idx3 - 1 else idx3 in
  if (npts <=? 0) || (npts <=? idx2) || (idx3 <? 0) then Raise ValueError
  else Ok (map (fun i => flank_weight idx1 idx2 idx3 idx4 (Z.of_nat i)) (seq 0 (length freqs))).
Definition cscale (b : cplx) (w : R) : cplx := ((fst b * w)%R, (snd b * w)%R).
(** 45-49; rows of another length than [freqs] are not multiplied (ValueError), all rows of a matrix have one length *)
Definition fd_filter (freqs : list Q) (f1 f2 f3 f4 : Q) (B : list (list cplx)) : result (list (list cplx)) :=
  do tap <- frequency_taper freqs f1 f2 f3 f4;
  Ok (map (fun b => map (fun p => cscale (fst p) (snd p)) (combine b tap)) B).
(** np.fft.rfftfreq(N, 1/sr), the frequencies of the spectra (correlate.py:687) *)
Definition rfftfreq (N : nat) (sr : Q) : list Q := map (fun k => inject_Z (Z.of_nat k) * (sr / inject_Z (Z.of_nat N)))%Q (seq 0 (N / 2 + 1)).
