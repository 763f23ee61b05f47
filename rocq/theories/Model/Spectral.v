(** The correlation itself: zero padding, Fourier transforms and cutting (Correlator._pxcorr_matrix,
    correlate/correlate.py:673-764, and zeroPadding, correlate/preprocessing_td.py:434-492), in exact real arithmetic.
    A complex number is a pair of reals; rfft and irfft are numpy.fft's. *)
From Coq Require Import Reals QArith Qround Qreals.
From Verif Require Import Lib.Base.
Local Open Scope R_scope.

Notation cplx := (R * R)%type.
(** sum over 0 <= k < n *)
Fixpoint rsum (n : nat) (f : nat -> R) : R := match n with O => 0 | S m => rsum m f + f m end.
Definition cmul (a b : cplx) : cplx := (fst a * fst b - snd a * snd b, fst a * snd b + snd a * fst b).
Definition cconj (a : cplx) : cplx := (fst a, - snd a).
Definition cexp (t : R) : cplx := (cos t, sin t).
Definition abs2 (a : cplx) : R := fst a * fst a + snd a * snd a.
Definition c0 : cplx := (0, 0).

(** angle of the k-th frequency at sample j of n *)
Definition angle (n k j : nat) : R := 2 * PI * INR k * INR j / INR n.
(** np.fft.rfft *)
Definition dft (x : list R) (k : nat) : cplx :=
  (rsum (length x) (fun j => nth j x 0 * cos (angle (length x) k j)),
   - rsum (length x) (fun j => nth j x 0 * sin (angle (length x) k j))).
Definition rfft (x : list R) : list cplx := map (dft x) (seq 0 (length x / 2 + 1)).
(** np.fft.irfft without n: 2 (m - 1) samples; the imaginary parts of the first and of the last sample are ignored *)
Definition irfft_at (B : list cplx) (l : nat) : R :=
  let m := length B in let n := (2 * (m - 1))%nat in
  (fst (nth 0 B c0) + 2 * rsum (m - 2) (fun k => fst (nth (S k) B c0) * cos (angle n (S k) l) - snd (nth (S k) B c0) * sin (angle n (S k) l))
   + fst (nth (m - 1) B c0) * cos (angle n (m - 1) l)) / INR n.
Definition irfft (B : list cplx) : list R := map (irfft_at B) (seq 0 (2 * (length B - 1))).

(** scipy.fftpack.next_fast_len: the smallest number of the form 2^a 3^b 5^c that is not smaller *)
Fixpoint strip_factor (fuel : nat) (p n : Z) : Z :=
  match fuel with O => n | S f => if (n mod p =? 0)%Z then strip_factor f p (n / p)%Z else n end.
Definition strip (p n : Z) : Z := strip_factor (Z.to_nat (Z.log2 n)) p n.
Definition smooth5 (n : Z) : bool := (strip 5 (strip 3 (strip 2 n)) =? 1)%Z.
Fixpoint next_smooth (fuel : nat) (n : Z) : Z :=
  match fuel with O => n | S f => if smooth5 n then n else next_smooth f (n + 1)%Z end.
Definition next_fast_len (n : Z) : Z := next_smooth (Z.to_nat n) n.

(** zeroPadding with 'avoidWrapFastLen', 479-491: length of the padded traces.  The sampling rate and lengthToSave
    are rationals; their product is exact here. *)
Definition padded_len (npts : nat) (sr len : Q) : Z := next_fast_len (Qfloor (inject_Z (Z.of_nat npts) + sr * len)).
Definition zero_pad (N : nat) (x : list R) : list R := x ++ repeat 0 (N - length x).
(** sampleToSave, 709-711 *)
Definition sample_to_save (sr len : Q) : nat := Z.to_nat (Qceiling (len * sr)).

(** np.fix *)
Definition qfix (q : Q) : Z := if Qle_bool 0 q then Qfloor q else Qceiling q.
(** 720-732: whole samples of the offset of the start times, in seconds, and the remaining offset *)
Definition roffset (center : bool) (sr offset : Q) : Q := if center then 0%Q else (inject_Z (qfix (offset * sr)) / sr)%Q.
(** 763-764 *)
Definition start_lag (center : bool) (sr len offset : Q) : Q :=
  (- inject_Z (Z.of_nat (sample_to_save sr len)) / sr - roffset center sr offset)%Q.

(** 750-753: the product of the spectra; freqs[k] = k*sr/N *)
Definition cross (N : nat) (sr off : R) (B1 B2 : list cplx) : list cplx :=
  map (fun k => cmul (cmul (cconj (nth k B1 c0)) (nth k B2 c0)) (cexp (INR k * sr / INR N * off * 2 * PI))) (seq 0 (length B1)).
(** 733-748: [B[0]**2] is a complex square; of the product only the real part is used.  For a real B[0] (always
    the case for traces and after whitening) it is this number. *)
Definition energy (B : list cplx) : R := 2 * rsum (length B) (fun k => abs2 (nth k B c0)) - fst (nth 0 B c0) * fst (nth 0 B c0).
Definition norm (B1 B2 : list cplx) : R := sqrt (energy B1) * sqrt (energy B2) / INR (2 * (length B1 - 1)).

(** x[-s:] *)
Definition last_samples (s : nat) (l : list R) : list R := if (s =? 0)%nat then l else skipn (length l - s) l.
(** 758-762: the row of C has 2*s+1 samples *)
Definition cut (s : nat) (tmp : list R) : result (list R) :=
  let row := last_samples s tmp ++ firstn (s + 1) tmp in
  if (length row =? 2 * s + 1)%nat then Ok row else Raise ValueError.

(** 719-762 for one pair of spectra *)
Definition correlate_spectra (normalize center : bool) (N : nat) (sr len offset : Q) (B1 B2 : list cplx) : result (list R) :=
  let off := Q2R (offset - roffset center sr offset) in
  let tmp := irfft (cross N (Q2R sr) off B1 B2) in
  let nrm := if normalize then norm B1 B2 else 1 in
  do row <- cut (sample_to_save sr len) tmp;
  Ok (map (fun v => v / nrm) row).
(** 673-762 for two traces of the same length without further processing *)
Definition correlate_traces (normalize center : bool) (sr len offset : Q) (x y : list R) : result (list R) :=
  let N := Z.to_nat (padded_len (length x) sr len) in
  correlate_spectra normalize center N sr len offset (rfft (zero_pad N x)) (rfft (zero_pad N y)).
