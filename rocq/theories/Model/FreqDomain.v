(** Frequency domain preprocessing (correlate/preprocessing_fd.py), in exact real arithmetic.
    A spectrum is the list of the complex samples of one trace. *)
From Coq Require Import Reals.
From Verif Require Import Lib.Base Model.Spectral Model.TimeDomain Model.MpiMatrix.
Local Open Scope R_scope.

Definition cabs (b : cplx) : R := sqrt (abs2 b).
Definition cdiv (b : cplx) (m : R) : cplx := (fst b / m, snd b / m).
(** 110-112: b / m; 0/0 is the "invalid" operation that raises (None).  Here m = 0 only if b = 0. *)
Definition div_by (b : cplx) (m : R) : option cplx := if Req_EM_T m 0 then None else Some (cdiv b m).
(** 101-120 without joint_norm *)
Definition whiten (B : list (list cplx)) : list (list cplx) :=
  match spectral_whitening (fun b => div_by b (cabs b)) c0 B with Ok B' => B' | Raise _ => B end.
(** 103-108: the three amplitude spectra replaced by their mean *)
Definition mean3 (a b c : list cplx) : list R :=
  map (fun k => (cabs (nth k a c0) + cabs (nth k b c0) + cabs (nth k c c0)) / 3) (seq 0 (length a)).
Fixpoint joint_abs (B : list (list cplx)) : list (list R) :=
  match B with a :: b :: c :: r => mean3 a b c :: mean3 a b c :: mean3 a b c :: joint_abs r | _ => [] end.
Definition divide_rows (B : list (list cplx)) (M : list (list R)) : option (list (list cplx)) :=
  all_some (map (fun p => all_some (map (fun q => div_by (fst q) (snd q)) (combine (fst p) (snd p)))) (combine B M)).
(** 101-120 with joint_norm *)
Definition whiten_joint (B : list (list cplx)) : result (list (list cplx)) :=
  if (length B mod 3 =? 0)%nat
  then Ok (map (zero_dc c0) (match divide_rows B (joint_abs B) with Some B' => B' | None => B end))
  else Raise AssertionError.

(** [FDsignBitNormalization], 73-77, for one spectrum *)
Definition fd_sign_bit (B : list cplx) : list cplx := rfft (sign_bit_row (irfft B)).
