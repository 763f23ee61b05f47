(** [Correlator._pxcorr_matrix] (correlate/correlate.py:644-778) as executed by [p] MPI processes.
    Row contents are abstract: [Row] is a time series, [Spec] a spectrum, [Corr] a correlation
    row together with its start lag.  The time/frequency domain functions named in the options are
    functions on the *sub-matrix of the rows of one process* (they receive A[ind, :]). *)
From Verif Require Import Lib.Base Model.Partition.

(** [A[ind, :] = new] for a boolean mask *)
Fixpoint mask_assign {A} (ind : list bool) (new old : list A) : list A :=
  match ind, old with
  | true :: i, o :: os => match new with
                          | n :: ns => n :: mask_assign i ns os
                          | [] => o :: os          (* shape mismatch, not reached: functions keep the shape *)
                          end
  | false :: i, o :: os => o :: mask_assign i new os
  | _, _ => old
  end.

(** a preprocessing function: gets the rows of this process, may raise *)
Definition proc (R : Type) := list R -> result (list R).

(** lines 669-671 and 693-699: apply the configured functions one after the other to A[ind, :] *)
Fixpoint run_procs {R} (ps : list (proc R)) (idx : list bool) (A : list R) : result (list R) :=
  match ps with
  | [] => Ok A
  | f :: r => do own <- f (mask_select idx A); run_procs r idx (mask_assign idx own A)
  end.

(** Allreduce(MPI.IN_PLACE, X, op=MPI.SUM): element-wise sum over the ranks' matrices *)
Fixpoint zip_add {R} (add : R -> R -> R) (a b : list R) : list R :=
  match a, b with
  | x :: a', y :: b' => add x y :: zip_add add a' b'
  | _, _ => []
  end.
Definition allreduce {R} (add : R -> R -> R) (zero : R) (n : nat) (ms : list (list R)) : list R :=
  fold_right (zip_add add) (repeat zero n) ms.

Section Matrix.
  Context {Row Spec Corr : Type}.
  Variables (sadd : Spec -> Spec -> Spec) (szero : Spec).
  Variables (cadd : Corr -> Corr -> Corr) (czero : Corr).
  (** zero padding of a row (673-674) followed by rfft (685) *)
  Variable rfft_pad : Row -> Spec.
  (** lines 719-764 for one pair: row of C and start lag; gets the pair of trace indices
      (for the start times) and the two spectra *)
  Variable correlate : nat * nat -> Spec -> Spec -> Corr.
  Variables (td : list (proc Row)) (fd : list (proc Spec)).

  (** lines 645-699 on process [r] of [p] *)
  Definition rank_spectra (p r : nat) (A : list Row) : result (list Spec) :=
    let idx := ind p r (length A) in
    do A1 <- run_procs td idx A;
    let B := mask_assign idx (map rfft_pad (mask_select idx A1)) (repeat szero (length A)) in
    run_procs fd idx B.

  (** lines 706-764 on process [r]: its own pairs are computed, the others stay zero *)
  Definition rank_corr (p r : nat) (B : list Spec) (combis : list (nat * nat)) : list Corr :=
    map (fun q => if fst q =? r
                  then correlate (snd q) (nth (fst (snd q)) B szero) (nth (snd (snd q)) B szero)
                  else czero)
        (combine (pmap p (length combis)) combis).

  (** the whole function, on all processes *)
  Definition pxcorr_matrix (p : nat) (A : list Row) (combis : list (nat * nat)) : result (list Corr) :=
    do Bs <- mapM (fun r => rank_spectra p r A) (seq 0 p);
    let B := allreduce sadd szero (length A) Bs in
    Ok (allreduce cadd czero (length combis) (map (fun r => rank_corr p r B combis) (seq 0 p))).
End Matrix.

(** [spectralWhitening] (correlate/preprocessing_fd.py:80-120) on spectra as lists of samples.
    [div_abs b] is b/|b|, [None] when |b| = 0 (0/0, "invalid"); [is0]/[c0] is zero.
    Without joint_norm.  np.errstate(invalid='raise') makes a single 0/0 anywhere in the
    sub-matrix abandon the division for all its rows (lines 109-116). *)
Section Whiten.
  Context {C : Type}.
  Variables (div_abs : C -> option C) (c0 : C).
  Definition zero_dc (row : list C) : list C :=
    match row with [] => [] | _ :: r => c0 :: r end.
  Fixpoint all_some {X} (l : list (option X)) : option (list X) :=
    match l with
    | [] => Some []
    | Some x :: r => match all_some r with Some xs => Some (x :: xs) | None => None end
    | None :: _ => None
    end.
  Definition whiten_rows (B : list (list C)) : option (list (list C)) :=
    all_some (map (fun row => all_some (map div_abs row)) B).
  Definition spectral_whitening : proc (list C) := fun B =>
    match whiten_rows B with
    | Some B' => Ok (map zero_dc B')
    | None => Ok (map zero_dc B)
    end.
  (** with joint_norm=True: the assertion of lines 103-104 (the joint normalisation itself is a
      function [joint] of three rows) *)
  Fixpoint by_threes {X} (joint : X -> X -> X -> list X) (B : list X) : result (list X) :=
    match B with
    | [] => Ok []
    | a :: b :: c :: r => do t <- by_threes joint r; Ok (joint a b c ++ t)
    | _ => Raise AssertionError
    end.
  Definition joint_whitening {X} (joint : X -> X -> X -> list X) : proc X :=
    fun B => if (length B mod 3 =? 0) then by_threes joint B else Raise AssertionError.
End Whiten.
