(** The detrending of the trace matrix with its options (correlate/preprocessing_td.py 57-145).  The matrix is the list of its rows, [None] is NaN.
    The values of the options are texts. *)
From Coq Require Import Reals.
From Verif Require Import Lib.Base Lib.Str Model.Spectral Model.TimeDomain.
Local Open Scope string_scope.

Section Detrend.
  (** scipy.signal.detrend of one row for a type, and np.linalg.qr of the matrix X for a number of samples *)
  Variable sp : string -> list R -> list R.
  Variable f : nat -> qr.

  Definition arg (args : list (string * string)) (k default : string) : string := match dget args k with Some v => v | None => default end.
  (** sp_detrend(row, axis=-1, overwrite_data=True, **args): axis and overwrite_data would be given twice, data by position;
      type and bp (break points; a number or list, not modelled, so not in args) are the other parameters *)
  Definition call_sp (args : list (string * string)) (row : list R) : result (list R) :=
    if existsb (fun kv => negb (String.eqb (fst kv) "type")) args then Raise TypeError
    else let t := arg args "type" "linear" in
         if existsb (String.eqb t) ["linear"; "l"; "constant"; "c"] then Ok (sp t row) else Raise ValueError.
  (** [detrend_scipy], 87-103; an empty row has nothing to put back *)
  Definition all_missing (A : list (list (option R))) : bool := forallb (forallb (fun v => match v with None => true | Some _ => false end)) A.
  Definition detrend_scipy (A : list (list (option R))) (args : list (string * string)) : result (list (list (option R))) :=
    if all_missing A then Ok A else mapM (fun row => do r <- call_sp args (existing row); Ok (put_back row r)) A.
  (** [detrendqr], 105-134, of a matrix: for less than two samples per row inv(R) raises LinAlgError *)
  Definition detrendqr (A : list (list (option R))) : result (list (list (option R))) :=
    match A with
    | row :: _ => if Nat.ltb (length row) 2 then Raise ValueError else Ok (map (detrendqr_nan f) A)
    | [] => Ok []
    end.
  (** [demean], 136-145: np.nanmean of a row without samples is NaN *)
  Definition demean_nan (row : list (option R)) : list (option R) :=
    map (fun v => match v with Some x => Some (x - mean (existing row))%R | None => None end) row.
  Definition demean (A : list (list (option R))) : list (list (option R)) := map demean_nan A.
  (** [detrend], 57-84 *)
  Definition detrend (A : list (list (option R))) (args : list (string * string)) : result (list (list (option R))) :=
    let method := arg args "method" "qr" in
    if String.eqb method "scipy" then detrend_scipy A args
    else if String.eqb method "qr" then
      let t := arg args "type" "linear" in
      if String.eqb t "linear" then detrendqr A
      else if String.eqb t "constant" then Ok (demean A)
      else Raise ValueError
    else Raise ValueError.
End Detrend.
