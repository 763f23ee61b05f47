(** Steps of the preprocessing of streams: the functions named in the options (preprocess_stream, correlate/correlate.py:1376-1386, with
    func_from_str, utils/fetch_func_from_str.py:18-36) and the polarity of vertical components (correct_polarity,
    utils/miic_utils.py:413-431, called in correlate.py:1368-1373). *)
From Coq Require Import QArith.
From Verif Require Import Lib.Base Lib.Str.
Local Open Scope string_scope.

Section Functions.
  Context {St Args : Type}.
  (** __import__(modname): the attributes of the module, or an exception *)
  Variable import : string -> result (string -> result (St -> Args -> result St)).

  (** fetch_func_from_str.py:18-36 for strings.  [import] is not called for the empty name: __import__('') raises ValueError *)
  Definition func_from_str (s : string) : result (St -> Args -> result St) :=
    let splitl := split_on "." s in
    let funcname := last splitl "" in
    let modname := join "." (removelast splitl) in
    if String.eqb modname "" then Raise ValueError
    else do module <- import modname; module funcname.
  (** correlate.py:1376-1386; the warning about the functions left out is not modelled *)
  Fixpoint run_steps (steps : list (string * Args)) (st : St) : result St :=
    match steps with
    | [] => Ok st
    | (f, args) :: r =>
        if is_substr "detrend_st" f || is_substr "cos_taper_st" f then run_steps r st
        else do func <- func_from_str f; do st' <- func st args; run_steps r st'
    end.
End Functions.

(** one trace: channel code, dip of the channel at the start of the trace (None: get_orientation raises an exception), data *)
Record chan := mkChan { c_channel : string; c_dip : option Q; c_data : list Q }.
(** stats.component is the last letter of the channel code; Stream.select compares it without regard to case *)
Definition is_vertical (c : chan) : bool :=
  match last_char (c_channel c) with Some a => Ascii.eqb a "Z" || Ascii.eqb a "z" | None => false end.
Definition flip_data (c : chan) : chan := mkChan (c_channel c) (c_dip c) (map (fun v => v * -1)%Q (c_data c)).
(** miic_utils.py:413-431 within correlate.py:1368-1372.  The loop over st.select(component='Z'), whose traces are those of the stream.  An exception ends the loop; preprocess_stream catches it. *)
Fixpoint correct_polarity (st : list chan) : list chan :=
  match st with
  | [] => []
  | c :: r =>
      if is_vertical c
      then match c_dip c with
           | None => c :: r
           | Some d => (if negb (Qle_bool d 0) then flip_data c else c) :: correct_polarity r
           end
      else c :: correct_polarity r
  end.
