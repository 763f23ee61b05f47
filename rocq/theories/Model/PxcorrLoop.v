(** The main loop of [Correlator.pxcorr] (correlate/correlate.py:316-356) and the write flags
    produced by [Correlator._generate_data] (451-642). *)
From Verif Require Import Lib.Base.

Section Loop.
  Context {C : Type}.        (** one correlation *)

  (** one item yielded by _generate_data, after _pxcorr_inner turned the window into correlations *)
  Definition event : Type := list C * bool.

  (** state of pxcorr: the collected stream [cst] (line 321) and the batches handed to _write *)
  Record lstate := { cst : list C; written : list (list C) }.
  Definition linit : lstate := {| cst := []; written := [] |}.

  (** [if cst.count(): self._write(cst); cst.clear()]   lines 349-351 and 354-356 *)
  Definition flush (s : lstate) : lstate :=
    match cst s with
    | [] => s
    | _ => {| cst := []; written := written s ++ [cst s] |}
    end.

  (** loop body, lines 342-351 *)
  Definition lstep (s : lstate) (ev : event) : lstate :=
    let s1 := {| cst := cst s ++ fst ev; written := written s |} in
    if snd ev then flush s1 else s1.

  (** the loop over the first k events (a crash after k windows leaves this state) *)
  Definition lrun (evs : list event) : lstate := fold_left lstep evs linit.

  (** complete run: all batches, in order *)
  Definition pxcorr (evs : list event) : list (list C) := written (flush (lrun evs)).

  (** flags of _generate_data: True for the first window yielded in a read increment (line 497),
      False for the following ones (642); increments without windows yield nothing *)
  Definition increment_events (ws : list (list C)) : list event :=
    match ws with
    | [] => []
    | w :: r => (w, true) :: map (fun x => (x, false)) r
    end.
  Definition generate_data (incs : list (list (list C))) : list event := flat_map increment_events incs.
End Loop.
