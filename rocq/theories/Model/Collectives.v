(** The collective operations issued by the correlation loop: [Correlator._generate_data]
    (correlate/correlate.py:451-642), [generate_corr_inc] (1394-1435), [Correlator._pxcorr_inner]
    (358-398), the collectives of [Correlator._pxcorr_matrix] (644-778) and the loop of
    [Correlator.pxcorr] (342-356).

    A process is a resumption: it either has finished, or it waits in a collective call with the
    value it contributes and continues with the list of the values of all processes (by rank).
    The machine performs a collective only when every process waits in a call of the same kind;
    this is the blocking behaviour of MPI. *)
From Verif Require Import Lib.Base Model.PxcorrLoop.

(** MPI calls used: allgather (553), bcast (570, 593, 626, 396), Allreduce (728, 773-775) *)
Inductive ckind := Allgather | Bcast | Allreduce.
Definition ckind_eqb (a b : ckind) : bool :=
  match a, b with Allgather, Allgather | Bcast, Bcast | Allreduce, Allreduce => true | _, _ => false end.

Section Machine.
  Context {P R : Type}.      (** values sent; final result of a process *)

  Inductive prog :=
  | Done (r : R)
  | Coll (k : ckind) (p : P) (next : list P -> prog).

  (** contributions, if every process waits in a call of kind k *)
  Fixpoint contributions (k : ckind) (ps : list prog) : option (list P) :=
    match ps with
    | [] => Some []
    | Coll k' p _ :: r =>
        if ckind_eqb k k' then match contributions k r with Some vs => Some (p :: vs) | None => None end
        else None
    | Done _ :: _ => None
    end.

  Definition resume (vs : list P) (p : prog) : prog :=
    match p with Coll _ _ next => next vs | Done r => Done r end.

  Definition mstep (ps : list prog) : option (list prog) :=
    match ps with
    | Coll k _ _ :: _ =>
        match contributions k ps with Some vs => Some (map (resume vs) ps) | None => None end
    | _ => None
    end.

  Fixpoint mrun (fuel : nat) (ps : list prog) : list prog :=
    match fuel with
    | 0 => ps
    | S f => match mstep ps with Some qs => mrun f qs | None => ps end
    end.
End Machine.
Arguments prog : clear implicits.

Section CorrLoop.
  Context {T C K : Type}.      (** traces; combinations; correlations *)

  (** data processing of the loop, kept abstract:
      [tsort]  the sort by network, station, channel (557);
      [calc]   calc_cross_combis on the given stream (562-564);
      [prune]  removal of the traces that no combination uses (577-583);
      [prep]   preprocess_stream of a window that starts at the given time (602-605), None: ValueError;
      [cut]    merge and trim to the window (638-639);
      [corr]   the correlations of a window, made by rank 0 (384-393) *)
  Record proc := {
    tsort : list T -> list T;
    calc : list T -> list C;
    prune : list C -> list T -> list T;
    prep : Z -> list T -> option (list T);
    cut : Z -> list T -> list T;
    corr : list T -> list C -> list K }.
  Variable pc : proc.
  Variable subdiv : bool.           (** options['preprocess_subdiv'] (465-470) *)
  Variable read_len corr_inc : Z.

  (** values sent: a window, the combinations (None except on rank 0), matrices (their content is
      the subject of Model/MpiMatrix.v), correlations (None except on rank 0) *)
  Inductive payload := PW (w : list T) | PC (c : option (list C)) | PM | PK (k : option (list K)).
  Definition get_w (p : payload) : list T := match p with PW w => w | _ => [] end.
  (** result of bcast(root=0): the value contributed by rank 0 *)
  Definition root_c (vs : list payload) : list C :=
    match vs with PC (Some c) :: _ => c | _ => [] end.
  Definition root_k (vs : list payload) : list K :=
    match vs with PK (Some k) :: _ => k | _ => [] end.

  (** what one process finds for one read increment: reading or preprocessing raised ValueError
      (512-519, 525-537: logged, then [continue]); no data at all (the stream is empty); or the
      windows that [generate_corr_inc] cuts out of the data *)
  Inductive outcome := Failed | NoData | Data (ws : list (list T)).

  (** [int(np.ceil(read_len/corr_inc))]  (1432-1433) *)
  Definition empty_windows : nat := Z.to_nat (- ((- read_len) / corr_inc)).

  (** windows yielded by generate_corr_inc (1394-1435); none at all after [continue] *)
  Definition windows (o : outcome) : list (list T) :=
    match o with
    | Failed => []
    | NoData => repeat [] empty_windows
    | Data ws => ws
    end.

  (** the loops [for t in loop_window] (487) and [for ii, win in enumerate(..)] (541), flattened:
      a flag that tells whether the window is the first of its increment, winstart (542), window *)
  Definition item : Type := bool * Z * list T.
  Fixpoint number_windows (t : Z) (ii : Z) (first : bool) (ws : list (list T)) : list item :=
    match ws with
    | [] => []
    | w :: r => (first, (t + ii * corr_inc)%Z, w) :: number_windows t (ii + 1)%Z false r
    end.
  Definition items (incs : list (Z * outcome)) : list item :=
    flat_map (fun i => number_windows (fst i) 0%Z true (windows (snd i))) incs.

  Definition rprog : Type := prog payload (list (@event K)).

  Definition on_root (rank : nat) {A} (a : A) : option A := match rank with 0 => Some a | _ => None end.
  Definition is_nil {A} (l : list A) : bool := match l with [] => true | _ => false end.

  (** _pxcorr_inner of a yielded window (358-398): three Allreduce calls and the broadcast of the
      correlations made by rank 0 *)
  Definition inner (rank : nat) (w : list T) (c : list C) (k : list K -> rprog) : rprog :=
    Coll Allreduce PM (fun _ =>
    Coll Allreduce PM (fun _ =>
    Coll Allreduce PM (fun _ =>
    Coll Bcast (PK (on_root rank (corr pc w c))) (fun vs => k (root_k vs))))).

  (** lines 633-641: skip an empty window, else merge, trim and yield *)
  Definition finish (rank : nat) (tm : Z) (w : list T) (c : list C) (k : option (list K) -> rprog) : rprog :=
    if is_nil w then k None else inner rank (cut pc tm w) c (fun x => k (Some x)).

  (** lines 599-631: preprocessing of the window in preprocess_subdiv mode *)
  Definition subdivide (rank : nat) (tm : Z) (w : list T) (c : list C) (k : option (list K) -> rprog) : rprog :=
    if subdiv then
      match prep pc tm w with
      | None => k None
      | Some w' =>
          Coll Bcast (PC (on_root rank (calc pc w'))) (fun vs => finish rank tm w' (root_c vs) k)
      end
    else finish rank tm w c k.

  (** lines 545-598: one window; [k None]: nothing yielded, [k (Some x)]: correlations x collected *)
  Definition window (rank : nat) (tm : Z) (win : list T) (k : option (list K) -> rprog) : rprog :=
    Coll Allgather (PW win) (fun winl =>
      let w := tsort pc (flat_map get_w winl) in
      Coll Bcast (PC (on_root rank (calc pc w))) (fun vs =>
        let c := root_c vs in
        if is_nil c then k None
        else
          let w1 := prune pc c w in
          if length w1 =? length w then subdivide rank tm w c k
          else
            Coll Bcast (PC (on_root rank (calc pc w1))) (fun vs1 =>
              let c1 := root_c vs1 in
              if is_nil c1 then k None else subdivide rank tm w1 c1 k))).

  (** the loop; [flag] is write_flag, True at the begin of an increment (488) and False after the
      first yield (642); the result are the pairs (correlations, write_flag) of pxcorr's loop *)
  Fixpoint loop (rank : nat) (its : list item) (flag : bool) (acc : list event) : rprog :=
    match its with
    | [] => Done acc
    | (first, tm, win) :: r =>
        let fl := if first then true else flag in
        window rank tm win (fun y =>
          match y with
          | None => loop rank r fl acc
          | Some x => loop rank r false (acc ++ [(x, fl)])
          end)
    end.

  Definition process (rank : nat) (incs : list (Z * outcome)) : rprog := loop rank (items incs) true [].

  (** all processes; [world] gives for every read increment its start and the outcome on each rank *)
  Definition rank_incs (world : list (Z * list outcome)) (rank : nat) : list (Z * outcome) :=
    map (fun i => (fst i, nth rank (snd i) NoData)) world.
  Definition processes (world : list (Z * list outcome)) (psize : nat) : list rprog :=
    map (fun r => process r (rank_incs world r)) (seq 0 psize).
End CorrLoop.
