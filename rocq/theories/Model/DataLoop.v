(** The loop over the times to be correlated: reading, preprocessing, cutting into windows and exchanging the windows
    between the processes (correlate/correlate.py 451-642, with preprocess_stream 1303-1391 and generate_corr_inc 1394-1435).
    Times are sample numbers on the common grid after resampling.
    Simplifications: each channel is one trace with masked gaps; the channels are numbered in the order of avail_raw_data, which
    is sorted (197); reading, resampling and stream preprocessing up to the final trim act on one channel at a time, [proc];
    the selection of pairs (553-601, see Combos.v) is left out, so that windows are given with all of their traces and windows
    without traces, which are never yielded, are listed as well. *)
From Verif Require Import Lib.Base Lib.Sorting Model.Partition Model.Gaps.
Local Open Scope Z_scope.

(** read_start, read_end, read_inc, read_len, corr_len, corr_inc in samples *)
Record times := mkTimes { read_start : Z; read_end : Z; read_inc : Z; read_len : Z; corr_len : Z; corr_inc : Z }.

Section Loop.
  Context {A : Type} (o : times) (proc : trace A -> result (option (trace A))) (archive : list (trace A)).

  (** np.arange(t0, t1, read_inc), 478-480 *)
  Definition read_starts : list Z := window_starts (read_start o) (read_end o) (read_inc o).
  (** int(np.ceil(read_len/corr_inc)), 1433-1434 *)
  Definition empty_windows : nat := Z.to_nat (- ((- read_len o) / corr_inc o)).
  (** the channels of process [r] with their data from [t] to [t]+read_len, both ends included; channels without data
      are left out, 503-512 *)
  Definition read_channels (p r : nat) (t : Z) : list (nat * trace A) :=
    concat (map (fun c => match slice t (read_len o + 1) (snd c) with
                          | Some w => if masked_all (t_data w) then [] else [(fst c, w)]
                          | None => []
                          end) (my_items p r (enumerate archive))).
  (** [proc] on each trace; traces that are discarded are [None]; then trim(pad=True), 1387-1390.  An exception of one trace is
      one of the whole stream. *)
  Definition preprocess (s n : Z) (st : list (nat * trace A)) : result (list (nat * trace A)) :=
    do l <- mapM (fun c => do x <- proc (snd c); Ok (fst c, x)) st;
    Ok (concat (map (fun c => match snd c with Some x => [(fst c, trim_pad s n x)] | None => [] end) l)).
  (** generate_corr_inc for numbered traces *)
  Definition cut_windows (st : list (nat * trace A)) : list (list (nat * trace A)) :=
    map (fun w => map (fun q => (nth (fst q) (map fst st) 0%nat, snd q)) (snd w))
      (generate_corr_inc empty_windows (corr_len o) (corr_inc o) (map snd st)).
  (** 498-545 for one read: the windows process [r] sends with allgather, with its own winstart.  A ValueError skips the read,
      any other exception ends the process: None *)
  Definition sent (subdiv : bool) (p r : nat) (t : Z) : option (list (Z * list (nat * trace A))) :=
    let st := read_channels p r t in
    match (if subdiv then Ok st else preprocess t (read_len o + 1) st) with
    | Ok st => Some (map (fun q => (t + Z.of_nat (fst q) * corr_inc o, snd q)) (enumerate (cut_windows st)))
    | Raise ValueError => Some []
    | Raise _ => None
    end.
  Fixpoint all_some {B} (l : list (option B)) : option (list B) :=
    match l with
    | [] => Some []
    | Some x :: r => option_map (cons x) (all_some r)
    | None :: _ => None
    end.
  Definition all_sent (subdiv : bool) (p r : nat) : option (list (Z * list (nat * trace A))) :=
    option_map (@concat _) (all_some (map (sent subdiv p r) read_starts)).
  (** allgather and sort, 547-550: the k-th call of each process meets the k-th calls of the others *)
  Definition gather (calls : list (list (Z * list (nat * trace A)))) (k : nat) : list (nat * trace A) :=
    sort (fun a b => (fst a <=? fst b)%nat) (concat (map (fun l => snd (nth k l (0, []))) calls)).
  (** 605-641: preprocessing of the window, if it was not done before; merge and trim to winstart ... winstart+corr_len *)
  Definition finish (subdiv : bool) (s : Z) (win : list (nat * trace A)) : option (list (nat * trace A)) :=
    match (if subdiv then preprocess s (corr_len o + 1) win else Ok win) with
    | Ok win => Some (map (fun q => (fst q, trim_pad s (corr_len o + 1) (snd q))) win)
    | Raise ValueError => Some []
    | Raise _ => None
    end.
  (** the windows process [r] goes through, with their winstart.  None: the program does not finish, because a process raised
      an exception or because the processes do not make the same number of collective calls *)
  Definition correlation_windows (subdiv : bool) (p r : nat) : option (list (Z * list (nat * trace A))) :=
    match all_some (map (all_sent subdiv p) (seq 0 p)) with
    | None => None
    | Some calls =>
        let n := length (nth 0 calls []) in
        if forallb (fun l => (length l =? n)%nat) calls
        then all_some (map (fun q => let s := fst (snd q) in option_map (pair s) (finish subdiv s (gather calls (fst q))))
                         (enumerate (nth r calls [])))
        else None
    end.
End Loop.
