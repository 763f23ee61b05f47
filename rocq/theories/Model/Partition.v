(** Distribution of work over MPI processes. *)
From Verif Require Import Lib.Base.
From Coq Require Import Reals.
From Flocq Require Import Core.

(** The process map
      pmap = np.arange(len(l))*psize/len(l); pmap = pmap.astype(np.int32)
    correlate/correlate.py:484-487 (stations), 648-654 (traces), 713-715 (pairs), 423-424 (files);
    monitor/monitor.py:352-353 and 427-429 (monitoring jobs).
    Simplification: the float division followed by truncation is written as integer division;
    theorem [C01_float_map_exact] shows that the IEEE binary64 computation gives the same map. *)
Definition pmap (p n : nat) : list nat := map (fun i => (i * p) / n) (seq 0 n).

(** [np.array(l)[ind]] with a boolean mask [ind] *)
Definition mask_select {A} (ind : list bool) (l : list A) : list A :=
  map snd (filter fst (combine ind l)).

(** [ind = pmap == self.rank]; the items process [rank] works on
    correlate.py:488-489 + 503, 657, 716-717, 425-427; monitor.py:354-357. *)
Definition ind (p rank n : nat) : list bool := map (fun m => m =? rank) (pmap p n).
Definition my_items {A} (p rank : nat) (l : list A) : list A := mask_select (ind p rank (length l)) l.

(** The map as numpy computes it: i*psize exact in int64, true_divide in binary64
    (round to nearest even), astype(int32) truncates. *)
Definition rnd64 (x : R) : R := round radix2 (FLT_exp (-1074) 53) ZnearestE x.
Definition pmap_float_entry (p n i : Z) : Z :=
  Ztrunc (rnd64 (rnd64 (IZR (i * p)) / rnd64 (IZR n))).
