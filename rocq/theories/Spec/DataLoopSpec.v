(** What a user expects of the windows that are correlated. *)
From Verif Require Import Lib.Base Model.Gaps Spec.GapsSpec Model.DataLoop.
Local Open Scope Z_scope.

(** [n] = ceil(a / b) *)
Definition ceil_of (a b : Z) (n : nat) : Prop := (Z.of_nat n - 1) * b < a <= Z.of_nat n * b.
(** [K] reads, each with [n] windows: start of the read and start of the window *)
Definition schedule (o : times) (K n : nat) : list (Z * Z) :=
  concat (map (fun k => let t := read_start o + Z.of_nat k * read_inc o in map (fun i => (t, t + Z.of_nat i * corr_inc o)) (seq 0 n)) (seq 0 K)).
Definition sensible (o : times) (K n : nat) : Prop :=
  0 < read_inc o /\ 0 < read_len o /\ 0 < corr_len o /\ 0 < corr_inc o /\
  ceil_of (read_end o - read_start o) (read_inc o) K /\ ceil_of (read_len o) (corr_inc o) n.

Section D.
  Context {A : Type}.
  (** channel [c] has data in the read that starts at [t]: [w] *)
  Definition read_of (o : times) (archive : list (trace A)) (c : nat) (t : Z) (w : trace A) : Prop :=
    exists a, nth_error archive c = Some a /\ slice t (read_len o + 1) a = Some w /\ masked_all (t_data w) = false.
  (** no channel fails *)
  Definition all_succeed (o : times) (proc : trace A -> result (option (trace A))) (archive : list (trace A)) (K : nat) : Prop :=
    forall k c w, (k < K)%nat -> read_of o archive c (read_start o + Z.of_nat k * read_inc o) w -> exists x, proc w = Ok x.
  (** the preprocessed data of channel [c] in the read that starts at [t] *)
  Definition preprocessed (o : times) (proc : trace A -> result (option (trace A))) (archive : list (trace A)) (c : nat) (t : Z) (x : trace A) : Prop :=
    exists w, read_of o archive c t w /\ proc w = Ok (Some x).
  (** [w] is the window of [x] from [s] on, inside of the read that starts at [t]: corr_len samples, followed by one that is masked *)
  Definition window_of (o : times) (t s : Z) (x w : trace A) : Prop :=
    t_start w = s /\ Z.of_nat (length (t_data w)) = corr_len o + 1 /\
    forall q, at_pos w q = if (s <=? q) && (q <? s + corr_len o) && (t <=? q) && (q <=? t + read_len o) then at_pos x q else None.
  Definition not_empty (w : trace A) : Prop := exists q, at_pos w q <> None.
  (** the window that starts at [s] in the read that starts at [t]: all channels with data, in order *)
  Definition right_window (o : times) (proc : trace A -> result (option (trace A))) (archive : list (trace A)) (ts : Z * Z) (sw : Z * list (nat * trace A)) : Prop :=
    let '(t, s) := ts in let '(s', win) := sw in
    s' = s /\ (forall i j, (i < j < length win)%nat -> (nth i (map fst win) 0 < nth j (map fst win) 0)%nat) /\
    forall c w, In (c, w) win <-> exists x, preprocessed o proc archive c t x /\ window_of o t s x w /\ not_empty w.
End D.

Section Subdivision.
  Context {A : Type}.
  (** every channel that has data in a read has samples, masked or not, from the first to the last position of the read *)
  Definition full_reads (o : times) (archive : list (trace A)) (K : nat) : Prop :=
    forall k c w, (k < K)%nat -> let t := read_start o + Z.of_nat k * read_inc o in read_of o archive c t w -> t_start w = t /\ last_pos w = t + read_len o.
  (** no channel fails in any window *)
  Definition windows_succeed (o : times) (proc : trace A -> result (option (trace A))) (archive : list (trace A)) (K n : nat) : Prop :=
    forall t s c w v, In (t, s) (schedule o K n) -> read_of o archive c t w -> is_window s (corr_len o) w v -> not_empty v -> exists x, proc v = Ok x.
  (** the window that starts at [s]: its raw data are [v], preprocessed on their own *)
  Definition right_subdivision (o : times) (proc : trace A -> result (option (trace A))) (archive : list (trace A)) (ts : Z * Z) (sw : Z * list (nat * trace A)) : Prop :=
    let '(t, s) := ts in let '(s', win) := sw in
    s' = s /\ (forall i j, (i < j < length win)%nat -> (nth i (map fst win) 0 < nth j (map fst win) 0)%nat) /\
    forall c u, In (c, u) win <-> exists w v x, read_of o archive c t w /\ is_window s (corr_len o) w v /\ not_empty v /\ proc v = Ok (Some x) /\ is_window s (corr_len o + 1) x u.
End Subdivision.
