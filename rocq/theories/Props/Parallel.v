(** C01, C02, C04, C05: distribution of work, independence of the number of processes, batches. *)
From Verif Require Import Lib.Base Model.Partition Model.MpiMatrix Model.PxcorrLoop Spec.RowwiseSpec
  Proofs.PartitionFacts Proofs.PartitionFloat Proofs.MpiMatrixFacts Proofs.PxcorrLoopFacts.
From Coq Require Import Permutation.

(** ** C01 *)
(** The lists of items of the processes 0..p-1, one after the other, are the original list: every item
    belongs to exactly one existing process, and the items of a process are consecutive. *)
Theorem C01_each_item_exactly_once : forall (A : Type) (p : nat) (l : list A), 0 < p ->
  concat (map (fun r => my_items p r l) (seq 0 p)) = l.
Proof. exact @partition_concat. Qed.
Print Assumptions C01_each_item_exactly_once.

Theorem C01_only_existing_ranks : forall (A : Type) (p r : nat) (l : list A), 0 < p -> p <= r ->
  my_items p r l = [].
Proof. exact @no_such_rank. Qed.
Print Assumptions C01_only_existing_ranks.

Theorem C01_balanced : forall (A : Type) (p r1 r2 : nat) (l : list A), r1 < p -> r2 < p ->
  length (my_items p r1 l) <= length (my_items p r2 l) + 1.
Proof. exact @balance. Qed.
Print Assumptions C01_balanced.

(** numpy computes the map in binary64; the result is the integer quotient used in the model as
    long as n*p fits into the mantissa *)
Theorem C01_float_map_exact : forall p n i : Z,
  (0 <= i < n)%Z -> (0 < p)%Z -> (n * p <= 2 ^ 53)%Z -> pmap_float_entry p n i = (i * p / n)%Z.
Proof. exact pmap_float_exact. Qed.
Print Assumptions C01_float_map_exact.

Example C01_example : map (fun r => my_items 3 r [10; 11; 12; 13; 14; 15; 16]) (seq 0 3) =
  [[10; 11; 12]; [13; 14]; [15; 16]].
Proof. reflexivity. Qed.
(** more processes than items: some processes get nothing *)
Example C01_example_idle : map (fun r => my_items 5 r [7; 8]) (seq 0 5) = [[7]; []; [8]; []; []].
Proof. reflexivity. Qed.

(** ** C02 *)
(** If every configured processing function treats each trace on its own (on the traces at hand), the
    result on any number of processes is the result on one process. *)
Theorem C02_process_count_irrelevant_partial :
  forall (Row Spec Corr : Type) (sadd : Spec -> Spec -> Spec) (szero : Spec)
         (cadd : Corr -> Corr -> Corr) (czero : Corr) (rfft_pad : Row -> Spec)
         (correlate : nat * nat -> Spec -> Spec -> Corr)
         (td : list (proc Row)) (fd : list (proc Spec)),
  (forall x, sadd szero x = x) -> (forall x, sadd x szero = x) ->
  (forall x, cadd czero x = x) -> (forall x, cadd x czero = x) ->
  forall (PT : Row -> Prop) (PF : Spec -> Prop) (gT : Row -> Row) (gF : Spec -> Spec),
  rowwise_chain PT td gT -> rowwise_chain PF fd gF ->
  forall (p : nat) (A : list Row) (combis : list (nat * nat)),
  0 < p -> Forall PT A -> Forall (fun x => PF (rfft_pad (gT x))) A ->
  pxcorr_matrix sadd szero cadd czero rfft_pad correlate td fd p A combis =
  Ok (map (fun c => correlate c (nth (fst c) (map (fun x => gF (rfft_pad (gT x))) A) szero)
                                (nth (snd c) (map (fun x => gF (rfft_pad (gT x))) A) szero)) combis).
Proof. exact @pxcorr_matrix_eq. Qed.
Print Assumptions C02_process_count_irrelevant_partial.

(** Spectral whitening meets the hypothesis if no spectral sample is zero. *)
Theorem C02_whitening_rowwise_partial : forall (C : Type) (div_abs : C -> option C) (c0 : C) (B : list (list C)),
  Forall (Forall (fun x => div_abs x <> None)) B ->
  spectral_whitening div_abs c0 B = Ok (map (whiten_row div_abs c0) B).
Proof. exact @whiten_rowwise. Qed.
Print Assumptions C02_whitening_rowwise_partial.

(** Otherwise the result depends on the number of processes: one trace with a zero spectral sample
    disables the whitening of all traces that happen to be on the same process. *)
Definition sgn_div (z : Z) : option Z := if (z =? 0)%Z then None else Some (Z.sgn z).
Definition zrow_add (a b : list Z) : list Z :=
  match a, b with [], _ => b | _, [] => a | _, _ => map (fun q => fst q + snd q)%Z (combine a b) end.
Definition whitened_products (p : nat) (A : list (list Z)) (combis : list (nat * nat)) :=
  pxcorr_matrix zrow_add [] zrow_add [] (fun r => r)
    (fun _ a b => map (fun q => fst q * snd q)%Z (combine a b)) [] [spectral_whitening sgn_div 0%Z] p A combis.
Theorem C02_process_count_matters_refuted :
  exists A combis, whitened_products 1 A combis <> whitened_products 2 A combis.
Proof.
  exists [[5; 3; 7]; [2; 0; 4]]%Z, [(0, 0)]. vm_compute. discriminate.
Qed.
Print Assumptions C02_process_count_matters_refuted.

(** With joint_norm the run succeeds on one process and fails on four. *)
Theorem C02_joint_norm_refuted : exists A combis,
  (exists r, pxcorr_matrix Z.add 0%Z Z.add 0%Z (fun r => r) (fun _ a b => (a * b)%Z) []
     [joint_whitening (fun a b c => [a; b; c])] 1 A combis = Ok r) /\
  pxcorr_matrix Z.add 0%Z Z.add 0%Z (fun r => r) (fun _ a b => (a * b)%Z) []
     [joint_whitening (fun a b c => [a; b; c])] 4 A combis = Raise AssertionError.
Proof.
  exists [1; 2; 3; 4; 5; 6]%Z, [(0, 1)]. split; [eexists|]; vm_compute; reflexivity.
Qed.
Print Assumptions C02_joint_norm_refuted.

Example C02_example : whitened_products 3 [[5; -3; 7]; [2; 1; -4]; [1; 1; 1]]%Z [(0, 1); (1, 2)] =
  whitened_products 1 [[5; -3; 7]; [2; 1; -4]; [1; 1; 1]]%Z [(0, 1); (1, 2)] /\
  whitened_products 3 [[5; -3; 7]; [2; 1; -4]; [1; 1; 1]]%Z [(0, 1); (1, 2)] = Ok [[0; -1; -1]; [0; 1; -1]]%Z.
Proof. vm_compute. auto. Qed.
Example C02_hypotheses_met :
  Forall (Forall (fun x => sgn_div x <> None)) [[5; -3; 7]; [2; 1; -4]]%Z /\
  rowwise_chain (Forall (fun x => sgn_div x <> None)) [spectral_whitening sgn_div 0%Z] (fun x => whiten_row sgn_div 0%Z x).
Proof.
  split.
  - repeat constructor; vm_compute; discriminate.
  - apply (rc_cons _ (fun _ => True) _ (whiten_row sgn_div 0%Z) [] (fun x => x)); [apply whiten_rowwise|auto|constructor].
Qed.

(** ** C04 *)
(** A complete run writes every computed correlation exactly once and in order. *)
Theorem C04_written_exactly_once : forall (C : Type) (evs : list (list C * bool)),
  concat (pxcorr evs) = concat (map fst evs).
Proof. exact @pxcorr_content. Qed.
Print Assumptions C04_written_exactly_once.

(** If the run is killed after any number of windows, written + pending = computed so far *)
Theorem C04_crash_prefix : forall (C : Type) (evs : list (list C * bool)),
  concat (written (lrun evs)) ++ cst (lrun evs) = concat (map fst evs).
Proof. exact @lrun_content. Qed.
Print Assumptions C04_crash_prefix.

(** ... and everything computed up to the last window with the write flag is in the files. *)
Theorem C04_crash_keeps_flushed : forall (C : Type) (evs1 : list (list C * bool)) (w : list C) evs2,
  exists t, concat (written (lrun (evs1 ++ (w, true) :: evs2))) = concat (map fst (evs1 ++ [(w, true)])) ++ t.
Proof. exact @crash_keeps_flushed. Qed.
Print Assumptions C04_crash_keeps_flushed.

(** Later windows only append batches: what is written is never taken back or reordered. *)
Theorem C04_only_appends : forall (C : Type) (evs1 evs2 : list (list C * bool)),
  exists t, written (lrun (evs1 ++ evs2)) = written (lrun evs1) ++ t.
Proof. exact @lrun_written. Qed.
Print Assumptions C04_only_appends.

Example C04_example :
  pxcorr [([1; 2], true); ([3], false); ([4; 5], true); ([6], false)] = [[1; 2]; [3; 4; 5]; [6]] /\
  written (lrun [([1; 2], true); ([3], false)]) = [[1; 2]] /\ cst (lrun [([1; 2], true); ([3], false)]) = [3].
Proof. vm_compute. auto. Qed.

(** ** C05 *)
(** The batches are not the read increments as soon as one increment has a second window: *)
Theorem C05_batches_never_increments_refuted : forall (C : Type) (incs : list (list (list C))),
  Forall (fun inc => match inc with [] => False | w :: _ => w <> [] end) incs ->
  Exists (fun inc => exists w1 w2 ws, inc = w1 :: w2 :: ws /\ w2 <> []) incs ->
  pxcorr (generate_data incs) <> map (@concat C) incs.
Proof. exact @batches_ne. Qed.
Print Assumptions C05_batches_never_increments_refuted.

(** They are shifted by one window: the first window of an increment is written with the rest of
    the previous increment. *)
Theorem C05_batches_are_shifted_partial : forall (C : Type) (incs : list (list (list C))),
  Forall (fun inc => match inc with [] => True | w :: _ => w <> [] end) incs ->
  pxcorr (generate_data incs) = shifted [] incs.
Proof. exact @pxcorr_shape. Qed.
Print Assumptions C05_batches_are_shifted_partial.

(** With one window per increment a batch is an increment. *)
Theorem C05_single_window_partial : forall (C : Type) (ws : list (list C)),
  Forall (fun w => w <> []) ws ->
  pxcorr (generate_data (map (fun w => [w]) ws)) = ws.
Proof. exact @single_window. Qed.
Print Assumptions C05_single_window_partial.

Example C05_example :
  pxcorr (generate_data [[[1]; [2]; [3]]; [[4]; [5]; [6]]]) = [[1]; [2; 3; 4]; [5; 6]].
Proof. reflexivity. Qed.
