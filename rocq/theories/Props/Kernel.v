(** Sensitivity kernels and the variance of velocity changes. *)
From Coq Require Import Reals Lra.
From Verif Require Import Lib.Base Model.Kernel Model.FloatAxis Spec.KernelSpec Proofs.KernelFacts.
Local Open Scope R_scope.

(** ** C94: sensitivity kernels are not negative, do not depend on the order of the stations and vanish out of reach *)
Theorem C94_kernel : forall g t pair, good_grid g -> 0 < t -> step_fits t (g_dt g) ->
  exists k, kernel_row g t pair = Ok k /\ length k = length (cells g) /\ forall i, (i < length k)%nat -> 0 <= nth i k 0.
Proof.
  intros g t p G T F. assert (F' : fits t (g_dt g)) by (apply fits_iff; [apply G|lra|assumption]). destruct (row_ok g t p G T F') as [k [K [L H]]]. exists k. split; [assumption|]. split; [assumption|]. intros i I. now apply H.
Qed.
Print Assumptions C94_kernel.
(** A cell that a wave cannot reach on its way from one station to the other in time [t] has no sensitivity; the tolerance
    is the way of one step, and 1e-5 of all. *)
Theorem C94_reach : forall g t pair k i, good_grid g -> 0 < t -> step_fits t (g_dt g) -> kernel_row g t pair = Ok k -> (i < length (cells g))%nat ->
  g_vel g * (t + g_dt g) * (1 + / 100000) < edist (nth i (cells g) (0, 0)) (fst pair) + edist (nth i (cells g) (0, 0)) (snd pair) -> nth i k 0 = 0.
Proof.
  intros g t p k i G T F K I L. assert (F' : fits t (g_dt g)) by (apply fits_iff; [apply G|lra|assumption]). destruct (row_ok g t p G T F') as [k' [K' [L' H]]]. assert (k' = k) by congruence. subst.
  rewrite <- L' in I. destruct (H i I) as [_ R]. destruct (Req_dec (nth i k 0) 0) as [E|E]; [assumption|]. specialize (R E). lra.
Qed.
Print Assumptions C94_reach.
Theorem C94_swap : forall g n s1 s2, good_grid g -> kernel_row g (INR n * g_dt g) (s1, s2) = kernel_row g (INR n * g_dt g) (s2, s1).
Proof. exact row_swap. Qed.
Print Assumptions C94_swap.
Definition grid0 : grid := mkG 1 1 1 1 1 1.
Lemma grid0_good : good_grid grid0.
Proof. unfold good_grid, grid0. simpl. lra. Qed.
Example C94_example : good_grid grid0 /\ step_fits (INR 2 * 1) 1 /\ cells grid0 = [(0, 0); (1, 0); (0, 1); (1, 1)] /\
  g_vel grid0 * (1 + g_dt grid0) * (1 + / 100000) < edist (nth 3 (cells grid0) (0, 0)) (fst ((0, 0), (0, 0))) + edist (nth 3 (cells grid0) (0, 0)) (snd ((0, 0), (0, 0))).
Proof.
  split; [exact grid0_good|]. split; [exists 2%nat; simpl; lra|].
  assert (C : cells grid0 = [(0, 0); (1, 0); (0, 1); (1, 1)]).
  { unfold cells, xaxis, yaxis, grid0. simpl. assert (A : rarange (1 + 1) 1 = [0; 1]).
    { unfold rarange. replace (rceil ((1 + 1) / 1)) with 2%Z by (symmetry; apply rceil_spec; lra). simpl. repeat f_equal; ring. }
    rewrite A. reflexivity. }
  split; [assumption|]. rewrite C. simpl. unfold edist. simpl. replace ((1 - 0) * (1 - 0) + (1 - 0) * (1 - 0)) with 2 by ring. assert (14 / 10 < sqrt 2); [|lra].
  rewrite <- (sqrt_Rsqr (14 / 10)) by lra. apply sqrt_lt_1_alt. unfold Rsqr. lra.
Qed.

(** ** C95: a kernel can be computed for every window and every grid *)
(** As far as it holds: on a grid with at least two rows and columns exactly if the middle of the window is at most half a step
    before a time of the integration. *)
Theorem C95_times_partial : forall g t pair e, good_grid g -> 0 < t ->
  probability (edist (fst pair) (snd pair)) t (g_vel g) (g_mf g) (g_vel g * g_dt g / 2) = Ok e -> e <> 0 ->
  ((exists k, kernel_row g t pair = Ok k) <-> step_fits t (g_dt g)) /\ (~ step_fits t (g_dt g) -> kernel_row g t pair = Raise ValueError).
Proof.
  intros g t p e G T E N. assert (I : fits t (g_dt g) <-> step_fits t (g_dt g)) by (apply fits_iff; [apply G|lra]).
  assert (Q : e = prob (edist (fst p) (snd p)) t (g_vel g) (g_mf g) (g_vel g * g_dt g / 2)).
  { rewrite probability_ok in E; [congruence|apply edist_nonneg|]. destruct G as [R [X [Y [D [V M]]]]]. rewrite tol by assumption. lra. }
  assert (X : ~ step_fits t (g_dt g) -> kernel_row g t p = Raise ValueError) by (intros F; apply row_fails; try assumption; [tauto|now rewrite <- Q]).
  split; [|exact X]. split.
  - intros [k K]. destruct (Rle_dec (INR (last_step t (g_dt g)) * g_dt g - t) (g_dt g / 2)) as [F|F]; [now apply I|]. rewrite X in K; [discriminate|]. intros F'. apply I in F'. contradiction.
  - intros F. destruct (row_ok g t p G T) as [k [K _]]; [tauto|]. now exists k.
Qed.
Print Assumptions C95_times_partial.
(** Windows from 1 to 1.5 and a step of 1: no kernel *)
Theorem C95_times_refuted : exists g tw0 tw1 pair, good_grid g /\ 0 < tw0 < tw1 /\ kernel_row g (middle tw0 tw1) pair = Raise ValueError.
Proof.
  exists grid0, 1, (3 / 2), ((0, 0), (0, 0)). split; [exact grid0_good|]. split; [lra|]. unfold middle. apply row_fails; [exact grid0_good|lra| |].
  - rewrite fits_iff by (unfold grid0; simpl; lra). unfold step_fits, grid0. simpl. intros [n [A B]]. destruct n as [|[|n]]; rewrite ?S_INR in *; simpl in *; try lra. pose proof (pos_INR n). lra.
  - simpl. replace (edist (0, 0) (0, 0)) with 0 by (unfold edist; simpl; replace ((0 - 0) * (0 - 0) + (0 - 0) * (0 - 0)) with 0 by ring; now rewrite sqrt_0). unfold prob.
    rewrite (proj2 (leb_false (Rabs _) _)); [|unfold Rabs; repeat destruct (Rcase_abs _); lra]. rewrite (proj2 (ltb_iff 0 _)) by lra. rewrite Rplus_0_l. apply Rgt_not_eq, Rdiv_lt_0_compat; [apply exp_pos|]. pose proof PI_RGT_0.
    apply Rmult_lt_0_compat; [lra|]. apply sqrt_lt_R0. lra.
Qed.
Print Assumptions C95_times_refuted.
(** A grid that consists of one row: the second coordinate of its axis does not exist. *)
Theorem C95_one_row_refuted : forall g t pair, 0 < g_res g -> 0 < g_dt g -> 0 < g_x g -> g_y g = 0 -> kernel_row g t pair = Raise IndexError.
Proof.
  intros g t p R D X Y. unfold kernel_row, sensitivity_kernel. rewrite (proj2 (leb_false (g_dt g) 0)) by assumption. unfold xaxis. rewrite axis_even by lra. simpl. unfold yaxis. rewrite Y, axis_one by assumption. reflexivity.
Qed.
Print Assumptions C95_one_row_refuted.
(** In binary64, axes with a spacing of 0.1 and four points or more are taken for uneven, so that no kernel is computed. *)
Theorem C95_spacing_refuted : forall n, (4 <= n)%nat -> funeven (faxis n tenth) = Ok true.
Proof.
  intros n N. destruct n as [|[|[|[|n]]]]; try lia. unfold faxis.
  change (seq 0 (S (S (S (S n))))) with (0 :: 1 :: 2 :: 3 :: seq 4 n)%nat. cbn [map]. set (r := map _ (seq 4 n)). 
  set (a := fmul (of_Z (Z.of_nat 0)) tenth). set (b := fmul (of_Z (Z.of_nat 1)) tenth). set (c := fmul (of_Z (Z.of_nat 2)) tenth). set (d := fmul (of_Z (Z.of_nat 3)) tenth).
  unfold funeven. cbn [fdiffs existsb]. assert (E : negb (SpecFloat.SFeqb (fsub d c) (fsub b a)) = true) by (vm_compute; reflexivity). rewrite E. rewrite !orb_true_r. reflexivity.
Qed.
Print Assumptions C95_spacing_refuted.
(** With a spacing of one half it works for this number of points. *)
Example C95_example : funeven (faxis 40 half) = Ok false /\ good_grid grid0.
Proof. split; [vm_compute; reflexivity|exact grid0_good]. Qed.

(** ** C96: the uncertainty of a velocity change *)
Theorem C96_defined : forall c bandwidth tw0 tw1 fc, (exists s, data_variance c bandwidth tw0 tw1 fc = Ok s) <-> 0 <= tw0 < tw1 /\ 0 < bandwidth /\ 0 < fc.
Proof. exact variance_fails. Qed.
Print Assumptions C96_defined.
Theorem C96_positive : forall c bandwidth tw0 tw1 fc s, 0 < c < 1 -> data_variance c bandwidth tw0 tw1 fc = Ok s -> 0 < s.
Proof. exact variance_pos. Qed.
Print Assumptions C96_positive.
Theorem C96_coherence : forall c c' bandwidth tw0 tw1 fc s s', 0 < c -> c < c' -> c' <= 1 ->
  data_variance c bandwidth tw0 tw1 fc = Ok s -> data_variance c' bandwidth tw0 tw1 fc = Ok s' -> s' < s.
Proof. exact variance_decreasing. Qed.
Print Assumptions C96_coherence.
(** A window or a band that contains another does not give a larger uncertainty. *)
Theorem C96_window : forall c bandwidth bandwidth' tw0 tw1 tw0' tw1' fc s s', 0 < c <= 1 -> tw0' <= tw0 -> tw1 <= tw1' -> bandwidth <= bandwidth' ->
  data_variance c bandwidth tw0 tw1 fc = Ok s -> data_variance c bandwidth' tw0' tw1' fc = Ok s' -> s' <= s.
Proof. exact variance_window. Qed.
Print Assumptions C96_window.
Example C96_example : exists s s', data_variance (1 / 2) 1 1 2 1 = Ok s /\ data_variance (3 / 4) 1 1 2 1 = Ok s' /\ 0 < s' < s.
Proof.
  destruct (proj2 (C96_defined (1 / 2) 1 1 2 1)) as [s S]; [lra|]. destruct (proj2 (C96_defined (3 / 4) 1 1 2 1)) as [s' S']; [lra|]. exists s, s'. split; [assumption|]. split; [assumption|]. split.
  - eapply C96_positive; [|exact S']. lra.
  - eapply C96_coherence; [| | |exact S|exact S']; lra.
Qed.
