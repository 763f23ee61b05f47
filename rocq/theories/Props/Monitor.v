(** C32 - C35: files used by the monitor, averages of velocity changes, shifting of a curve. *)
From Coq Require Import QArith Lqa.
From Verif Require Import Lib.Base Lib.Str Model.CorrStream Model.MonitorFiles Model.DVs
  Spec.LagSpec Spec.MonitorSpec Spec.DVSpec Proofs.MonitorFilesFacts Proofs.DVFacts.
Local Open Scope string_scope.
Local Open Scope nat_scope.

(** ** C32 *)
(** A folder of dv files in which no network-station combination is a prefix of another one, "av" occurs only
    in labels of averages and no wildcards occur: the loop ends, it averages exactly the groups of the
    specification, and each file is used at most once.  Missing: other folders, for which it is false. *)
Theorem C32_groups_partial : forall readable s m xs, input_ok xs -> names_method s m ->
  exists groups, components_average readable (length xs) s (map path xs) = Ok (Some groups) /\
    (forall g, In g groups <-> to_average readable m xs g) /\ NoDup (concat groups).
Proof.
  intros readable s m xs IO N. unfold components_average. rewrite (parse_named s m N).
  exact (av_loop_spec readable m (length xs) xs [] IO (le_n _)).
Qed.
Print Assumptions C32_groups_partial.
(** Any other name is refused before a file is touched. *)
Theorem C32_method_refused : forall readable fuel s files, (forall m, ~ names_method s m) ->
  components_average readable fuel s files = Raise ValueError.
Proof. intros readable fuel s files N. unfold components_average. now rewrite (parse_unnamed s N). Qed.
Print Assumptions C32_method_refused.
Example C32_method_example : names_method "autocomponents" AutoComponents /\ names_method "BetweenStations" CrossStations /\
  forall m, ~ names_method "allComponents" m.
Proof.
  split; [|split].
  - exists "AutoComponents". split; [now left|reflexivity].
  - exists "betweenStations". split; [cbn; auto 9|reflexivity].
  - intros m (n & I & E). cbn in I. decompose [or] I; try contradiction;
      match goal with H : (_, _) = (n, m) |- _ => injection H as <- <-; discriminate end.
Qed.

(** Combinations of one length satisfy the prefix condition. *)
Theorem C32_same_length : forall n xs, (forall x, In x xs -> String.length (pair_of x) = n) -> prefix_free xs.
Proof. exact prefix_free_same_length. Qed.
Print Assumptions C32_same_length.

Definition folder : list dvfile :=
  [mkF "dv/DV-N-N" "A" "A" (Components "Z" "Z"); mkF "dv/DV-N-N" "A" "A" (Components "N" "N");
   mkF "dv/DV-N-N" "A" "A" (Components "Z" "N"); mkF "dv/DV-N-N" "A" "B" (Components "Z" "Z");
   mkF "dv/DV-N-N" "B" "B" (Components "Z" "Z"); mkF "dv/DV-N-N" "B" "B" (Averaged "av-auto")].
Example C32_groups_example :
  input_ok folder /\
  components_average (fun _ => true) 6 "AutoComponents" (map path folder) =
    Ok (Some [["dv/DV-N-N.A-A.Z-Z.npz"; "dv/DV-N-N.A-A.N-N.npz"]]).
Proof.
  split; [|vm_compute; reflexivity]. split.
  - cbn. repeat constructor; cbn; intuition discriminate.
  - intros x [<-|[<-|[<-|[<-|[<-|[<-|[]]]]]]]; repeat split; cbn; auto.
  - intros x [<-|[<-|[<-|[<-|[<-|[<-|[]]]]]]]; repeat split.
  - intros x [<-|[<-|[<-|[<-|[<-|[<-|[]]]]]]]; reflexivity.
  - apply (prefix_free_same_length 13). intros x [<-|[<-|[<-|[<-|[<-|[<-|[]]]]]]]; reflexivity.
Qed.

(** Station codes B and BC: the results of the pairs A-B and A-BC are averaged together. *)
Theorem C32_pairs_mixed_refuted : exists xs g x y,
  components_average (fun _ => true) (length xs) "CrossStations" (map path xs) = Ok (Some [g]) /\
  In x xs /\ In y xs /\ In (path x) g /\ In (path y) g /\ pair_of x <> pair_of y /\ Forall file_ok xs /\ Forall no_av xs.
Proof.
  set (x := mkF "dv/DV-N-N" "A" "B" (Components "Z" "Z")). set (y := mkF "dv/DV-N-N" "A" "BC" (Components "Z" "Z")).
  exists [x; y], [path x; path y], x, y. repeat split; try (vm_compute; reflexivity); try (now left); try (right; now left).
  - discriminate.
  - repeat constructor.
  - repeat constructor.
Qed.
Print Assumptions C32_pairs_mixed_refuted.

(** "av" somewhere in the path of the project: nothing is averaged. *)
Theorem C32_path_with_av_refuted : exists xs,
  components_average (fun _ => true) (length xs) "AutoComponents" (map path xs) = Ok (Some []) /\
  to_average (fun _ => true) AutoComponents xs (map path xs) /\ Forall file_ok xs.
Proof.
  exists [mkF "java/DV-N-N" "A" "A" (Components "Z" "Z"); mkF "java/DV-N-N" "A" "A" (Components "N" "N")].
  split; [vm_compute; reflexivity|]. split; [|repeat constructor].
  exists "java/DV-N-N.A-A". split; [vm_compute; reflexivity|]. split; [cbn; lia|].
  intros x [<-|[<-|[]]] _; reflexivity.
Qed.
Print Assumptions C32_path_with_av_refuted.

(** Stations of the same name in two networks: their cross-correlations are averaged as autocorrelations. *)
Theorem C32_networks_ignored_refuted : exists xs,
  components_average (fun _ => true) (length xs) "AutoComponents" (map path xs) = Ok (Some [map path xs]) /\
  map where_ xs = ["dv/DV-N-M"; "dv/DV-N-M"].
Proof.
  exists [mkF "dv/DV-N-M" "A" "A" (Components "Z" "Z"); mkF "dv/DV-N-M" "A" "A" (Components "N" "N")].
  split; vm_compute; reflexivity.
Qed.
Print Assumptions C32_networks_ignored_refuted.

(** A file with brackets in its name: the loop does not end. *)
Theorem C32_endless_refuted : exists files, forall readable m fuel,
  av_loop readable fuel m files [] = Ok None.
Proof.
  exists ["dv/DV-N-N.A-A[1].Z-Z.npz"]. intros readable m.
  assert (ST : av_step readable m ["dv/DV-N-N.A-A[1].Z-Z.npz"] = Ok (["dv/DV-N-N.A-A[1].Z-Z.npz"], [])) by (vm_compute; reflexivity).
  induction fuel as [|fuel IH]; [reflexivity|].
  change (av_loop readable (S fuel) m ["dv/DV-N-N.A-A[1].Z-Z.npz"] []) with
    (do r <- av_step readable m ["dv/DV-N-N.A-A[1].Z-Z.npz"]; av_loop readable fuel m (fst r) ([] ++ snd r)%list).
  rewrite ST. exact IH.
Qed.
Print Assumptions C32_endless_refuted.

(** ** C33 *)
(** DVs in which each time step was measured completely or not at all, the first of which is no average.
    Missing: partly measured time steps and lists that begin with an average, for which it is false. *)
Theorem C33_same_average_partial : forall rows cols d0 l, 0 < rows ->
  (forall d, In d (d0 :: l) -> dv_shape rows cols d /\ complete rows cols d) -> is_av d0 = false ->
  same_outcome (average_components (d0 :: l)) (average_mem_save (d0 :: l)).
Proof. exact averages_agree. Qed.
Print Assumptions C33_same_average_partial.

Definition q (z : Z) : sample := Some (inject_Z z).
Definition dv_of (cha : string) (corr value : list sample) (sim : list (list sample)) : dv :=
  mkDV corr value sim [0%Q; 1%Q] "m" "N-N" "A-A" cha [0; 1]%Z [1; 2]%Z.
Definition dv_a := dv_of "Z-Z" [q 3; None] [q 0; None] [[q 3; q 1]; [None; None]].
Definition dv_b := dv_of "N-N" [q 7; q 2] [q 1; q 1] [[q 5; q 7]; [q 1; q 2]].
(** the second dv lacks one similarity *)
Definition dv_c := dv_of "N-N" [q 7; q 2] [q 1; q 1] [[None; q 7]; [q 1; q 2]].
Example C33_same_average_example :
  (forall d, In d [dv_a; dv_b] -> dv_shape 2 2 d /\ complete 2 2 d) /\ is_av dv_a = false /\
  (exists a, average_components [dv_a; dv_b] = Ok a /\ a_n a = [2; 1] /\ a_cha a = "av" /\ a_net a = "N-N" /\
             a_value a = [Some 0%Q; Some 1%Q] /\ map (map (option_map Qred)) (a_sim a) = [[q 4; q 4]; [q 1; q 2]]).
Proof.
  split.
  - intros d [<-|[<-|[]]].
    + split; [split; try reflexivity; intros r [<-|[<-|[]]]; reflexivity|].
      intros i I. destruct i as [|[|i]]; [| |lia].
      * left. split; [discriminate|]. split; [discriminate|]. intros j J. destruct j as [|[|j]]; [discriminate..|lia].
      * right. split; [reflexivity|]. split; [reflexivity|]. intros j J. destruct j as [|[|j]]; [reflexivity..|lia].
    + split; [split; try reflexivity; intros r [<-|[<-|[]]]; reflexivity|].
      intros i I. left. destruct i as [|[|i]]; [| |lia];
        (split; [discriminate|]; split; [discriminate|]; intros j J; destruct j as [|[|j]]; [discriminate..|lia]).
  - split; [reflexivity|]. eexists. split; [vm_compute; reflexivity|]. repeat split.
Qed.

(** One missing similarity value: the averages differ, in the similarity and in the reported change. *)
Theorem C33_partly_measured_refuted : exists l a b,
  average_components l = Ok a /\ average_mem_save l = Ok b /\ ~ same_average a b /\ a_value a <> a_value b.
Proof.
  exists [dv_of "Z-Z" [q 6; q 2] [q 1; q 1] [[q 5; q 6]; [q 1; q 2]]; dv_of "N-N" [q 4; q 2] [q 0; q 1] [[q 4; None]; [q 1; q 2]]].
  eexists. eexists. split; [vm_compute; reflexivity|]. split; [vm_compute; reflexivity|].
  assert (V : forall x y : list sample, nth 0 x None <> nth 0 y None -> x <> y) by congruence.
  split; [intros [_ _ H _ _ _ _]; revert H|]; apply V; cbn; discriminate.
Qed.
Print Assumptions C33_partly_measured_refuted.

(** A list that begins with an average: the header of the skipped average is used. *)
Theorem C33_first_is_average_refuted : exists l a b,
  average_components l = Ok a /\ average_mem_save l = Ok b /\ a_cha a = "Z-Z" /\ a_cha b = "av".
Proof.
  exists [dv_of "av-auto" [q 3; None] [q 0; None] [[q 3; q 1]; [None; None]]; dv_a].
  eexists. eexists. split; [vm_compute; reflexivity|]. split; [vm_compute; reflexivity|]. split; reflexivity.
Qed.
Print Assumptions C33_first_is_average_refuted.

(** ** C34 *)
(** Two wildcard strings: exactly the matching files. *)
Theorem C34_strings_partial : forall p r listing name,
  returned (FStr p) (FStr r) listing name <->
  In name listing /\ globbed name = true /\ to_be_used (FStr p) (FStr r) name.
Proof. exact find_strings. Qed.
Print Assumptions C34_strings_partial.

(** At most one list: nothing is returned that does not match. *)
Theorem C34_sound_partial : forall net sta listing name,
  (forall l k, ~ (net = FList l /\ sta = FList k)) ->
  returned net sta listing name -> to_be_used net sta name.
Proof. exact find_sound. Qed.
Print Assumptions C34_sound_partial.

(** At most one list: autocorrelations are selected exactly. *)
Theorem C34_autocorrelations_partial : forall net sta listing name n0 s0 rest,
  (forall l k, ~ (net = FList l /\ sta = FList k)) ->
  In name listing -> globbed name = true -> split_on "." name = (n0 ++ "-" ++ n0) :: (s0 ++ "-" ++ s0) :: rest ->
  has_char "-" n0 = false -> has_char "-" s0 = false ->
  (returned net sta listing name <-> matches net n0 /\ matches sta s0).
Proof. exact find_auto. Qed.
Print Assumptions C34_autocorrelations_partial.

(** What is returned in general. *)
Theorem C34_returned : forall net sta listing name,
  returned net sta listing name <->
  In name listing /\ globbed name = true /\
  exists n s rest, split_on "." name = n :: s :: rest /\ match_together net (split_on "-" n) /\
    (match_together sta (split_on "-" s) \/ (exists l k, net = FList l /\ sta = FList k)).
Proof. exact returned_iff. Qed.
Print Assumptions C34_returned.

(** A list of stations misses the pair of two of its stations. *)
Theorem C34_station_list_refuted : exists listing name,
  In name listing /\ globbed name = true /\ to_be_used (FStr "N") (FList ["A"; "B"]) name /\
  corr_find_filter (FStr "N") (FList ["A"; "B"]) listing = [].
Proof.
  exists ["N-N.A-B.h5"], "N-N.A-B.h5". split; [now left|]. split; [vm_compute; reflexivity|]. split; [|vm_compute; reflexivity].
  exists "N-N", "A-B", ["h5"]. split; [vm_compute; reflexivity|]. split.
  - intros c [<-|[<-|[]]]; vm_compute; reflexivity.
  - intros c [<-|[<-|[]]]; [exists "A"|exists "B"]; (split; [cbn; auto|vm_compute; reflexivity]).
Qed.
Print Assumptions C34_station_list_refuted.

(** If the networks are a list, a list of stations has no effect at all. *)
Theorem C34_station_list_ignored : forall l k k' listing,
  corr_find_filter (FList l) (FList k) listing = corr_find_filter (FList l) (FList k') listing.
Proof. exact find_lists. Qed.
Print Assumptions C34_station_list_ignored.
Theorem C34_two_lists_refuted : exists listing name,
  returned (FList ["N"]) (FList ["A"]) listing name /\ ~ to_be_used (FList ["N"]) (FList ["A"]) name.
Proof.
  exists ["N-N.B-B.h5"], "N-N.B-B.h5". split.
  - exists "N-N", "B-B". vm_compute. now left.
  - intros (n & s & r & E & _ & H). vm_compute in E. injection E as <- <- <-.
    destruct (H "B") as (p & I & M); [vm_compute; auto|]. destruct I as [<-|[]]. vm_compute in M. discriminate.
Qed.
Print Assumptions C34_two_lists_refuted.

Example C34_strings_example :
  corr_find_filter (FStr "N?") (FStr "A*") ["N1-N2.A1-A2.h5"; "N1-N2.A1-B2.h5"; "N1-M2.A1-A2.h5"; "x.txt"] =
  [("N1-N2", "A1-A2", "N1-N2.A1-A2.h5")].
Proof. vm_compute. reflexivity. Qed.

(** ** C35 *)
(** The similarities of a time step are shifted by [r] stretches, where they stay on the axis; correlation
    values are kept; the new value is a stretch with maximal similarity (NaN counts as 0).
    Missing: what enters at the end of the axis (below). *)
Theorem C35_shift_partial : forall rows cols d0 d1 m n d, 0 < rows -> dv_shape rows cols d0 ->
  correct_dv_shift d0 d1 m n = Ok d ->
  exists r, roll_of d0 d1 m n = Ok r /\ d_sim d = roll_matrix r (d_sim d0) /\
    shifted_rows r rows cols (d_sim d0) (d_sim d) /\ dims rows cols (d_sim d) /\
    d_corr d = d_corr d0 /\ length (d_value d) = rows /\
    forall i, i < rows -> exists k v, nth i (d_value d) None = Some v /\ nth_error (d_axis d0) k = Some v /\
      forall j, j < cols -> (val (cell (d_sim d) i j) <= val (cell (d_sim d) i k))%Q.
Proof. exact shift_spec. Qed.
Print Assumptions C35_shift_partial.

(** The measured offset in stretch increments is rounded to the nearest integer. *)
Theorem C35_rounding : forall x, (- (1 # 2) <= inject_Z (round_half_even x) - x <= 1 # 2)%Q.
Proof. exact round_half_even_near. Qed.
Print Assumptions C35_rounding.

(** For every matrix: what enters a time step at the end of the axis are similarities of its neighbour. *)
Theorem C35_neighbours_enter : forall rows cols r m i j, dims rows cols m -> S i < rows -> j < cols ->
  ((Z.of_nat j < r <= Z.of_nat cols)%Z -> cell (roll_matrix r m) (S i) j = cell m i (Z.to_nat (Z.of_nat (cols + j) - r))) /\
  ((- Z.of_nat cols <= r < 0 /\ Z.of_nat cols <= Z.of_nat j - r)%Z ->
     cell (roll_matrix r m) i j = cell m (S i) (Z.to_nat (Z.of_nat j - r - Z.of_nat cols))).
Proof. exact roll_matrix_spill. Qed.
Print Assumptions C35_neighbours_enter.

(** A complete case: the maximum of the first time step ends up in the second one and decides its value. *)
Definition dv_0 : dv :=
  mkDV [q 1; q 1; q 1] [Some 2%Q; Some 2%Q; Some 2%Q] [[q 0; q 0; q 9]; [q 0; q 0; q 1]; [q 0; q 0; q 1]] [0%Q; 1%Q; 2%Q]
       "m" "N-N" "A-A" "Z-Z" [0; 1; 2]%Z [1; 2; 3]%Z.
Definition dv_1 : dv :=
  mkDV [q 1; q 1; q 1] [Some 3%Q; Some 3%Q; Some 3%Q] [[q 0; q 0; q 9]; [q 0; q 0; q 1]; [q 0; q 0; q 1]] [0%Q; 1%Q; 2%Q]
       "m" "N-N" "A-A" "Z-Z" [0; 1; 2]%Z [1; 2; 3]%Z.
Theorem C35_rows_mixed_refuted : exists d0 d1 d, dv_shape 3 3 d0 /\ dv_shape 3 3 d1 /\
  correct_dv_shift d0 d1 Mean 0 = Ok d /\
  cell (d_sim d) 1 0 = q 9 /\ (forall j, j < 3 -> cell (d_sim d0) 1 j <> q 9) /\ nth 1 (d_value d) None = Some 0%Q.
Proof.
  exists dv_0, dv_1. eexists. split; [split; try reflexivity; intros r [<-|[<-|[<-|[]]]]; reflexivity|].
  split; [split; try reflexivity; intros r [<-|[<-|[<-|[]]]]; reflexivity|].
  split; [vm_compute; reflexivity|]. split; [reflexivity|]. split; [|reflexivity].
  intros j J. destruct j as [|[|[|j]]]; [discriminate..|lia].
Qed.
Print Assumptions C35_rows_mixed_refuted.

(** Time steps that were not measured get a value. *)
Theorem C35_unmeasured_gets_value_refuted : exists d0 d1 d, dv_shape 3 3 d0 /\
  correct_dv_shift d0 d1 Mean 0 = Ok d /\
  (forall j, j < 3 -> cell (d_sim d) 2 j = None) /\ nth 2 (d_corr d) None = None /\ nth 2 (d_value d0) None = None /\
  nth 2 (d_value d) None = Some 0%Q.
Proof.
  set (x := mkDV [q 1; q 1; None] [Some 1%Q; Some 1%Q; None] [[q 0; q 1; q 0]; [q 0; q 1; q 0]; [None; None; None]] [0%Q; 1%Q; 2%Q]
       "m" "N-N" "A-A" "Z-Z" [0; 1; 2]%Z [1; 2; 3]%Z).
  exists x, x. eexists. split; [split; try reflexivity; intros r [<-|[<-|[<-|[]]]]; reflexivity|].
  split; [vm_compute; reflexivity|]. split; [|repeat split].
  intros j J. destruct j as [|[|[|j]]]; [reflexivity..|lia].
Qed.
Print Assumptions C35_unmeasured_gets_value_refuted.

(** Two DVs with exactly one common time step cannot be aligned with the default n_overlap = 0. *)
Theorem C35_single_common_step : forall rows cols d0 d1 m i,
  dv_shape rows cols d0 -> dv_shape rows cols d1 -> 2 <= cols ->
  where_true (map (fun p => fst p && snd p) (combine (avail d0) (avail d1))) = [i] ->
  correct_dv_shift d0 d1 m 0 = Raise ValueError.
Proof. exact shift_single_overlap. Qed.
Print Assumptions C35_single_common_step.

Example C35_shift_example : roll_of dv_0 dv_1 Mean 0 = Ok 1%Z /\ roll_of dv_1 dv_0 Mean 0 = Ok (-1)%Z.
Proof. split; vm_compute; reflexivity. Qed.
