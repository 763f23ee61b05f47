(** C81 - C86: waveform coherence. *)
From Coq Require Import Reals Lra QArith Permutation Sorted.
From Verif Require Import Lib.Base Lib.Str Model.Similarity Model.DVFile Model.Wfc Spec.LagSpec Spec.ReferenceSpec Spec.DVFileSpec Spec.WfcSpec
  Proofs.WfcFacts Proofs.WfcGridFacts Proofs.WfcFileFacts.
Local Open Scope nat_scope.

(** ** C81 *)
(** For every side, correlation matrix, list of windows on the traces and list of references: one coherence per reference,
    window and correlation, computed from the samples in the window, missing samples as 0. *)
Theorem C81_values : forall sd n mat tw refs,
  0 < n -> n <> 1 -> Forall (good_window sd n) tw ->
  Forall (fun row => length row = n) mat -> Forall (fun ref => length ref = n) refs ->
  exists r, wfc_multi sd true n n mat tw refs = Ok r /\
    Forall2 (fun ref a => Forall2 (fun w b => Forall2 (fun row v =>
      is_coherence (window_part sd n w row) (window_part sd n w ref) v) mat b) tw a) refs r.
Proof. intros sd n mat tw refs N K W M R. now apply wfc_multi_clean. Qed.
Print Assumptions C81_values.
(** If missing samples are not to be replaced, correlations and references with a missing sample have no coherence. *)
Theorem C81_missing : forall sd n mat tw refs,
  0 < n -> n <> 1 -> Forall (good_window sd n) tw ->
  Forall (fun row => length row = n) mat -> Forall (fun ref => length ref = n) refs ->
  exists r, wfc_multi sd false n n mat tw refs = Ok r /\
    Forall2 (fun ref a => Forall2 (fun w b => Forall2 (fun row v =>
      if complete row && complete ref then is_coherence (window_part sd n w row) (window_part sd n w ref) v else v = None) mat b) tw a) refs r.
Proof. intros sd n mat tw refs N K W M R. now apply wfc_multi_raw. Qed.
Print Assumptions C81_missing.
(** A reference of another length is refused. *)
Theorem C81_length : forall sd rn n mat tw ref, length ref <> n -> compute_wfc sd rn n mat tw ref = Raise AssertionError.
Proof. intros sd rn n mat tw ref H. unfold compute_wfc. now rewrite (proj2 (Nat.eqb_neq _ _) H). Qed.
Print Assumptions C81_length.
Local Open Scope R_scope.
(** What this implies for any coherence: between -1 and 1; 1 for equal series with energy; independent of the amplitude;
    independent of samples outside of the window. *)
Theorem C81_range : forall x y c, length x = length y -> is_coherence x y (Some c) -> -1 <= c <= 1.
Proof. exact coherence_bounded. Qed.
Print Assumptions C81_range.
Theorem C81_identical : forall x v, ~ silent x -> is_coherence x x v -> v = Some 1.
Proof. exact coherence_self. Qed.
Print Assumptions C81_identical.
Theorem C81_amplitude : forall k x y v v', 0 < k -> is_coherence (map (Rmult k) x) y v -> is_coherence x y v' -> v = v'.
Proof. exact coherence_scale. Qed.
Print Assumptions C81_amplitude.
Theorem C81_outside : forall sd n w row row',
  (forall i, (i < n)%nat -> in_window sd n w i = true -> nth i row None = nth i row' None) ->
  window_part sd n w row = window_part sd n w row'.
Proof. exact part_ext. Qed.
Print Assumptions C81_outside.
Local Open Scope nat_scope.
Example C81_example : Forall (good_window Both 5) [[1; 2]%Z] /\
  window_part Both 5 [1; 2]%Z [Some 1; None; Some 7; Some 3; Some 4]%R = [1; 0; 3; 4]%R /\
  window_part LeftSide 5 [1; 2]%Z [Some 1; None; Some 7; Some 3; Some 4]%R = [1; 0]%R /\
  window_part RightSide 5 [1; 2]%Z [Some 1; None; Some 7; Some 3; Some 4]%R = [3; 4]%R /\
  is_coherence [1; 0; 3; 4]%R [0; 0; 6; 8]%R (Some (50 / sqrt (26 * 100)))%R /\ is_coherence [0; 0]%R [1; 2]%R None.
Proof.
  split; [constructor; [|constructor]; split; [|discriminate]; intros t [<-|[<-|[]]]; cbv; split; congruence|].
  split; [reflexivity|]. split; [reflexivity|]. split; [reflexivity|]. split.
  - split; [|split].
    + intros S. assert (X := S 1%R (or_introl eq_refl)). lra.
    + intros S. assert (X := S 6%R ltac:(cbn; tauto)). lra.
    + unfold cosine, inner. cbn [combine map total fst snd]. f_equal; [lra|]. f_equal. f_equal; lra.
  - left. intros v [<-|[<-|[]]]; reflexivity.
Qed.

(** ** C82 *)
(** The averages of a waveform coherence: per reference the mean of its defined values, and the mean of these. *)
Theorem C82_average : forall w, exists v, w_mean (compute_average w) = Some v /\
  Forall2 (fun a m => is_mean (concat a) m) (w_refs w) (w_av (compute_average w)) /\ is_mean (w_av (compute_average w)) v.
Proof.
  intros w. destruct (compute_average_spec w) as (v & E & _ & F). exists v. split; [exact E|]. split; [exact F|].
  unfold compute_average in *. cbn [w_mean w_av] in *. injection E as <-. apply nan_mean_is.
Qed.
Print Assumptions C82_average.
(** Averages of values between -1 and 1 are. *)
Theorem C82_range : forall lo hi l v, (forall x, In (Some x) l -> lo <= x <= hi)%R -> is_mean l (Some v) -> (lo <= v <= hi)%R.
Proof. exact mean_between. Qed.
Print Assumptions C82_range.
(** The average over components with as many references, windows and times: each value is the mean of the defined values of
    the components; station, band and window are theirs. *)
Theorem C82_components : forall w l, Forall (same_layout w) l -> Forall (same_band w) l ->
  exists r, average_wfcs (w :: l) = Ok r /\ w_net r = w_net w /\ w_sta r = w_sta w /\ w_cha r = "av"%string /\ same_band w r /\ same_layout w r /\
    w_mean r = None /\
    forall k i j v0, value_at w k i j v0 -> exists us v, Forall2 (fun x u => value_at x k i j u) (w :: l) us /\ is_mean us v /\ value_at r k i j v.
Proof. exact average_wfcs_spec. Qed.
Print Assumptions C82_components.
(** Different bands or windows are refused. *)
Theorem C82_different : forall w l x, In x l -> ~ same_band w x -> average_wfcs (w :: l) = Raise ValueError.
Proof.
  intros w l x I H. unfold average_wfcs. replace (forallb (same_parameters w) (w :: l)) with false; [reflexivity|].
  symmetry. apply not_true_is_false. rewrite forallb_forall. intros F. apply H, same_parameters_iff, F. now right.
Qed.
Print Assumptions C82_different.
(** Arrays of different shapes are never averaged. *)
Theorem C82_shapes : forall w l r k a x b, average_wfcs (w :: l) = Ok r -> nth_error (w_refs w) k = Some a -> In x l ->
  nth_error (w_refs x) k = Some b -> length a = length b /\ Forall2 (fun u v => length u = length v) a b.
Proof. exact average_shapes. Qed.
Print Assumptions C82_shapes.
(** Of all waveform coherences each is averaged exactly once, with those and only those of the same station, band and
    window; there is one average per station, band and window. *)
Theorem C82_once : forall l, Permutation (concat (groups l)) l.
Proof. exact groups_partition. Qed.
Print Assumptions C82_once.
Theorem C82_members : forall l g, In g (groups l) -> g <> [] /\ forall w v, In w g -> (In v g <-> In v l /\ same_place w v).
Proof. exact groups_members. Qed.
Print Assumptions C82_members.
Theorem C82_separate : forall l i j g h w v,
  nth_error (groups l) i = Some g -> nth_error (groups l) j = Some h -> In w g -> In v h -> same_place w v -> i = j.
Proof. exact groups_distinct. Qed.
Print Assumptions C82_separate.
Definition C82_wfc (sta cha : string) (v : option R) : wfc := mkWfc "AA-AA" sta cha [[[v; Some 1%R]]] 5 50 1 2 [] None.
Example C82_example :
  let a := C82_wfc "A-B" "HHZ-HHZ" (Some 0%R) in let b := C82_wfc "A-B" "HHN-HHN" None in let c := C82_wfc "A-C" "HHZ-HHZ" None in
  groups [a; c; b] = [[a; b]; [c]] /\ same_layout a b /\ same_band a b /\ value_at a 0 0 1 (Some 1%R) /\
  is_mean [Some 0; None; Some 1]%R (Some (1 / 2)%R) /\ is_mean [None; None] None.
Proof.
  cbv zeta. split; [reflexivity|]. split.
  { split; [reflexivity|]. intros [|k] x y A B; cbn in A, B; [|destruct k; discriminate]. injection A as <-. injection B as <-. split; [reflexivity|].
    intros [|i] u v A B; cbn in A, B; [|destruct i; discriminate]. injection A as <-. injection B as <-. reflexivity. }
  split; [repeat split; reflexivity|]. split; [do 2 eexists; repeat split|]. split; [|reflexivity]. split; [discriminate|].
  unfold average. cbn. lra.
Qed.

(** ** C83 *)
(** The grid of waveform coherences has increasing frequencies and lapse times, each of which belongs to one of them. *)
Theorem C83_shape : forall l, let g := wfc_bulk l in
  StronglySorted Qlt (g_freqs g) /\ StronglySorted Qlt (g_times g) /\
  length (g_values g) = length (g_freqs g) /\ (forall row, In row (g_values g) -> length row = length (g_times g)) /\
  (forall f, In f (g_freqs g) -> exists w, In w l /\ exists t, centred w f t) /\
  (forall t, In t (g_times g) -> exists w, In w l /\ exists f, centred w f t).
Proof. exact grid_shape. Qed.
Print Assumptions C83_shape.
(** Each waveform coherence appears with its mean at the centre of its band and window, if no later one is centred there,
    in one place only. *)
Theorem C83_value : forall l1 w l2 f t, centred w f t -> (forall x, In x l2 -> ~ centred x f t) ->
  exists v, at_cell (wfc_bulk (l1 ++ w :: l2)) f t v /\ has_mean w v /\ forall v', at_cell (wfc_bulk (l1 ++ w :: l2)) f t v' -> v' = v.
Proof. exact grid_value. Qed.
Print Assumptions C83_value.
(** Elsewhere the grid is undefined. *)
Theorem C83_empty : forall l f t v, at_cell (wfc_bulk l) f t v -> (forall w, In w l -> ~ centred w f t) -> v = None.
Proof. exact grid_empty. Qed.
Print Assumptions C83_empty.
Definition C83_wfc (start fmin fmax : Q) (m : R) : wfc := mkWfc "AA" "A" "av" [] start 10 fmin fmax [] (Some (Some m)).
Example C83_example : let a := C83_wfc 5 2 4 1 in let b := C83_wfc 0 1 2 (1 / 2) in
  centred a 3 10 /\ ~ centred b 3 10 /\ map Qred (g_freqs (wfc_bulk [a; b])) = [3 # 2; 3]%Q /\ map Qred (g_times (wfc_bulk [a; b])) = [5; 10]%Q /\
  g_values (wfc_bulk [a; b]) = [[Some (1 / 2)%R; None]; [None; Some 1%R]].
Proof. cbv zeta. split; [split; reflexivity|]. split; [intros [H _]; discriminate H|]. repeat split; reflexivity. Qed.

(** ** C84 *)
(** With equal layouts no reference is lost.  Missing: other layouts, for which it is false. *)
Theorem C84_references_partial : forall w l r, Forall (same_layout w) l -> Forall (same_band w) l -> average_wfcs (w :: l) = Ok r ->
  forall x, In x (w :: l) -> length (w_refs x) = length (w_refs r).
Proof.
  intros w l r L B E x I. destruct (average_wfcs_spec w l L B) as (r' & E' & _ & _ & _ & _ & SL & _). assert (r' = r) by congruence. subst r'.
  rewrite <- (proj1 SL). destruct I as [<-|I]; [reflexivity|]. rewrite Forall_forall in L. symmetry. exact (proj1 (L x I)).
Qed.
Print Assumptions C84_references_partial.
(** If the first component has fewer references than another one, the values of the others for the remaining references are
    dropped; in the other order the average fails. *)
Theorem C84_references_refuted : exists a b r, same_band a b /\ average_wfcs [a; b] = Ok r /\
  (exists v, value_at b 1 0 0 (Some v)) /\ (forall i j v, ~ value_at r 1 i j v) /\ average_wfcs [b; a] = Raise KeyError.
Proof.
  exists (mkWfc "N" "S" "C" [[[Some 1%R]]] 5 50 1 2 [] None), (mkWfc "N" "S" "D" [[[Some 1%R]]; [[Some 1%R]]] 5 50 1 2 [] None).
  eexists. split; [repeat split; reflexivity|]. split; [reflexivity|]. split; [do 3 eexists; repeat split|]. split; [|reflexivity].
  intros i j v (a & b & A & _). discriminate A.
Qed.
Print Assumptions C84_references_refuted.
(** Two different bands with the same centre: one of them is not in the grid. *)
Theorem C84_centres_refuted : exists a b m, ~ same_band a b /\ has_mean a (Some m) /\ forall f t, ~ at_cell (wfc_bulk [a; b]) f t (Some m).
Proof.
  exists (C83_wfc 0 2 4 1), (C83_wfc 0 1 5 0), 1%R. split; [intros (_ & _ & H & _); discriminate H|]. split; [reflexivity|].
  intros f t (i & j & f' & t' & row & _ & _ & _ & _ & A & B). cbn in A. destruct i as [|i]; [|destruct i; discriminate]. injection A as <-.
  cbn in B. destruct j as [|j]; [|destruct j; discriminate]. unfold mean_of, C83_wfc in B. cbn in B. injection B as B. apply R1_neq_R0. now symmetry.
Qed.
Print Assumptions C84_centres_refuted.

(** ** C85 *)
(** A waveform coherence whose header is representable is read as it was saved, up to numbers being 0-d arrays.
    Missing: headers with one time step or with other objects. *)
Theorem C85_round_trip_partial : forall w, storable w -> exists w', (do f <- save_wfc w; read_wfc f) = Ok w' /\
  f_refs w' = f_refs w /\ f_stats w' = f_stats w /\ same_numbers (f_av w') (f_av w) /\ same_numbers (f_proc w') (f_proc w) /\
  option_map strip (f_mean w') = option_map strip (f_mean w).
Proof.
  intros w OK. rewrite read_save_wfc by exact OK. eexists. split; [reflexivity|]. cbn [f_refs f_stats f_av f_proc f_mean].
  do 2 (split; [reflexivity|]).
  assert (S : forall l, same_numbers (map (fun kv : string * pval => (fst kv, unwrapped (snd kv))) l) l).
  { intros l. unfold same_numbers. rewrite map_map. apply map_ext. intros [k p]. cbn [fst snd]. now rewrite strip_unwrapped. }
  split; [apply S|]. split; [apply S|]. destruct (f_mean w) as [p|]; [|reflexivity]. cbn [option_map]. now rewrite strip_unwrapped.
Qed.
Print Assumptions C85_round_trip_partial.
Definition C85_wfc (times : list Z) : wfc_obj :=
  mkWO [("reftr_0", [[1 # 2; 1 # 3]%Q]); ("reftr_1", [[1; 0]%Q])]%string [("reftr_0_av", PNum (5 # 12)); ("reftr_1_av", PNum (1 # 2))]%string
    (Some (PNum (11 # 24))) [("network", HScalar "AA-BB"); ("corr_start", HTimes times)]%string
    [("tw_start", PNum 5); ("tw_len", PNum 50); ("freq_min", PNum 1); ("freq_max", PNum 2)]%string.
Lemma C85_storable t u : storable (C85_wfc [t; u]).
Proof.
  split; cbn [f_stats f_refs f_av f_proc C85_wfc].
  - split; [apply distinct_nodup; reflexivity|]. repeat constructor; cbn; discriminate.
  - split; [apply distinct_nodup; reflexivity|]. repeat constructor.
  - split; [apply distinct_nodup; reflexivity|]. repeat constructor.
  - now do 4 eexists.
Qed.
Example C85_example : storable (C85_wfc [0; 10]%Z). Proof. apply C85_storable. Qed.
(** With one time step its time is no longer a list. *)
Theorem C85_single_step_refuted : forall t, exists w', (do f <- save_wfc (C85_wfc [t]); read_wfc f) = Ok w' /\
  dget (f_stats w') "corr_start" = Some (HTime t) /\ dget (f_stats (C85_wfc [t])) "corr_start" = Some (HTimes [t]).
Proof. intros t. eexists. split; [reflexivity|]. split; reflexivity. Qed.
Print Assumptions C85_single_step_refuted.
(** A header with an entry None is written to a file that cannot be read. *)
Theorem C85_object_refuted : forall t u, let w := C85_wfc [t; u] in
  exists f, save_wfc (mkWO (f_refs w) (f_av w) (f_mean w) (("stla", HObj)%string :: f_stats w) (f_proc w)) = Ok f /\ read_wfc f = Raise ValueError.
Proof. intros t u w. eexists. split; reflexivity. Qed.
Print Assumptions C85_object_refuted.

(** A file without a mean is not read. *)
Theorem C85_no_mean : forall f, ~ In "mean"%string (map fst f) -> exists e, read_wfc f = Raise e.
Proof. exact read_no_mean. Qed.
Print Assumptions C85_no_mean.

(** ** C86 *)
(** If each correlation can be prepared, exactly the windows without an error are collected: an error in a window affects no
    other window, band or correlation.  Missing: errors before (false, below). *)
Theorem C86_windows_partial : forall jobs, Forall prepared jobs ->
  exists l, collect jobs = Ok l /\ forall w, In w l <-> exists j b, In j jobs /\ In b (j_bands j) /\ In (Ok w) (snd b).
Proof. exact collect_prepared. Qed.
Print Assumptions C86_windows_partial.
(** One correlation that cannot be read or prepared ends the computation for all. *)
Theorem C86_failed_refuted : forall jobs j e, In j jobs -> j_prepare j = Some e -> exists e', collect jobs = Raise e'.
Proof. exact collect_failed. Qed.
Print Assumptions C86_failed_refuted.
Example C86_example : let a := C83_wfc 5 2 4 1 in let good := mkJob None [(None, [Raise ValueError; Ok a])] in
  prepared good /\ collect [good; good] = Ok [a; a] /\ collect [good; mkJob (Some OSError) []] = Raise OSError.
Proof. cbv zeta. split; [split; [reflexivity|repeat constructor]|]. split; reflexivity. Qed.
