(** C43 - C45: stored velocity changes and the grid of the spatial inversion. *)
From Coq Require Import QArith Qabs Lqa.
From Verif Require Import Lib.Base Lib.Str Model.DVFile Model.Spatial Spec.DVFileSpec Spec.SpatialSpec Proofs.DVFileFacts Proofs.SpatialFacts.
Local Open Scope nat_scope.

(** ** C43 *)
(** A velocity change without scatter arrays, whose header is representable, is read with the same arrays, types and
    header, and with the four numbers of its processing parameters; the other two are equal up to the 0-d array
    they are read as.  Missing: a single time step, scatter arrays, other processing parameters. *)
Theorem C43_round_trip_partial : forall d, header_ok (dv_stats d) -> proc_ok (dv_proc d) ->
  dv_stretches d = None -> dv_corrs d = None -> dv_nstat d = None ->
  exists d', (do f <- save d; read_dv f) = Ok d' /\
    dv_corr d' = dv_corr d /\ dv_value d' = dv_value d /\ dv_type d' = dv_type d /\ dv_sim d' = dv_sim d /\ dv_axis d' = dv_axis d /\
    dv_method d' = dv_method d /\ dv_stats d' = dv_stats d /\ dv_stretches d' = None /\ dv_corrs d' = None /\ dv_nstat d' = None /\
    forall p, dv_proc d = Some p -> p <> [] -> exists p', dv_proc d' = Some p' /\
      (forall k, In k ["freq_min"; "freq_max"; "tw_start"; "tw_len"]%string -> dget p' k = dget p k) /\
      strip (get_p "sides" p' (PStr "unknown")) = strip (get_p "sides" p (PStr "unknown")) /\
      strip (get_p "aligned" p' (PBool false)) = strip (get_p "aligned" p (PBool false)).
Proof.
  intros d H P S C N. rewrite read_save by assumption. eexists. split; [reflexivity|]. rewrite S, C, N. cbn -[read_proc].
  rewrite app_nil_r. do 10 (split; [reflexivity|]). intros p DP NE. rewrite DP in *. exists (read_proc (Some p)). split; [reflexivity|].
  destruct p as [|e p]; [contradiction|]. cbn [proc_ok] in P.
  split; [|split].
  - intros k K. destruct (P k K) as [q E]. rewrite E. cbn in K.
    destruct K as [<-|[<-|[<-|[<-|[]]]]]; unfold read_proc; cbv beta zeta; rewrite E; reflexivity.
  - unfold read_proc. generalize (get_p "sides" (e :: p) (PStr "unknown")). intros a. destruct a; reflexivity.
  - unfold read_proc. generalize (get_p "aligned" (e :: p) (PBool false)). intros a. destruct a; reflexivity.
Qed.
Print Assumptions C43_round_trip_partial.
(** Scatter arrays and, for an averaged velocity change, everything else are read as well, but the first rows of the
    scatter arrays are added to the header. *)
Theorem C43_scatter_partial : forall d, header_ok (dv_stats d) -> proc_ok (dv_proc d) ->
  exists d', (do f <- save d; read_dv f) = Ok d' /\
    dv_corr d' = dv_corr d /\ dv_value d' = dv_value d /\ dv_sim d' = dv_sim d /\ dv_axis d' = dv_axis d /\
    dv_stretches d' = dv_stretches d /\ dv_corrs d' = dv_corrs d /\ dv_nstat d' = dv_nstat d /\
    forall k, In k (map fst (dv_stats d)) -> dget (dv_stats d') k = dget (dv_stats d) k.
Proof.
  intros d H P. rewrite read_save by assumption. eexists. split; [reflexivity|]. cbn [dv_corr dv_value dv_sim dv_axis dv_stretches dv_corrs dv_nstat dv_stats].
  do 7 (split; [reflexivity|]). intros k I. rewrite dget_app. destruct (dget (dv_stats d) k) eqn:E; [reflexivity|].
  exfalso. revert I E. generalize (dv_stats d). induction l as [|[k' v] r IH]; cbn; [contradiction|].
  destruct (String.eqb_spec k k'); [discriminate|]. intros [->|I]; [contradiction|]. auto.
Qed.
Print Assumptions C43_scatter_partial.
Definition C43_dv : dv :=
  mkDV [[1 # 2; 1 # 3; 1]%Q] [[0; 1 # 100; 2 # 100]%Q] "stretch" [[]] [[-1; 0; 1]%Q] "stretch"
    [("network", HScalar "AA-BB"); ("corr_start", HTimes [0; 10; 20]%Z); ("corr_end", HTimes [10; 20; 30]%Z); ("starttime", HTime 0)]%string
    None None None (Some [("freq_min", PNum 1); ("freq_max", PNum 2); ("tw_start", PNum 5); ("tw_len", PNum 50)])%string.
Ltac find_in := repeat first [apply NoDup_nil | apply NoDup_cons; [cbn; intuition discriminate|]].
Example C43_example : header_ok (dv_stats C43_dv) /\ proc_ok (dv_proc C43_dv) /\
  (do f <- save C43_dv; do d <- read_dv f; Ok (dv_stats d)) = Ok (dv_stats C43_dv).
Proof.
  split; [|split].
  - split; [cbn; find_in|]. repeat constructor; cbn; try discriminate; auto.
  - cbn. intros k K. intuition (subst; eexists; reflexivity).
  - vm_compute. reflexivity.
Qed.

(** With a single time step the lists of times are read as times. *)
Theorem C43_single_step_refuted : forall d t, header_ok (dv_stats d) -> proc_ok (dv_proc d) -> dget (dv_stats d) "corr_start" = None ->
  exists d', (do f <- save (mkDV (dv_corr d) (dv_value d) (dv_type d) (dv_sim d) (dv_axis d) (dv_method d)
                              (("corr_start"%string, HTimes [t]) :: dv_stats d) (dv_stretches d) (dv_corrs d) (dv_nstat d) (dv_proc d));
              read_dv f) = Ok d' /\ dget (dv_stats d') "corr_start" = Some (HTime t).
Proof.
  intros d t [N F] P D.
  assert (SV : forall h1 h2, save_header h1 = save_header h2 ->
    save (mkDV (dv_corr d) (dv_value d) (dv_type d) (dv_sim d) (dv_axis d) (dv_method d) h1 (dv_stretches d) (dv_corrs d) (dv_nstat d) (dv_proc d)) =
    save (mkDV (dv_corr d) (dv_value d) (dv_type d) (dv_sim d) (dv_axis d) (dv_method d) h2 (dv_stretches d) (dv_corrs d) (dv_nstat d) (dv_proc d))).
  { intros h1 h2 E. unfold save. cbn [dv_stats dv_proc dv_corr dv_value dv_type dv_sim dv_axis dv_method dv_stretches dv_corrs dv_nstat]. rewrite E. reflexivity. }
  rewrite (SV _ (("corr_start"%string, HTime t) :: dv_stats d)) by reflexivity.
  rewrite read_save; cbn [dv_stats dv_proc].
  - eexists. split; [reflexivity|]. reflexivity.
  - split.
    + cbn [map fst]. constructor; [|exact N]. intros I.
      revert I D. generalize (dv_stats d). clear. induction l as [|[k v] r IH]; cbn [map fst dget In]; [contradiction|].
      destruct (String.eqb_spec "corr_start" k) as [->|NE]; [discriminate|]. intros [->|I]; [contradiction|]. auto.
    + constructor; [|exact F]. repeat split.
  - exact P.
Qed.
Print Assumptions C43_single_step_refuted.

(** An averaged velocity change has a different header after reading. *)
Theorem C43_scatter_refuted : exists d d', header_ok (dv_stats d) /\ proc_ok (dv_proc d) /\ (do f <- save d; read_dv f) = Ok d' /\
  dget (dv_stats d) "stretches" = None /\ dget (dv_stats d') "stretches" <> None.
Proof.
  exists (mkDV [[1]%Q] [[0]%Q] "stretch" [[]] [[0]%Q] "stretch" [("network", HScalar "AA")]%string (Some [[0; 1]%Q]) None None None).
  eexists. split; [|split; [|split; [vm_compute; reflexivity|split; [reflexivity|discriminate]]]].
  - split; [cbn; find_in|]. repeat constructor.
  - exact I.
Qed.
Print Assumptions C43_scatter_refuted.
(** An entry None of the header (e.g. unknown coordinates) makes the file unreadable. *)
Theorem C43_object_refuted : forall d k, ~ In k (map fst (dv_stats d)) -> header_ok (dv_stats d) -> proc_ok (dv_proc d) ->
  mem k t_keys = false -> mem k no_stats = false -> is_prefix "reftr" k = false -> mem k ["stretches"; "corrs"; "n_stat"]%string = false ->
  exists f, save (mkDV (dv_corr d) (dv_value d) (dv_type d) (dv_sim d) (dv_axis d) (dv_method d)
                    ((k, HObj) :: dv_stats d) (dv_stretches d) (dv_corrs d) (dv_nstat d) (dv_proc d)) = Ok f /\
            read_dv f = Raise ValueError.
Proof. exact object_unreadable. Qed.
Print Assumptions C43_object_refuted.
(** Processing parameters without the frequencies cannot be saved: this happens to a velocity change computed without
    processing parameters after it was aligned. *)
Theorem C43_aligned_refuted : forall d h q, save_header (dv_stats d) = Ok h -> dv_proc d = Some [("aligned"%string, PNum q)] ->
  save d = Raise KeyError.
Proof. intros d h q H P. unfold save. rewrite H, P. reflexivity. Qed.
Print Assumptions C43_aligned_refuted.

(** ** C44 *)
(** If the model predicts a value for each of the curves and they share one lapse time window, each curve that was not
    aligned before and is available is moved as a whole such that its weighted mean at the time is the value
    predicted for it (0 without a model); it is recorded as aligned, and the record of other curves is unchanged.
    Missing: skipped curves, different windows, curves read from files, for which this is false. *)
Theorem C44_own_shift_partial : forall vel flags dvs utc steps thres tw flags' out,
  (vel <> None -> Forall (fun c => usable c utc = true /\ c_tw c = Some tw) (selected flags dvs utc thres)) ->
  (0 < thres)%Q -> Forall well_formed dvs ->
  align_dvs vel flags dvs utc steps thres = Ok (flags', out) ->
  Forall2 (fun c c' => aligned_to (target vel tw c) utc steps c c') (selected flags dvs utc thres) out /\
  (NoDup (map c_proc (selected flags dvs utc thres)) -> forall c, In c (selected flags dvs utc thres) -> flags' (c_proc c) = FShift (target vel tw c)) /\
  (forall c, In c (selected flags dvs utc thres) -> not_aligned (flags' (c_proc c)) = false) /\
  (forall k, ~ In k (map c_proc (selected flags dvs utc thres)) -> flags' k = flags k).
Proof. exact align_dvs_ok. Qed.
Print Assumptions C44_own_shift_partial.
(** A curve that was aligned is never changed again. *)
Theorem C44_not_twice : forall vel flags dvs utc steps thres,
  (forall c, In c dvs -> not_aligned (flags (c_proc c)) = false) -> align_dvs vel flags dvs utc steps thres = Ok (flags, []).
Proof.
  intros vel flags dvs utc steps thres H. rewrite align_dvs_eq.
  replace (selected flags dvs utc thres) with (@nil curve); [reflexivity|]. unfold selected.
  induction dvs as [|c r IH]; [reflexivity|]. cbn. rewrite (H c) by now left. apply IH. intros. apply H. now right.
Qed.
Print Assumptions C44_not_twice.

Definition six {A} (x : A) : list A := [x; x; x; x; x; x].
Definition C44_times : list Z := [0; 10; 20; 30; 40; 50]%Z.
Definition C44_ends : list Z := [10; 20; 30; 40; 50; 60]%Z.
Definition C44_curve (proc : nat) (v k : Q) (tw : Q) : curve :=
  mkC proc C44_times C44_ends (six (Some v)) (six (Some k)) proc (Some tw).
Definition C44_fwd (pair : nat) (tw : Q) : Q := (inject_Z (Z.of_nat pair) + tw)%Q.
Lemma C44_curve_ok proc v k tw : (0 <= k)%Q -> well_formed (C44_curve proc v k tw).
Proof. intros K. repeat split; repeat constructor; exact K. Qed.
Example C44_example :
  let dvs := [C44_curve 1 3 (1 # 2) 0; C44_curve 2 5 (1 # 2) 0] in
  Forall well_formed dvs /\ selected (fun _ => FMissing) dvs 22 (1 # 10) = dvs /\
  Forall (fun c => usable c 22 = true /\ c_tw c = Some 0%Q) dvs /\
  match align_dvs (Some C44_fwd) (fun _ => FMissing) dvs 22 1 (1 # 10) with
  | Ok (_, [a; b]) => map (option_map Qred) (c_value a) = six (Some 1%Q) /\ map (option_map Qred) (c_value b) = six (Some 2%Q)
  | _ => False
  end.
Proof.
  cbv zeta. split; [repeat constructor; discriminate|]. split; [reflexivity|].
  split; [repeat (constructor; [split; reflexivity|]); constructor|]. vm_compute. split; reflexivity.
Qed.

(** A curve that the model skips (here because of a coherence of 1) gets the value of the next curve, and the last
    curve is not moved. *)
Theorem C44_skipped_refuted : exists flags' a b c a' b' c',
  let dvs := [a; b; c] in
  Forall well_formed dvs /\ selected (fun _ => FMissing) dvs 22 (1 # 10) = dvs /\ Forall (fun c => c_tw c = Some 0%Q) dvs /\
  align_dvs (Some C44_fwd) (fun _ => FMissing) dvs 22 1 (1 # 10) = Ok (flags', [a'; b'; c']) /\
  aligned_to (target (Some C44_fwd) 0 c) 22 1 b b' /\ ~ aligned_to (target (Some C44_fwd) 0 b) 22 1 b b' /\
  c' = c /\ ~ aligned_to (target (Some C44_fwd) 0 c) 22 1 c c'.
Proof.
  eexists _, (C44_curve 1 3 (1 # 2) 0), (C44_curve 2 5 1 0), (C44_curve 3 7 (1 # 2) 0), _, _, _. cbv zeta.
  split; [repeat constructor; discriminate|]. split; [vm_compute; reflexivity|]. split; [repeat constructor|].
  split; [lazy -[Qplus Qminus Qdiv Qmult Qopp Qinv set_flag C44_fwd]; reflexivity|].
  split; [split; [exists 2%Q|vm_compute; reflexivity]|].
  - do 6 (split; [reflexivity|]). repeat (constructor; [vm_compute; reflexivity|]). constructor.
  - split; [intros [_ H]; vm_compute in H; discriminate|]. split; [reflexivity|]. intros [_ H]. vm_compute in H. discriminate.
Qed.
Print Assumptions C44_skipped_refuted.

(** The lapse time window of the last curve is used for all of them. *)
Theorem C44_window_refuted : exists flags' a b a' b',
  let dvs := [a; b] in
  Forall well_formed dvs /\ selected (fun _ => FMissing) dvs 22 (1 # 10) = dvs /\ Forall (fun c => usable c 22 = true) dvs /\
  c_tw a = Some 0%Q /\ c_tw b = Some 10%Q /\
  align_dvs (Some C44_fwd) (fun _ => FMissing) dvs 22 1 (1 # 10) = Ok (flags', [a'; b']) /\
  ~ aligned_to (target (Some C44_fwd) 0 a) 22 1 a a'.
Proof.
  eexists _, (C44_curve 1 3 (1 # 2) 0), (C44_curve 2 5 (1 # 2) 10), _, _. cbv zeta.
  split; [repeat constructor; discriminate|]. split; [vm_compute; reflexivity|]. split; [repeat constructor|].
  do 2 (split; [reflexivity|]).
  split; [lazy -[Qplus Qminus Qdiv Qmult Qopp Qinv set_flag C44_fwd]; reflexivity|].
  intros [_ H]. vm_compute in H. discriminate.
Qed.
Print Assumptions C44_window_refuted.

(** A velocity change with processing parameters that was never aligned is not aligned any more once it was saved and
    read. *)
Theorem C44_loaded_refuted : forall d e p, header_ok (dv_stats d) -> dv_proc d = Some (e :: p) -> proc_ok (dv_proc d) ->
  flag_of (e :: p) = FMissing ->
  exists d' p', (do f <- save d; read_dv f) = Ok d' /\ dv_proc d' = Some p' /\
    forall vel flags c utc steps thres, flags (c_proc c) = flag_of p' -> align_dvs vel flags [c] utc steps thres = Ok (flags, []).
Proof.
  intros d e p H DP P M. rewrite read_save by assumption. eexists _, _. split; [reflexivity|]. split; [reflexivity|].
  intros vel flags c utc steps thres F. apply C44_not_twice. intros c0 [<-|[]]. rewrite F, DP.
  unfold read_proc, flag_of in *. unfold get_p. destruct (dget (e :: p) "aligned"%string) as [v|] eqn:E; [|reflexivity].
  destruct v as [| | [] |]; discriminate.
Qed.
Print Assumptions C44_loaded_refuted.
(** Two velocity changes that were computed without processing parameters share one dictionary (the default argument of
    DV): once the first is aligned, the second is treated as aligned. *)
Theorem C44_shared_refuted : exists flags' a b a',
  Forall well_formed [a; b] /\ c_proc a = c_proc b /\
  align_dvs None (fun _ => FMissing) [a] 22 1 (1 # 10) = Ok (flags', [a']) /\
  selected (fun _ => FMissing) [b] 22 (1 # 10) = [b] /\
  align_dvs None flags' [b] 22 1 (1 # 10) = Ok (flags', []).
Proof.
  eexists _, (C44_curve 1 3 (1 # 2) 0), (C44_curve 1 5 (1 # 2) 0), _.
  split; [repeat constructor; discriminate|]. split; [reflexivity|].
  split; [lazy -[Qplus Qminus Qdiv Qmult Qopp Qinv set_flag]; reflexivity|]. split; [vm_compute; reflexivity|].
  apply C44_not_twice. intros c [<-|[]]. reflexivity.
Qed.
Print Assumptions C44_shared_refuted.

(** ** C45 *)
(** The cell that is returned is a nearest one. *)
Theorem C45_nearest : forall cells res x y i, find_coord cells res x y = Ok i -> nearest cells x y i.
Proof. exact find_coord_ok. Qed.
Print Assumptions C45_nearest.
Theorem C45_nearest_array : forall cells res pts l, find_coords cells res pts = Ok l ->
  Forall2 (fun p i => nearest cells (fst p) (snd p) i) pts l.
Proof. exact find_coords_ok. Qed.
Print Assumptions C45_nearest_array.
(** A point of the area of the grid is found, at most half a cell from the centre of the cell in both directions. *)
Theorem C45_inside : forall ex ey res x y, (0 < res)%Q -> (0 <= x)%Q -> (x <= ex)%Q -> (0 <= y)%Q -> (y <= ey)%Q ->
  exists i a b, find_coord (mesh (arange ex res) (arange ey res)) res x y = Ok i /\
    nth_error (mesh (arange ex res) (arange ey res)) i = Some (a, b) /\
    (Qabs (a - x) <= res / 2)%Q /\ (Qabs (b - y) <= res / 2)%Q.
Proof. exact find_coord_inside. Qed.
Print Assumptions C45_inside.
(** A point is refused exactly if it is west or south of the corner, or farther than one cell from the grid in x.
    Missing: points north of the grid. *)
Theorem C45_refused_partial : forall ex ey res x y, (0 < res)%Q -> (0 <= ex)%Q -> (0 <= ey)%Q ->
  (find_coord (mesh (arange ex res) (arange ey res)) res x y = Raise ValueError <->
   (x < 0)%Q \/ (y < 0)%Q \/ far res (arange ex res) x).
Proof.
  intros ex ey res x y R X Y. apply find_coord_fails.
  - lra.
  - exact (proj1 (arange_zero ey res R Y)).
  - exact (proj2 (arange_zero ex res R X)).
Qed.
Print Assumptions C45_refused_partial.
(** An array of points is refused exactly if one is west or south of the corner, or all are too far in x, or all are too
    far in y. *)
Theorem C45_refused_array_partial : forall cells res pts, cells <> [] ->
  ((exists e, find_coords cells res pts = Raise e) <->
   (exists p, In p pts /\ ((fst p < 0)%Q \/ (snd p < 0)%Q)) \/
   (forall p, In p pts -> far res (map fst cells) (fst p)) \/ (forall p, In p pts -> far res (map snd cells) (snd p))).
Proof. exact find_coords_fails. Qed.
Print Assumptions C45_refused_array_partial.
(** No point is ever refused for being too far north. *)
Theorem C45_north_refuted : forall ex ey res x y, (0 < res)%Q -> (0 <= ey)%Q -> (0 <= x)%Q -> (x <= ex)%Q -> (0 <= y)%Q ->
  exists i, find_coord (mesh (arange ex res) (arange ey res)) res x y = Ok i.
Proof.
  intros ex ey res x y R EY X0 X1 Y. destruct (find_coord (mesh (arange ex res) (arange ey res)) res x y) as [i|e] eqn:E; [eauto|].
  exfalso. assert (e = ValueError) as ->.
  { unfold find_coord in E. destruct (_ || _); [congruence|]. destruct (_ || _); [congruence|].
    destruct (map (sqdist x y) (mesh (arange ex res) (arange ey res))); cbn in E; congruence. }
  apply C45_refused_partial in E; [|lra|lra|lra]. destruct E as [H|[H|H]]; [lra|lra|].
  destruct (arange_near ex res x R X0 X1) as (a & A & B). specialize (H a A).
  assert (Hr : (res / 2 == (1 # 2) * res)%Q) by field. lra.
Qed.
Print Assumptions C45_north_refuted.
(** a grid of 10 by 10 km with cells of 2 km, and a point 1000 km north of it *)
Example C45_north_example :
  let ys := arange 10 2 in far 2 ys 1000 /\ find_coord (mesh (arange 10 2) ys) 2 5 1000 = Ok 32.
Proof. cbv zeta. split; [|vm_compute; reflexivity]. intros a I. cbn in I. repeat (destruct I as [<-|I]; [vm_compute; reflexivity|]). contradiction. Qed.
(** A point slightly west of the grid is refused. *)
Theorem C45_west_refuted : exists x y, ~ far 2 (arange 10 2) x /\ ~ far 2 (arange 10 2) y /\
  find_coord (mesh (arange 10 2) (arange 10 2)) 2 x y = Raise ValueError.
Proof.
  exists (-(1 # 10))%Q, 5%Q. split; [|split; [|vm_compute; reflexivity]].
  - intros F. specialize (F 0%Q). assert (I : In 0%Q (arange 10 2)) by (vm_compute; auto). specialize (F I). vm_compute in F. discriminate.
  - intros F. specialize (F 4%Q). assert (I : In 4%Q (arange 10 2)) by (vm_compute; auto). specialize (F I). vm_compute in F. discriminate.
Qed.
Print Assumptions C45_west_refuted.
(** In an array a point outside the grid is accepted if another one is inside. *)
Theorem C45_array_refuted : exists p q l, far 2 (arange 10 2) (fst q) /\ far 2 (arange 10 2) (snd q) /\
  find_coords (mesh (arange 10 2) (arange 10 2)) 2 [p; q] = Ok l.
Proof.
  exists (5, 5)%Q, (1000, 1000)%Q. eexists.
  assert (F : far 2 (arange 10 2) 1000).
  { intros a I. cbn in I. repeat (destruct I as [<-|I]; [vm_compute; reflexivity|]). contradiction. }
  split; [exact F|]. split; [exact F|]. vm_compute. reflexivity.
Qed.
Print Assumptions C45_array_refuted.
