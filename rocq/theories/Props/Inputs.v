(** C47, C52, C58: spectral time series on several processes, stations that are read, options that are handed over. *)
From Coq Require Import Permutation Sorted.
From Verif Require Import Lib.Base Lib.Str Lib.Sorting Model.Spectrogram Model.Stations Spec.SpectrogramSpec Spec.StationSpec
  Proofs.SpectrogramFacts Proofs.StationFacts.
Local Open Scope nat_scope.
Local Open Scope string_scope.

(** ** C47 *)
(** Full statement: for every number of processes the result is the one of a single process.
    Proved if all windows have the same frequency axis and rank 0 computes at least one spectrum;
    without these it fails (C47_rank_zero_refuted, C47_axis_refuted). *)
Theorem C47_same_result_partial : forall (F P : Type) p (streams : list (option (list (Z * outcome F P)))) f w,
  0 < p -> one_axis f streams -> NoDup (map fst (spectra streams)) -> In w (my_windows p 0 streams) -> snd w <> Failed ->
  exists t s, spectrogram p streams = Ok (f, t, s) /\ time_ordered (spectra streams) t s /\ spectrogram 1 streams = Ok (f, t, s).
Proof. intros F P. exact spectrogram_same. Qed.
Print Assumptions C47_same_result_partial.
(** whatever is returned contains every spectrum exactly once, in the order of time *)
Theorem C47_each_window_once : forall (F P : Type) p (streams : list (option (list (Z * outcome F P)))) f t s, 0 < p ->
  spectrogram p streams = Ok (f, t, s) -> time_ordered (spectra streams) t s.
Proof. intros F P. exact spectrogram_content. Qed.
Print Assumptions C47_each_window_once.
(** two windows with the same start time: an exception for every number of processes *)
Theorem C47_same_times : forall (F P : Type) p (streams : list (option (list (Z * outcome F P)))), 0 < p ->
  ~ NoDup (map fst (spectra streams)) -> spectrogram p streams = Raise ValueError.
Proof. intros F P. exact spectrogram_dup. Qed.
Print Assumptions C47_same_times.

(** no data in the stream of rank 0: nothing is returned although other ranks have computed spectra *)
Theorem C47_rank_zero_refuted : exists streams : list (option (list (Z * outcome nat nat))),
  spectrogram 1 streams = Ok (7, [10%Z], [3]) /\ spectrogram 2 streams = Raise ValueError.
Proof. exists [None; Some [(10%Z, Computed 7 3)]]. split; reflexivity. Qed.
Print Assumptions C47_rank_zero_refuted.
(** different sampling rates: the frequency axis that is returned depends on the number of processes *)
Theorem C47_axis_refuted : exists streams : list (option (list (Z * outcome nat nat))),
  spectrogram 1 streams = Ok (8, [10%Z; 20%Z], [3; 4]) /\ spectrogram 2 streams = Ok (7, [10%Z; 20%Z], [3; 4]).
Proof. exists [Some [(10%Z, Computed 7 3)]; Some [(20%Z, Computed 8 4)]]. split; reflexivity. Qed.
Print Assumptions C47_axis_refuted.

Example C47_example :
  let st := [Some [(30%Z, Computed 7 1); (40%Z, Failed)]; None; Some [(10%Z, Computed 7 2)]; Some [(20%Z, Computed 7 3); (25%Z, FailedLate 7)]] in
  one_axis 7 st /\ NoDup (map fst (spectra st)) /\
  spectrogram 3 st = Ok (7, [10; 20; 30]%Z, [2; 3; 1]) /\ spectrogram 1 st = Ok (7, [10; 20; 30]%Z, [2; 3; 1]).
Proof.
  cbv zeta. split; [|split; [|split; reflexivity]].
  - intros w H. cbn in H. repeat (destruct H as [<-|H]; [cbn; auto|]). contradiction.
  - vm_compute. repeat (constructor; [intros H; repeat (destruct H as [H|H]; [discriminate|]); contradiction|]). constructor.
Qed.

(** ** C52 *)
(** exactly the requested pairs *)
Theorem C52_pairs : forall archive N S ps, pairs_of archive (as_value N) (as_value S) = Ok ps ->
  forall p, In p ps <-> exists n s, p = (Str n, Str s) /\ requested archive N S n s.
Proof. exact pairs_requested. Qed.
Print Assumptions C52_pairs.
Theorem C52_refused : forall archive N S, pairs_of archive (as_value N) (as_value S) = Raise ValueError <-> refused N S.
Proof. exact pairs_refused. Qed.
Print Assumptions C52_refused.
(** the only other exception: '*' with a list of networks one of which has no data *)
Theorem C52_no_data : forall archive N S e, pairs_of archive (as_value N) (as_value S) = Raise e -> e <> ValueError ->
  e = FileNotFoundError /\ codes S = ["*"] /\ length (codes N) <> 1 /\
  exists m, In m (codes N) /\ forall f, In f archive -> fnmatch (f_net f) (if String.eqb m "" then "*" else m) = false.
Proof. exact pairs_no_data. Qed.
Print Assumptions C52_no_data.
(** the stations and channels that are read, each once and sorted *)
Theorem C52_stations : forall archive N S comp raw sts,
  find_stations archive (as_value N) (as_value S) (Str comp) = Ok (raw, sts) ->
  NoDup sts /\ StronglySorted (le_rel le2) sts /\ NoDup raw /\
  (forall n s, In (n, s) sts <-> exists pn ps, requested archive N S pn ps /\ fnmatch n pn = true /\ fnmatch s ps = true /\ has_data archive comp n s) /\
  (forall n s c, In (n, s, c) raw <-> exists pn ps f, requested archive N S pn ps /\ In f archive /\ f_net f = n /\ f_sta f = s /\
      c = before_dot (f_cha f) /\ fnmatch n pn = true /\ fnmatch s ps = true /\ fnmatch (f_cha f) ("??" ++ comp ++ ".?") = true).
Proof. exact stations_exact. Qed.
Print Assumptions C52_stations.
(** a setting that is accepted never fails later *)
Theorem C52_total : forall archive N S comp ps, pairs_of archive (as_value N) (as_value S) = Ok ps ->
  exists raw sts, find_stations archive (as_value N) (as_value S) (Str comp) = Ok (raw, sts).
Proof. exact stations_total. Qed.
Print Assumptions C52_total.

(** documented: "All parameters accept wildcards"; a wildcard other than '*' with several networks is refused *)
Theorem C52_wildcard_refuted : forall archive n n' ns, pairs_of archive (Lst (map Str (n :: n' :: ns))) (Str "A*") = Raise ValueError.
Proof. reflexivity. Qed.
Print Assumptions C52_wildcard_refuted.
(** documented: "Use * or ? or None to allow all components" *)
Theorem C52_component_none_refuted : forall archive n s, String.eqb n "*" = false -> find_stations archive (Str n) (Str s) Non = Raise TypeError.
Proof. intros archive n s H. unfold find_stations, pairs_of. simpl. rewrite H. reflexivity. Qed.
Print Assumptions C52_component_none_refuted.
(** stations of all networks: a list of two stations is accepted, a list of one is not *)
Theorem C52_one_station_refuted : forall archive, pairs_of archive (Str "*") (Lst [Str "A"; Str "B"]) = Ok [(Str "*", Str "A"); (Str "*", Str "B")] /\
  pairs_of archive (Str "*") (Lst [Str "A"]) = Raise ValueError.
Proof. split; reflexivity. Qed.
Print Assumptions C52_one_station_refuted.

Definition ex_archive := [mkF "2015" "D0" "KIR" "HHZ.D"; mkF "2015" "D0" "BZG" "HHZ.D"; mkF "2016" "D0" "BZG" "HHZ.D"; mkF "2015" "X9" "BZG" "HHN.D"].
Example C52_example :
  find_stations ex_archive (as_value (Text "D0")) (as_value (Texts ["KIR"; "BZG"; "NONE"])) (Str "Z") =
    Ok ([("D0", "BZG", "HHZ"); ("D0", "KIR", "HHZ")], [("D0", "BZG"); ("D0", "KIR")]) /\
  find_stations ex_archive (as_value (Texts ["D0"; "X9"])) (as_value (Text "*")) (Str "?") =
    Ok ([("D0", "BZG", "HHZ"); ("D0", "KIR", "HHZ"); ("X9", "BZG", "HHN")], [("D0", "BZG"); ("D0", "KIR"); ("X9", "BZG")]) /\
  refused (Texts ["D0"; "X9"]) (Texts ["A"; "B"; "C"]) /\
  pairs_of ex_archive (as_value (Texts ["D0"; "ZZ"])) (as_value (Text "*")) = Raise FileNotFoundError.
Proof. repeat split; try (vm_compute; reflexivity). right. repeat split; discriminate. Qed.

(** ** C58 *)
(** Full statement: the options are the same after a Correlator has been made from them, so that they can be used
    again.  Proved unless one network is given with a list of several stations (C58_second_use_refuted). *)
Theorem C58_options_kept_partial : forall N S, (length (codes N) <> 1 \/ length (codes S) = 1 \/ codes S = []) ->
  station_after (as_value N) (as_value S) = as_value S.
Proof. exact station_kept. Qed.
Print Assumptions C58_options_kept_partial.
(** one network and several stations, as in params_example.yaml: a second Correlator cannot be made from the same options *)
Theorem C58_second_use_refuted : forall archive n s s' ss comp,
  let S := Texts (s :: s' :: ss) in
  (exists r, find_stations archive (Str n) (as_value S) (Str comp) = Ok r) /\
  find_stations archive (Str n) (station_after (Str n) (as_value S)) (Str comp) = Raise TypeError.
Proof. exact second_construction. Qed.
Print Assumptions C58_second_use_refuted.
Example C58_example : station_after (Str "D0") (Lst [Str "BZG"; Str "KIR"]) = Lst [Lst [Str "D0"; Str "BZG"]; Lst [Str "D0"; Str "KIR"]] /\
  station_after (as_value (Texts ["D0"; "X9"])) (as_value (Texts ["BZG"; "KIR"])) = as_value (Texts ["BZG"; "KIR"]).
Proof. split; reflexivity. Qed.
