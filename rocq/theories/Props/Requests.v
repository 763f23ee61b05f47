(** C07, C09, C10, C53: requested pairs, names of pairs, existing correlations, restarts. *)
From Verif Require Import Lib.Base Lib.Str Lib.StrFacts Lib.Time Lib.TimeFacts Model.H5 Model.CorrTrace Model.CorrDB Model.Combos Model.Rerun
  Spec.ComboSpec Spec.DBSpec Spec.XCombiSpec Spec.DirSpec Spec.RestartSpec
  Proofs.ComboFacts Proofs.CorrDBFacts Proofs.XCombiFacts Proofs.RerunFacts Proofs.RestartFacts.
Local Open Scope nat_scope.
Local Open Scope string_scope.

Ltac names := repeat split; try reflexivity; try discriminate.
Definition ex_trace (net sta cha : string) (t : Z) : trace := mkTr net sta "" cha (t * sec) 0.

(** ** C07 *)
(** every named pair is accepted, in either order *)
Theorem C07_requested_accepted : forall es e a b, Forall seed_entry es -> In e es -> seed_trace a -> seed_trace b -> XCombiSpec.names e a b ->
  is_in_xcombis a b (map entry_text es) = true.
Proof. exact requested_in. Qed.
Print Assumptions C07_requested_accepted.

(** Full statement: is_in_xcombis a b (map entry_text es) = true <-> some entry names the pair, for all codes.
    Proved when the last code of each entry is as long as the corresponding code of the traces; without that
    it fails (C07_exact_refuted). *)
Theorem C07_exact_partial : forall es a b, Forall seed_entry es -> seed_trace a -> seed_trace b ->
  Forall (fun e => same_length e a /\ same_length e b) es ->
  (is_in_xcombis a b (map entry_text es) = true <-> exists e, In e es /\ XCombiSpec.names e a b).
Proof. exact in_xcombis_exact. Qed.
Print Assumptions C07_exact_partial.

(** From the available stations to the correlated pairs: the stations that are read are selected first, then the
    pairs.  Missing: entries with channel codes, for which the second station is not read (C07_second_station_refuted),
    and codes of different length. *)
Theorem C07_pair_correlated_partial : forall st es w c,
  Forall seed_trace st -> Forall seed_entry es -> Forall (fun e => e_cha e = None) es ->
  (forall e a, In e es -> In a st -> same_length e a) ->
  calc_cross_combis (read_stations (Some (map entry_text es)) st) [] "betweenStations" (Some (map entry_text es)) = Ok (w, c) ->
  forall a b, In a st -> In b st -> ~ same_station a b ->
  ((exists i j, In (i, j) c /\ ((nth_error w i = Some a /\ nth_error w j = Some b) \/ (nth_error w i = Some b /\ nth_error w j = Some a)))
   <-> exists e, In e es /\ XCombiSpec.names e a b).
Proof. exact pair_correlated_iff. Qed.
Print Assumptions C07_pair_correlated_partial.

(** The stations that are looked at: a station stays exactly if its traces are read, no station of a requested pair is
    lost (entries without channel codes), and the request has no effect on the other methods. *)
Theorem C07_stations_kept : forall es stations e, Forall seed_entry es -> In e es ->
  let kept := filter_by_rcombis (Some (map entry_text es)) "betweenStations" stations in
  (In (e_n1 e, e_s1 e) stations -> In (e_n1 e, e_s1 e) kept) /\
  (e_cha e = None -> In (e_n2 e, e_s2 e) stations -> In (e_n2 e, e_s2 e) kept).
Proof.
  intros es stations e HE He kept. unfold kept, filter_by_rcombis. cbn [String.eqb Ascii.eqb Bool.eqb].
  split; [intros I|intros C I]; apply filter_In; (split; [exact I|]); [now apply first_kept|now apply second_kept].
Qed.
Print Assumptions C07_stations_kept.
Theorem C07_stations_read : forall rc stations st, (forall t, In t st -> In (t_net t, t_sta t) stations) ->
  forall t, In t (read_stations rc st) <-> In t st /\ In (t_net t, t_sta t) (filter_by_rcombis rc "betweenStations" stations).
Proof.
  intros rc stations st A t. unfold read_stations, filter_by_rcombis. rewrite filter_In. destruct rc as [l|].
  - cbn [String.eqb Ascii.eqb Bool.eqb]. rewrite filter_In. split; [intros [I K]|intros [I [_ K]]]; auto.
  - split; [intros [I _]|intros [I _]]; auto.
Qed.
Print Assumptions C07_stations_read.
Theorem C07_other_methods : forall rc method stations, method <> "betweenStations" -> filter_by_rcombis rc method stations = stations.
Proof.
  intros rc method stations N. unfold filter_by_rcombis. destruct rc; [|reflexivity].
  destruct (String.eqb_spec method "betweenStations"); [contradiction|reflexivity].
Qed.
Print Assumptions C07_other_methods.
Example C07_stations_example :
  filter_by_rcombis (Some ["XX-XX.A-B"]) "betweenStations" [("XX", "A"); ("XX", "B"); ("XX", "C")] = [("XX", "A"); ("XX", "B")].
Proof. vm_compute. reflexivity. Qed.

(** "XX-XX.A-B" also selects the pair A-BC *)
Theorem C07_exact_refuted : exists es a b, Forall seed_entry es /\ seed_trace a /\ seed_trace b /\
  is_in_xcombis a b (map entry_text es) = true /\ ~ exists e, In e es /\ XCombiSpec.names e a b.
Proof.
  exists [mkEntry "XX" "XX" "A" "B" None], (ex_trace "XX" "A" "HHZ" 0), (ex_trace "XX" "BC" "HHZ" 0).
  split; [constructor; [names|constructor]|]. split; [names|]. split; [names|]. split; [reflexivity|].
  intros (e & [<-|[]] & [(_ & _ & _ & H & _)|(H & H2 & _)]); discriminate.
Qed.
Print Assumptions C07_exact_refuted.
(** an entry with channel codes: the second station is never read, so the requested pair is not correlated *)
Theorem C07_second_station_refuted : exists es e a b, Forall seed_entry es /\ In e es /\ seed_trace a /\ seed_trace b /\ XCombiSpec.names e a b /\
  calc_cross_combis (read_stations (Some (map entry_text es)) [a; b]) [] "betweenStations" (Some (map entry_text es)) = Ok ([a], []).
Proof.
  exists [mkEntry "XX" "XX" "A" "B" (Some ("HHZ", "HHZ"))], (mkEntry "XX" "XX" "A" "B" (Some ("HHZ", "HHZ"))),
    (ex_trace "XX" "A" "HHZ" 0), (ex_trace "XX" "B" "HHZ" 0).
  split; [constructor; [names|constructor]|]. split; [now left|]. split; [names|]. split; [names|]. split; [left; names|]. reflexivity.
Qed.
Print Assumptions C07_second_station_refuted.

Example C07_example :
  let es := [mkEntry "XX" "XX" "B" "A" None] in
  let st := [ex_trace "XX" "C" "HHZ" 0; ex_trace "XX" "B" "HHZ" 0; ex_trace "XX" "A" "HHE" 0; ex_trace "XX" "A" "HHZ" 0] in
  Forall seed_trace st /\ Forall seed_entry es /\ (forall e a, In e es -> In a st -> same_length e a) /\
  calc_cross_combis (read_stations (Some (map entry_text es)) st) [] "betweenStations" (Some (map entry_text es)) =
  Ok ([ex_trace "XX" "A" "HHE" 0; ex_trace "XX" "A" "HHZ" 0; ex_trace "XX" "B" "HHZ" 0], [(0, 2); (1, 2)]).
Proof.
  cbv zeta. split; [repeat (constructor; [names|]); constructor|]. split; [constructor; [names|constructor]|]. split.
  - intros e a [<-|[]] [<-|[<-|[<-|[<-|[]]]]]; reflexivity.
  - vm_compute. reflexivity.
Qed.

(** ** C09 *)
(** exact characterisation: the two orders give one name unless the codes run together to the same text *)
Theorem C09_one_name_iff : forall a b, seed_trace a -> seed_trace b ->
  (names_of a b = names_of b a <->
   t_net a ++ t_sta a ++ t_cha a <> t_net b ++ t_sta b ++ t_cha b \/ (t_net a = t_net b /\ t_sta a = t_sta b /\ t_cha a = t_cha b)).
Proof. exact names_sym_iff. Qed.
Print Assumptions C09_one_name_iff.
Theorem C09_one_name_partial : forall a b, seed_trace a -> seed_trace b ->
  String.length (t_net a) = String.length (t_net b) -> String.length (t_sta a) = String.length (t_sta b) -> names_of a b = names_of b a.
Proof. exact names_sym_len. Qed.
Print Assumptions C09_one_name_partial.
Theorem C09_one_name_refuted : exists a b, seed_trace a /\ seed_trace b /\ names_of a b <> names_of b a.
Proof.
  exists (ex_trace "X" "1AB" "HHZ" 0), (ex_trace "X1" "AB" "HHZ" 0). split; [names|]. split; [names|]. vm_compute. discriminate.
Qed.
Print Assumptions C09_one_name_refuted.
Example C09_example : names_of (ex_trace "YY" "A" "HHZ" 0) (ex_trace "XX" "B" "HHE" 0) = ("XX-YY", "B-A", "HHE-HHZ") /\
  names_of (ex_trace "XX" "B" "HHE" 0) (ex_trace "YY" "A" "HHZ" 0) = ("XX-YY", "B-A", "HHE-HHZ").
Proof. split; reflexivity. Qed.

(** ** C10 *)
(** Full statement: for all codes, requests and earlier runs, a pair and window is computed iff it is not stored.
    Proved for network codes of one length, station codes of one length and no list of requested combinations:
    the index pairs that are computed are the pairs of the method that are not stored. *)
Theorem C10_computed_iff_missing_partial : forall sep ln ls h stations method tag ex st w c,
  hist_ok sep ln ls h -> name_ok tag ->
  Forall (fun p => (seed (fst p) /\ seed (snd p)) /\ String.length (fst p) = ln /\ String.length (snd p) = ls) stations ->
  find_existing_times (dir_of h) stations method None tag "*" = Ok ex ->
  Forall (fun a => seed_trace a /\ In (t_net a, t_sta a) stations /\ time_ok (t_start a)) st ->
  calc_cross_combis st ex method None = Ok (w, c) ->
  forall i j, In (i, j) c <->
    exists a b, nth_error w i = Some a /\ nth_error w j = Some b /\ documented method i j a b /\ ~ corr_stored h tag a b.
Proof. exact computed_iff_missing. Qed.
Print Assumptions C10_computed_iff_missing_partial.
Theorem C10_rerun_computes_nothing_partial : forall sep ln ls h stations method tag ex st w c,
  hist_ok sep ln ls h -> name_ok tag ->
  Forall (fun p => (seed (fst p) /\ seed (snd p)) /\ String.length (fst p) = ln /\ String.length (snd p) = ls) stations ->
  find_existing_times (dir_of h) stations method None tag "*" = Ok ex ->
  Forall (fun a => seed_trace a /\ In (t_net a, t_sta a) stations /\ time_ok (t_start a)) st ->
  calc_cross_combis st ex method None = Ok (w, c) ->
  (forall a b, In a st -> In b st -> method_pair method a b -> corr_stored h tag a b) -> c = [].
Proof. exact rerun_nothing. Qed.
Print Assumptions C10_rerun_computes_nothing_partial.
Theorem C10_search_succeeds_partial : forall sep ln ls h stations method tag,
  hist_ok sep ln ls h -> name_ok tag -> known_method method ->
  Forall (fun p => (seed (fst p) /\ seed (snd p)) /\ String.length (fst p) = ln /\ String.length (snd p) = ls) stations ->
  (forall name ops, In (name, ops) h -> exists k, k_tag k = tag /\ spec_all ops k <> None) ->
  exists ex, find_existing_times (dir_of h) stations method None tag "*" = Ok ex.
Proof. exact search_succeeds. Qed.
Print Assumptions C10_search_succeeds_partial.

Definition ex_corr (net sta cha : string) (t0 t1 : Z) : ctrace :=
  {| c_net := net; c_sta := sta; c_loc := ""; c_cha := cha; c_start := (t0 * sec)%Z; c_end := (t1 * sec)%Z;
     c_lag := 0; c_sr := 1; c_data := [] |}.
Lemma ex_time z : (0 <= z < 100000)%Z -> time_ok (z * sec).
Proof.
  intros H. unfold time_ok. split; [unfold epoch_day, day, sec; lia|].
  apply Z.le_lt_trans with (100000 * sec)%Z; [unfold sec; lia|]. reflexivity.
Qed.
Definition ex_hist : hist_dir := [("XX-XX.A-B.h5", [Add (ex_corr "XX-XX" "A-B" "HHZ-HHZ" 0 3600) "subdivision"])].
Example C10_example_valid : hist_ok false 2 1 ex_hist /\ corr_stored ex_hist "subdivision" (ex_trace "XX" "B" "HHZ" 0) (ex_trace "XX" "A" "HHZ" 0).
Proof.
  split.
  - split; [repeat constructor; intros []|]. constructor; [|constructor]. split; [|split; [reflexivity|]].
    + constructor; [|constructor]. split; [names|split; apply ex_time; lia].
    + exists "XX-XX", "A-B", "". split; [reflexivity|]. split; [reflexivity|]. split; [reflexivity|]. intros k Hk. cbn [snd] in Hk.
      change (spec_all (adds "subdivision" [ex_corr "XX-XX" "A-B" "HHZ-HHZ" 0 3600]) k <> None) in Hk. rewrite adds_spec in Hk. cbn [find] in Hk.
      destruct (key_eqb_spec k (key_of "subdivision" (ex_corr "XX-XX" "A-B" "HHZ-HHZ" 0 3600))) as [E|]; [rewrite E|now destruct Hk].
      split; [reflexivity|]. split; [reflexivity|]. discriminate.
  - exists "XX-XX.A-B.h5", [Add (ex_corr "XX-XX" "A-B" "HHZ-HHZ" 0 3600) "subdivision"], (tick (3600 * sec)). split; [now left|]. vm_compute. discriminate.
Qed.
Example C10_example :
  exists ex, find_existing_times (dir_of ex_hist) [("XX", "A"); ("XX", "B"); ("XX", "C")] "betweenStations" None "subdivision" "*" = Ok ex /\
  (* first window: A-B is stored; second window: nothing is stored *)
  calc_cross_combis [ex_trace "XX" "A" "HHZ" 0; ex_trace "XX" "B" "HHZ" 0; ex_trace "XX" "C" "HHZ" 0] ex "betweenStations" None =
  Ok ([ex_trace "XX" "A" "HHZ" 0; ex_trace "XX" "B" "HHZ" 0; ex_trace "XX" "C" "HHZ" 0], [(0, 2); (1, 2)]) /\
  calc_cross_combis [ex_trace "XX" "A" "HHZ" 3600; ex_trace "XX" "B" "HHZ" 3600] ex "betweenStations" None =
  Ok ([ex_trace "XX" "A" "HHZ" 3600; ex_trace "XX" "B" "HHZ" 3600], [(0, 1)]).
Proof. eexists. split; [vm_compute; reflexivity|]. split; vm_compute; reflexivity. Qed.

(** stations A, B and BC: the search for A-B opens the file of A-BC and fails, so no later run is possible *)
Theorem C10_search_crash_refuted : exists d stations,
  (forall name f, In (name, f) d -> exists tr, name = c_net tr ++ "." ++ c_sta tr ++ ".h5" /\ f = exec_all [Add tr "subdivision"]) /\
  find_existing_times d stations "betweenStations" None "subdivision" "*" = Raise KeyError.
Proof.
  exists (dir_of [("XX-XX.A-BC.h5", [Add (ex_corr "XX-XX" "A-BC" "HHZ-HHZ" 0 3600) "subdivision"])]), [("XX", "A"); ("XX", "B"); ("XX", "BC")].
  split; [|vm_compute; reflexivity]. intros name f [E|[]]. injection E as <- <-. exists (ex_corr "XX-XX" "A-BC" "HHZ-HHZ" 0 3600). split; reflexivity.
Qed.
Print Assumptions C10_search_crash_refuted.
(** output written with delete_subdivision holds only stacks: a rerun fails as well *)
Theorem C10_stack_only_crash_refuted : exists tr,
  find_existing_times (dir_of [("XX-XX.A-B.h5", [Add tr "stack_86400"])]) [("XX", "A"); ("XX", "B")] "betweenStations" None "subdivision" "*" = Raise KeyError.
Proof. exists (ex_corr "XX-XX" "A-B" "HHZ-HHZ" 0 3600). vm_compute. reflexivity. Qed.
Print Assumptions C10_stack_only_crash_refuted.
(** stations NEP and NEP1: the pair is stored under the order of net+station+channel, but searched under the order of net+station:
    the stored correlation is not found and computed again *)
Theorem C10_recomputed_refuted : exists h a b ex,
  find_existing_times (dir_of h) [(t_net a, t_sta a); (t_net b, t_sta b)] "betweenStations" None "subdivision" "*" = Ok ex /\
  corr_stored h "subdivision" a b /\ compare_existing_data ex a b = false /\ seed_trace a /\ seed_trace b.
Proof.
  exists [("XX-XX.NEP1-NEP.h5", [Add (ex_corr "XX-XX" "NEP1-NEP" "HHZ-HHZ" 0 3600) "subdivision"])],
    (ex_trace "XX" "NEP" "HHZ" 0), (ex_trace "XX" "NEP1" "HHZ" 0). eexists.
  split; [vm_compute; reflexivity|]. split; [|split; [vm_compute; reflexivity|split; names]].
  exists "XX-XX.NEP1-NEP.h5", [Add (ex_corr "XX-XX" "NEP1-NEP" "HHZ-HHZ" 0 3600) "subdivision"], (tick (3600 * sec)).
  split; [now left|]. vm_compute. discriminate.
Qed.
Print Assumptions C10_recomputed_refuted.
(** an entry of the request list that names the stations in the other order (or with channels) hides all existing correlations *)
Theorem C10_request_hides_existing_refuted : exists h a b ex,
  is_in_xcombis a b ["XX-XX.B-A"] = true /\
  find_existing_times (dir_of h) [(t_net a, t_sta a); (t_net b, t_sta b)] "betweenStations" (Some ["XX-XX.B-A"]) "subdivision" "*" = Ok ex /\
  corr_stored h "subdivision" a b /\ compare_existing_data ex a b = false.
Proof.
  exists ex_hist, (ex_trace "XX" "A" "HHZ" 0), (ex_trace "XX" "B" "HHZ" 0). eexists.
  split; [reflexivity|]. split; [vm_compute; reflexivity|]. split; [|vm_compute; reflexivity].
  exists "XX-XX.A-B.h5", [Add (ex_corr "XX-XX" "A-B" "HHZ-HHZ" 0 3600) "subdivision"], (tick (3600 * sec)). split; [now left|]. vm_compute. discriminate.
Qed.
Print Assumptions C10_request_hides_existing_refuted.

(** ** C53 *)
(** One output file without stacking: stopping after any number of additions and running again (skipping what is
    in the file) gives the contents of an uninterrupted run. *)
Theorem C53_restart_partial : forall tag w n (skip : ctrace -> bool),
  (forall a b, In a w -> In b w -> c_net a = c_net b -> c_sta a = c_sta b -> c_cha a = c_cha b -> tick (c_start a) = tick (c_start b) -> tick (c_end a) = tick (c_end b)) ->
  (forall tr, In tr w -> (skip tr = true <-> in_file (spec_all (adds tag (firstn n w))) tag tr)) ->
  forall k, spec_all (adds tag (firstn n w) ++ adds tag (filter (fun tr => negb (skip tr)) w))%list k = spec_all (adds tag w) k.
Proof. exact restart_same. Qed.
Print Assumptions C53_restart_partial.
(** With stacking: whatever the batch, a stop between the subdivisions and their stack loses the stack for good. *)
Theorem C53_stack_lost_refuted : forall stack stag w (skip : ctrace -> bool) s,
  stag <> "subdivision" -> w <> [] -> In s (stack w) ->
  let done := firstn (length w) (batch_ops stack stag w) in
  (forall tr, In tr w -> (skip tr = true <-> in_file (spec_all done) "subdivision" tr)) ->
  spec_all (done ++ batch_ops stack stag (filter (fun tr => negb (skip tr)) w)) (key_of stag s) = None /\
  spec_all (batch_ops stack stag w) (key_of stag s) <> None.
Proof. exact stack_lost. Qed.
Print Assumptions C53_stack_lost_refuted.
Example C53_example :
  let w := [ex_corr "XX-XX" "A-B" "HHZ-HHZ" 0 3600; ex_corr "XX-XX" "A-B" "HHZ-HHZ" 3600 7200] in
  let skip tr := (c_start tr =? 0)%Z in
  forall tr, In tr w -> (skip tr = true <-> in_file (spec_all (adds "subdivision" (firstn 1 w))) "subdivision" tr).
Proof.
  cbv zeta. intros tr [<-|[<-|[]]]; split; intros H; try reflexivity; try discriminate.
  - exists (tick (3600 * sec)). vm_compute. discriminate.
  - exfalso. destruct H as [e H]. apply H. rewrite adds_spec. cbn [firstn find]. 
    match goal with |- context [key_eqb ?a ?b] => destruct (key_eqb_spec a b) as [E|] end; [|reflexivity]. discriminate.
Qed.
