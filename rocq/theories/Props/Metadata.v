(** C121-C127: metadata of stations in the waveform client and the selection of pairs by distance. *)
From Coq Require Import QArith Qabs.
From Verif Require Import Lib.Base Lib.Str Model.Metadata Model.Combos Spec.MetadataSpec Spec.ComboSpec Spec.DBSpec Spec.XCombiSpec Proofs.MetadataFacts.
Local Open Scope string_scope.
Local Open Scope list_scope.

Definition ch (s c : string) (x : Z) : meta := mkM "XX" s c (x # 1, 0%Q) x.

(** ** C121 *)
(** While a client is used nothing it knows is forgotten. *)
Theorem C121_kept : forall c ops m, Forall in_use ops -> In m (mem c) -> In m (mem (history c ops)).
Proof. intros c ops m. exact (in_use_keeps ops c m). Qed.
Print Assumptions C121_kept.
(** A request that attaches the responses and succeeds leaves the responses of all its channels known. *)
Theorem C121_known : forall c wanted answer c', responses c wanted true answer = (c', None) -> forallb (knows (mem c')) wanted = true.
Proof. exact request_known. Qed.
Print Assumptions C121_known.
(** The server is asked only once for a station: later calls return the same whatever it would answer. *)
Theorem C121_once : forall c n s answer c' inv, select_or_load c n s answer = (c', Ok inv) -> inv <> [] ->
  (forall m, In m inv -> m_net m = n /\ m_sta m = s) -> forall later, select_or_load c' n s later = (c', Ok inv).
Proof. exact select_keeps. Qed.
Print Assumptions C121_once.

Example C121_example :
  let c := open_client false [] false in
  let c1 := history c [Request [("XX", "A", "HHZ")] true (Ok [ch "A" "HHZ" 1]); Select "XX" "B" (Ok [ch "B" "HHZ" 2; ch "B" "HHN" 3])] in
  mem c1 = [ch "A" "HHZ" 1; ch "B" "HHZ" 2; ch "B" "HHN" 3] /\
  responses c [("XX", "A", "HHZ")] true (Ok [ch "A" "HHZ" 1]) = (step c (Request [("XX", "A", "HHZ")] true (Ok [ch "A" "HHZ" 1])), None) /\
  select_or_load c1 "XX" "B" (Raise ValueError) = (c1, Ok [ch "B" "HHZ" 2; ch "B" "HHN" 3]).
Proof. repeat split. Qed.

(** ** C122 *)
(** Full statement: whatever is requested, metadata that are in the archive stay there.  Proved if every answer of the server holds all
    metadata of one station; then everything a client has ever known is found again, by any later client. *)
Theorem C122_kept_partial : forall full c before after, of_its_station full -> complete_files full (files c) -> has_dir c = true ->
  (forall m, In m (mem c) -> In m (stored c)) -> Forall (complete_answer full) (before ++ after) ->
  forall m, In m (stored c) \/ In m (mem (history c before)) -> In m (stored (history c (before ++ after))).
Proof.
  intros full c before after HF HC HD HM HA m H. unfold history in *. rewrite fold_left_app. apply Forall_app in HA as [HA HB].
  fold (history c before). fold (history (history c before) after).
  apply (stored_kept full); auto; [now apply (complete_history full)|].
  destruct H as [H|H]; [now apply (stored_kept full)|]. now apply (mem_history full).
Qed.
Print Assumptions C122_kept_partial.
(** Files of stations that head no answer do not change. *)
Theorem C122_others_partial : forall c ops name, Forall (fun o => ~ writes name o) ops ->
  forall inv, In (name, inv) (files (history c ops)) <-> In (name, inv) (files c).
Proof. intros c ops name. exact (other_files ops c name). Qed.
Print Assumptions C122_others_partial.
(** Requests for two channels of one station: the file holds only the second, and the next client does not know the first. *)
Theorem C122_channel_refuted : exists c ops m, Forall in_use ops /\ has_dir c = true /\
  In m (mem (history c ops)) /\ ~ In m (stored (history c ops)) /\ ~ In m (mem (history c (ops ++ [Reopen false]))).
Proof.
  exists (open_client false [] false),
    [Request [("XX", "A", "HHZ")] true (Ok [ch "A" "HHZ" 1]); Request [("XX", "A", "HHN")] true (Ok [ch "A" "HHN" 2])], (ch "A" "HHZ" 1).
  split; [repeat constructor|]. split; [reflexivity|]. split; [now left|].
  split; intros [H|[]]; discriminate.
Qed.
Print Assumptions C122_channel_refuted.
(** An answer about two stations is stored under the first; the next answer about that one removes the other. *)
Theorem C122_station_refuted : exists c o m, in_use o /\ In m (stored c) /\ In m (mem c) /\ m_sta m = "B" /\
  (forall inv m', answer_of o = Some (Ok inv) -> In m' inv -> m_sta m' = "A") /\ ~ In m (stored (step c o)).
Proof.
  exists (step (open_client false [] false) (Request [("XX", "A", "HHZ"); ("XX", "B", "HHZ")] true (Ok [ch "A" "HHZ" 1; ch "B" "HHZ" 2]))),
    (Request [("XX", "A", "HHN")] true (Ok [ch "A" "HHN" 3])), (ch "B" "HHZ" 2).
  split; [exact I|]. split; [right; now left|]. split; [right; now left|]. split; [reflexivity|].
  split; [intros inv m' [= <-] [<-|[]]; reflexivity|]. intros [H|[]]; discriminate.
Qed.
Print Assumptions C122_station_refuted.

Example C122_example :
  let full := fun n s => if String.eqb n "XX" then if String.eqb s "A" then [ch "A" "HHZ" 1; ch "A" "HHN" 2] else if String.eqb s "B" then [ch "B" "HHZ" 3] else [] else [] in
  let c := open_client false [] false in
  let ops := [Request [("XX", "A", "HHZ")] true (Ok (full "XX" "A")); Select "XX" "B" (Ok (full "XX" "B")); Reopen true; Reread] in
  of_its_station full /\ complete_files full (files c) /\ has_dir c = true /\ Forall (complete_answer full) ops /\
  stored (history c ops) = [ch "B" "HHZ" 3; ch "A" "HHZ" 1; ch "A" "HHN" 2].
Proof.
  cbv zeta. split.
  { intros n s m H. destruct (String.eqb n "XX") eqn:E; [|contradiction]. apply String.eqb_eq in E as ->.
    destruct (String.eqb s "A") eqn:E1; [apply String.eqb_eq in E1 as ->; destruct H as [<-|[<-|[]]]; auto|].
    destruct (String.eqb s "B") eqn:E2; [apply String.eqb_eq in E2 as ->; destruct H as [<-|[]]; auto|contradiction]. }
  split; [intros name inv []|]. split; [reflexivity|]. split; [|reflexivity].
  constructor; [intros inv [= <-]; now exists "XX", "A"|]. constructor; [intros inv [= <-]; now exists "XX", "B"|].
  constructor; [discriminate|]. constructor; [discriminate|]. constructor.
Qed.

(** ** C123 *)
(** Full statement: a client opened with read_only=True does not change the archive.  Proved if all responses are known. *)
Theorem C123_unchanged_partial : forall c wanted attach answer, forallb (knows (mem c)) wanted = true -> fst (responses c wanted attach answer) = c.
Proof. intros c w a x H. unfold responses. now rewrite H. Qed.
Print Assumptions C123_unchanged_partial.
Theorem C123_read_only_refuted : exists fs wanted answer, let c := open_client true fs true in
  files (fst (responses c wanted true answer)) <> files c /\ ~ incl (concat (map snd fs)) (stored (fst (responses c wanted true answer))).
Proof.
  exists [("XX.A.xml", [ch "A" "HHZ" 1])], [("XX", "A", "HHN")], (Ok [ch "A" "HHN" 2]). split; [discriminate|].
  intros H. specialize (H (ch "A" "HHZ" 1) (or_introl eq_refl)). destruct H as [H|[]]; discriminate.
Qed.
Print Assumptions C123_read_only_refuted.
Example C123_example : let c := open_client true [("XX.A.xml", [ch "A" "HHZ" 1])] true in
  forallb (knows (mem c)) [("XX", "A", "HHZ")] = true /\ has_dir c = true.
Proof. split; reflexivity. Qed.

(** ** C124 *)
(** Full statement: data the server has sent are returned.  Proved if the responses are known, or if the server answers with them and the
    directory exists. *)
Theorem C124_returned_partial : forall (T : Type) c wanted attach answer (sent : T),
  (forallb (knows (mem c)) wanted = true \/
   (has_dir c = true /\ exists inv, answer = Ok inv /\ inv <> [] /\ forallb (knows inv) wanted = true)) ->
  exists c', remote_request c wanted attach answer sent = (c', Ok sent).
Proof.
  intros T c w a x sent [H|(HD & inv & -> & HN & HK)]; unfold remote_request, responses.
  - rewrite H. now exists c.
  - destruct (forallb (knows (mem c)) w); [now exists c|]. rewrite HK. cbn [negb]. rewrite andb_false_r.
    unfold write_inventory. destruct inv as [|m r]; [contradiction|]. rewrite HD. eexists; reflexivity.
Qed.
Print Assumptions C124_returned_partial.
(** Responses are needed even if they are not to be attached: without metadata at the server the request fails ... *)
Theorem C124_not_wanted_refuted : exists c wanted (sent : list Z), has_dir c = true /\ forall e,
  snd (remote_request c wanted false (Raise e) sent) = Raise e.
Proof. now exists (open_client false [] false), [("XX", "A", "HHZ")], [1%Z; 2%Z]. Qed.
Print Assumptions C124_not_wanted_refuted.
(** ... and a read-only client of a directory without metadata fails although everything was sent. *)
Theorem C124_read_only_refuted : exists wanted answer inv (sent : list Z), answer = Ok inv /\ forallb (knows inv) wanted = true /\
  forall attach, snd (remote_request (open_client true [] false) wanted attach answer sent) = Raise FileNotFoundError.
Proof.
  exists [("XX", "A", "HHZ")], (Ok [ch "A" "HHZ" 1]), [ch "A" "HHZ" 1], [1%Z; 2%Z]. split; [reflexivity|]. split; [reflexivity|]. now intros [].
Qed.
Print Assumptions C124_read_only_refuted.
Example C124_example : let c := open_client false [] false in let inv := [ch "A" "HHZ" 1] in
  has_dir c = true /\ forallb (knows inv) [("XX", "A", "HHZ")] = true /\ forallb (knows (mem c)) [("XX", "A", "HHZ")] = false /\
  snd (remote_request c [("XX", "A", "HHZ")] true (Ok inv) 5%Z) = Ok 5%Z.
Proof. repeat split. Qed.

(** ** C125 *)
(** Exactly the pairs of stations, each with itself too, that are not further apart than the limit. *)
Theorem C125_pairs : forall dist server c stations d c' out, honest server ->
  find_interstat_dist dist server c "betweenStations" None stations d = (c', Ok out) ->
  (forall x, In x stations -> exists p, position (mem c') x = Some p) /\
  (forall t, In t out <-> exists i j x y, (i <= j)%nat /\ nth_error stations i = Some x /\ nth_error stations j = Some y /\
                          within dist (mem c') d x y /\ t = (fst x ++ "-" ++ fst y ++ "." ++ snd x ++ "-" ++ snd y)%string).
Proof. intros dist server c stations d c' out H. exact (found dist server H c stations d c' out). Qed.
Print Assumptions C125_pairs.
(** Another method of combining, or combinations chosen before: an error. *)
Theorem C125_refused : forall dist server c method rcombis stations d, method <> "betweenStations" \/ rcombis <> None ->
  exists e, snd (find_interstat_dist dist server c method rcombis stations d) = Raise e.
Proof.
  intros dist server c method rc stations d H. unfold find_interstat_dist. destruct (String.eqb_spec method "betweenStations") as [E|E]; cbn [negb].
  - destruct (read_inventory c) as [c' [e|]]; [now exists e|]. destruct rc as [l|]; [now exists ValueError|]. destruct H; contradiction.
  - now exists ValueError.
Qed.
Print Assumptions C125_refused.

Definition along (p q : Q * Q) : Q := Qabs (fst p - fst q).
Definition net3 : list (string * string) := [("XX", "A"); ("XX", "B"); ("XX", "C")].
Definition three : string -> string -> result inventory := fun n s =>
  if String.eqb n "XX" then if String.eqb s "A" then Ok [ch "A" "HHZ" 0] else if String.eqb s "B" then Ok [ch "B" "HHZ" 5]
  else if String.eqb s "C" then Ok [ch "C" "HHZ" 9] else Raise ValueError else Raise ValueError.
Example C125_example : let c := open_client false [("XX.A.xml", [ch "A" "HHZ" 0])] true in
  honest three /\ snd (find_interstat_dist along three c "betweenStations" None net3 (5 # 1)) =
  Ok ["XX-XX.A-A"; "XX-XX.A-B"; "XX-XX.B-B"; "XX-XX.B-C"; "XX-XX.C-C"].
Proof.
  split; [|vm_compute; reflexivity]. intros n s inv m H Hm. unfold three in H.
  destruct (String.eqb_spec n "XX") as [->|]; [|discriminate].
  destruct (String.eqb_spec s "A") as [->|]; [injection H as <-; destruct Hm as [<-|[]]; auto|].
  destruct (String.eqb_spec s "B") as [->|]; [injection H as <-; destruct Hm as [<-|[]]; auto|].
  destruct (String.eqb_spec s "C") as [->|]; [injection H as <-; destruct Hm as [<-|[]]; auto|discriminate].
Qed.

(** ** C126 *)
(** Every close pair of stations is correlated. *)
Theorem C126_close : forall dist server c stations d c' out st w k, honest server -> (forall p q, (dist p q == dist q p)%Q) ->
  find_interstat_dist dist server c "betweenStations" None stations d = (c', Ok out) ->
  Forall (fun x => seed (fst x) /\ seed (snd x)) stations -> Forall seed_trace st ->
  (forall a, In a st -> In (station_of a) stations) ->
  calc_cross_combis st [] "betweenStations" (Some out) = Ok (w, k) ->
  forall a b, In a st -> In b st -> ~ same_station a b -> within dist (mem c') d (station_of a) (station_of b) ->
  exists i j, In (i, j) k /\ ((nth_error w i = Some a /\ nth_error w j = Some b) \/ (nth_error w i = Some b /\ nth_error w j = Some a)).
Proof. exact close_pair_correlated. Qed.
Print Assumptions C126_close.
(** Full statement: and no other.  Proved for station codes of one length. *)
Theorem C126_exact_partial : forall dist server c stations d c' out st w k, honest server -> (forall p q, (dist p q == dist q p)%Q) ->
  find_interstat_dist dist server c "betweenStations" None stations d = (c', Ok out) ->
  Forall (fun x => seed (fst x) /\ seed (snd x)) stations -> Forall seed_trace st ->
  (forall a, In a st -> In (station_of a) stations) ->
  (forall x y, In x stations -> In y stations -> String.length (snd x) = String.length (snd y)) ->
  calc_cross_combis st [] "betweenStations" (Some out) = Ok (w, k) ->
  forall a b, In a st -> In b st -> ~ same_station a b ->
  ((exists i j, In (i, j) k /\ ((nth_error w i = Some a /\ nth_error w j = Some b) \/ (nth_error w i = Some b /\ nth_error w j = Some a)))
   <-> within dist (mem c') d (station_of a) (station_of b)).
Proof. exact near_correlated. Qed.
Print Assumptions C126_exact_partial.

Definition tr (s : string) : trace := mkTr "XX" s "" "HHZ" 0%Z 0%Z.
(** Stations "A" and "AB": the entry for "A" with itself also selects the pair, however far they are apart. *)
Theorem C126_far_refuted : exists c stations d c' out a b,
  find_interstat_dist along three c "betweenStations" None stations d = (c', Ok out) /\
  Forall (fun x => seed (fst x) /\ seed (snd x)) stations /\ Forall seed_trace [a; b] /\
  In (station_of a) stations /\ In (station_of b) stations /\ ~ same_station a b /\ ~ within along (mem c') d (station_of a) (station_of b) /\
  calc_cross_combis [a; b] [] "betweenStations" (Some out) = Ok ([a; b], [(0, 1)]%nat).
Proof.
  set (fs := [("XX.A.xml", [ch "A" "HHZ" 0]); ("XX.AB.xml", [ch "AB" "HHZ" 9])]).
  exists (open_client false fs true), [("XX", "A"); ("XX", "AB")], (1 # 1)%Q, (open_client false fs true), ["XX-XX.A-A"; "XX-XX.AB-AB"], (tr "A"), (tr "AB").
  split; [vm_compute; reflexivity|]. split; [repeat (constructor; [repeat split; discriminate|]); constructor|].
  split; [repeat (constructor; [repeat split; discriminate|]); constructor|]. split; [now left|]. split; [right; now left|].
  split; [intros [_ H]; discriminate|]. split; [|vm_compute; reflexivity].
  intros (p & q & P & R & H). vm_compute in P, R. injection P as <-. injection R as <-. vm_compute in H. now apply H.
Qed.
Print Assumptions C126_far_refuted.
Example C126_example :
  let c := open_client false [("XX.A.xml", [ch "A" "HHZ" 0])] true in let st := [tr "C"; tr "B"; tr "A"] in
  (forall p q, (along p q == along q p)%Q) /\ Forall seed_trace st /\ (forall a, In a st -> In (station_of a) net3) /\
  Forall (fun x => seed (fst x) /\ seed (snd x)) net3 /\
  match find_interstat_dist along three c "betweenStations" None net3 (5 # 1) with
  | (_, Ok out) => calc_cross_combis st [] "betweenStations" (Some out) = Ok ([tr "A"; tr "B"; tr "C"], [(0, 1); (1, 2)]%nat)
  | _ => False
  end.
Proof.
  cbv zeta. split; [intros p q; unfold along; rewrite <- Qabs_opp; apply Qabs_wd; ring|].
  split; [repeat (constructor; [repeat split; discriminate|]); constructor|].
  split; [intros a [<-|[<-|[<-|[]]]]; cbn; auto|].
  split; [repeat (constructor; [repeat split; discriminate|]); constructor|]. vm_compute. reflexivity.
Qed.

(** ** C127 *)
(** Full statement: metadata that are not in the archive are downloaded.  Proved if the archive has metadata of any station. *)
Theorem C127_download_partial : forall dist server c stations d, honest server -> files c <> [] -> has_dir c = true ->
  (forall x, In x stations -> position (stored c) x <> None \/ exists m r, server (fst x) (snd x) = Ok (m :: r)) ->
  exists c' out, find_interstat_dist dist server c "betweenStations" None stations d = (c', Ok out).
Proof. intros dist server c stations d H. exact (available dist server H c stations d). Qed.
Print Assumptions C127_download_partial.
(** In a new archive nothing is downloaded: the call fails. *)
Theorem C127_empty_refuted : forall dist server stations d,
  snd (find_interstat_dist dist server (open_client false [] false) "betweenStations" None stations d) = Raise FileNotFoundError.
Proof. reflexivity. Qed.
Print Assumptions C127_empty_refuted.
Example C127_example : let c := open_client false [("XX.A.xml", [ch "A" "HHZ" 0])] true in
  files c <> [] /\ has_dir c = true /\ (forall x, In x net3 -> position (stored c) x <> None \/ exists m r, three (fst x) (snd x) = Ok (m :: r)).
Proof.
  cbv zeta. split; [discriminate|]. split; [reflexivity|]. intros x [<-|[<-|[<-|[]]]]; [left; discriminate| |];
  right; [exists (ch "B" "HHZ" 5), []|exists (ch "C" "HHZ" 9), []]; reflexivity.
Qed.
