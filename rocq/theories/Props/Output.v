(** C11, C12, C13: writing of a batch, order of a pair, consistency of headers. *)
From Verif Require Import Lib.Base Lib.Str Lib.Sorting Model.Partition Model.CorrTrace Model.Flip Model.WriteOut Model.CorrStats
  Spec.HeaderSpec Proofs.OutputFacts.
From Coq Require Import Permutation.
Local Open Scope nat_scope.
Local Open Scope string_scope.

(** ** C11 *)
(** over all processes: no file twice; a file gets exactly the correlations that belong to it; no correlation is left out *)
Theorem C11_one_writer_own_file_partial : forall p sep cst, 0 < p -> batch_ok cst ->
  (forall r, r < p -> exists l, writes p r sep cst = Ok l) /\
  NoDup (map fst (all_writes p sep cst)) /\
  (forall name trs, In (name, trs) (all_writes p sep cst) -> trs = filter (fun tr => String.eqb (own_file sep tr) name) cst /\ trs <> []) /\
  (forall tr, In tr cst -> In (own_file sep tr) (map fst (all_writes p sep cst))).
Proof. exact write_exact. Qed.
Print Assumptions C11_one_writer_own_file_partial.

Definition ex_ct (net sta cha : string) : ctrace :=
  {| c_net := net; c_sta := sta; c_loc := ""; c_cha := cha; c_start := 0%Z; c_end := 1%Z; c_lag := 0; c_sr := 1; c_data := [] |}.
Example C11_example :
  let cst := [ex_ct "XX-XX" "B-C" "HHZ-HHZ"; ex_ct "XX-XX" "A-B" "HHZ-HHZ"; ex_ct "XX-XX" "A-B" "HHE-HHZ"] in
  batch_ok cst /\
  map (fun r => writes 2 r false cst) [0; 1] =
    [Ok [("XX-XX.A-B.h5", [ex_ct "XX-XX" "A-B" "HHZ-HHZ"; ex_ct "XX-XX" "A-B" "HHE-HHZ"])];
     Ok [("XX-XX.B-C.h5", [ex_ct "XX-XX" "B-C" "HHZ-HHZ"])]].
Proof.
  cbv zeta. split; [|vm_compute; reflexivity]. split.
  - intros a [<-|[<-|[<-|[]]]]; repeat split.
  - intros a b [<-|[<-|[<-|[]]]] [<-|[<-|[<-|[]]]]; repeat split; intros H; try reflexivity; discriminate.
Qed.
(** codes that differ in capitalisation only: the correlation of the other pair is put into the file too *)
Theorem C11_own_file_refuted : exists cst name trs tr,
  In (name, trs) (all_writes 1 false cst) /\ In tr trs /\ own_file false tr <> name.
Proof.
  exists [ex_ct "XX-XX" "AB-CD" "HHZ-HHZ"; ex_ct "XX-XX" "Ab-CD" "HHZ-HHZ"], "XX-XX.AB-CD.h5",
    [ex_ct "XX-XX" "AB-CD" "HHZ-HHZ"; ex_ct "XX-XX" "Ab-CD" "HHZ-HHZ"], (ex_ct "XX-XX" "Ab-CD" "HHZ-HHZ").
  split; [vm_compute; auto|]. split; [right; now left|]. discriminate.
Qed.
Print Assumptions C11_own_file_refuted.

(** ** C12 *)
(** if the lag of the last sample is passed, every sample keeps its lag, or gets the opposite lag when the pair is reordered *)
Theorem C12_reordering_partial : forall h1 h2 sr sl el data i v, ~ sr == 0 ->
  el == lag_at sl sr (length data - 1) -> nth_error data i = Some v ->
  let tr := alphabetical_correlation h1 h2 sr sl el data in
  (c_net tr = r_net h1 ++ "-" ++ r_net h2 /\ c_sta tr = r_sta h1 ++ "-" ++ r_sta h2 /\ c_cha tr = r_cha h1 ++ "-" ++ r_cha h2 /\
   nth_error (c_data tr) i = Some v /\ lag_at (c_lag tr) (c_sr tr) i == lag_at sl sr i) \/
  (c_net tr = r_net h2 ++ "-" ++ r_net h1 /\ c_sta tr = r_sta h2 ++ "-" ++ r_sta h1 /\ c_cha tr = r_cha h2 ++ "-" ++ r_cha h1 /\
   exists j, nth_error (c_data tr) j = Some v /\ lag_at (c_lag tr) (c_sr tr) j == - lag_at sl sr i).
Proof. exact flip_correct. Qed.
Print Assumptions C12_reordering_partial.
(** The correlator passes start + n/sr instead: every sample of every reordered pair is stored one sample too early. *)
Theorem C12_correlator_lag_refuted : forall h1 h2 sr sl data i v, ~ sr == 0 -> nth_error data i = Some v ->
  str_le (r_net h1 ++ r_sta h1 ++ r_cha h1) (r_net h2 ++ r_sta h2 ++ r_cha h2) = false ->
  let tr := store_pair h1 h2 sr sl data in
  nth_error (c_data tr) (length data - 1 - i) = Some v /\
  lag_at (c_lag tr) (c_sr tr) (length data - 1 - i) == - lag_at sl sr i - 1 / sr.
Proof. exact store_shifted. Qed.
Print Assumptions C12_correlator_lag_refuted.
(** a symmetric correlation of stations ABC and ABCD (in that order in the sorted stream): lags -2..2 become -3..1 *)
Example C12_example :
  let tr := store_pair (mkRH "XX" "ABC" "" "HHZ" 0 100) (mkRH "XX" "ABCD" "" "HHZ" 0 100) 1 (- (2)) [10; 20; 30; 40; 50]%Q in
  c_sta tr = "ABCD-ABC" /\ c_data tr = [50; 40; 30; 20; 10]%Q /\ map (lag_at (c_lag tr) (c_sr tr)) [0; 1; 2; 3; 4] = [- (3); - (2); - (1); 0; 1]%Q.
Proof. vm_compute. repeat split. Qed.

(** ** C13 *)
Theorem C13_consistent : forall init l s0, construct init = Ok s0 -> consistent (fold_left assign_step l s0).
Proof. exact steps_consistent. Qed.
Print Assumptions C13_consistent.
Theorem C13_updates_consistent : forall l s s', consistent s -> update s l = Ok s' -> consistent s'.
Proof. exact update_consistent. Qed.
Print Assumptions C13_updates_consistent.
Theorem C13_readonly : forall s a, readonly a = true -> setitem s a = Raise AttributeError.
Proof. exact readonly_refused. Qed.
Print Assumptions C13_readonly.
(** a copy of a header (the constructor gets the items in any order) is the same header *)
Theorem C13_copy : forall t l, consistent t -> NoDup (map fst (s_other t)) -> Permutation l (items t) ->
  exists s, construct l = Ok s /\ same_header s t.
Proof. exact copy_same. Qed.
Print Assumptions C13_copy.
(** assigning the component "x-y" changes the last letters of the two channel codes and nothing else *)
Theorem C13_component : forall s a b c d x y, s_cha s = a ++ String c "" ++ "-" ++ b ++ String d "" ->
  has_char "-" (a ++ String c "") = false -> has_char "-" (b ++ String d "") = false -> x <> "-"%char -> y <> "-"%char ->
  exists s', setitem s (AComponent (String x (String "-" (String y "")))) = Ok s' /\
    s_cha s' = a ++ String x "" ++ "-" ++ b ++ String y "" /\ component_of s' = Ok (String x (String "-" (String y ""))) /\
    s_sr s' = s_sr s /\ s_npts s' = s_npts s /\ s_slag s' = s_slag s /\ s_elag s' = s_elag s /\ s_cstart s' = s_cstart s /\
    s_cend s' = s_cend s /\ s_other s' = s_other s.
Proof. exact component_assigned. Qed.
Print Assumptions C13_component.
Example C13_example : exists s, construct [ANpts 61; ADelta (1 # 2); AStartLag (- (15)); AEndLag 99; AChannel "HHZ-HHE"; AOther "calib" "1.0"] = Ok s /\
  s_elag s == 15 /\ s_sr s == 2 /\ component_of s = Ok "Z-E" /\ consistent s /\
  exists s', setitem s (AComponent "N-N") = Ok s' /\ s_cha s' = "HHN-HHN" /\ s_elag (assign_step s' (ANpts 0)) == - (15).
Proof.
  destruct (construct _) as [s|] eqn:E; [|discriminate]. exists s. split; [reflexivity|].
  assert (C : consistent s) by (eapply C13_updates_consistent; [apply default_consistent|exact E]).
  vm_compute in E. injection E as <-. split; [reflexivity|]. split; [reflexivity|]. split; [reflexivity|]. split; [exact C|].
  eexists. split; [vm_compute; reflexivity|]. split; reflexivity.
Qed.
