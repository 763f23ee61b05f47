(** C76 - C80: averages of velocity changes, averages over an area, alignment of several curves. *)
From Coq Require Import QArith Lqa.
From Verif Require Import Lib.Base Lib.Str Model.CorrStream Model.LagMatrix Model.DVs Model.Averages
  Spec.LagSpec Spec.DVSpec Spec.AveragesSpec Proofs.AveragesFacts Proofs.AlignFacts Proofs.AlignedAverage.
Local Open Scope string_scope.
Local Open Scope nat_scope.

(** ** C76 *)
(** Every similarity of the result is the average over exactly those DVs that are no averages themselves and have the
    times and stretches of the first one; the number of components is counted per time. *)
Theorem C76_average : forall rows cols d0 l a, 0 < rows ->
  (forall d, In d (d0 :: l) -> exists r c, 0 < r /\ dv_shape r c d) -> dv_shape rows cols d0 ->
  average_components (d0 :: l) = Ok a ->
  exists us, picked (contributes d0) (d0 :: l) us /\ us <> [] /\ dims rows cols (a_sim a) /\
    (forall i j, i < rows -> j < cols -> is_average (map (fun d => cell (d_sim d) i j) us) (cell (a_sim a) i j)) /\
    length (a_n a) = rows /\
    (forall i, i < rows -> nth i (a_n a) 0 = length (filter (fun d => is_some (nth i (d_corr d) None)) us)).
Proof. exact average_spec. Qed.
Print Assumptions C76_average.

(** The correlation is the highest averaged similarity of its time; correlation and value are missing for exactly
    the times without any similarity. *)
Theorem C76_correlation : forall dvs a, average_components dvs = Ok a ->
  length (a_corr a) = length (a_sim a) /\ length (a_value a) = length (a_sim a) /\
  forall i row, nth_error (a_sim a) i = Some row -> exists c v, nth_error (a_corr a) i = Some c /\ nth_error (a_value a) i = Some v /\
    highest row c /\ (v = None <-> c = None).
Proof. exact average_correlation. Qed.
Print Assumptions C76_correlation.

(** C79.  The value is a stretch with the highest similarity, if that is positive or no similarity is missing.
    Missing: negative similarities with gaps, for which it is false. *)
Theorem C79_value_partial : forall d0 r a i row m, average_components (d0 :: r) = Ok a -> nth_error (a_sim a) i = Some row ->
  nth_error (a_corr a) i = Some (Some m) -> (0 < m)%Q \/ (forall x, In x row -> x <> None) ->
  exists k v q, nth_error (d_axis d0) k = Some v /\ nth_error (a_value a) i = Some (Some v) /\ nth_error row k = Some (Some q) /\ (q == m)%Q.
Proof. exact average_value. Qed.
Print Assumptions C79_value_partial.

(** The codes of the result are those that all components share, otherwise "av". *)
Theorem C76_codes : forall rows cols d0 l a, 0 < rows ->
  (forall d, In d (d0 :: l) -> exists r c, 0 < r /\ dv_shape r c d) -> dv_shape rows cols d0 ->
  average_components (d0 :: l) = Ok a ->
  exists us, picked (contributes d0) (d0 :: l) us /\
    code_of (map d_net us) (a_net a) /\ code_of (map d_sta us) (a_sta a) /\ code_of (map d_cha us) (a_cha a).
Proof. exact average_codes. Qed.
Print Assumptions C76_codes.

(** There is a result exactly if all methods agree and at least one DV contributes. *)
Theorem C76_outcome : forall rows cols d0 l, 0 < rows -> 0 < cols ->
  (forall d, In d (d0 :: l) -> exists r c, 0 < r /\ dv_shape r c d) -> dv_shape rows cols d0 ->
  match average_components (d0 :: l) with
  | Ok _ => (forall d, In d (d0 :: l) -> d_method d = d_method d0) /\ exists d, In d (d0 :: l) /\ contributes d0 d
  | Raise e => (e = TypeError /\ exists d, In d (d0 :: l) /\ d_method d <> d_method d0) \/
               (e = ValueError /\ forall d, In d (d0 :: l) -> ~ contributes d0 d)
  end.
Proof. exact average_outcome. Qed.
Print Assumptions C76_outcome.

Definition q (z : Z) : sample := Some (inject_Z z).
Definition dv_of (cha : string) (corr value : list sample) (sim : list (list sample)) (t0 : list Z) : dv :=
  mkDV corr value sim [0%Q; 1%Q] "m" "N-N" "A-A" cha t0 t0.
Definition dv_a := dv_of "Z-Z" [q 3; None; None] [q 0; None; None] [[q 3; q 1]; [None; None]; [None; None]] [0; 1; 2]%Z.
Definition dv_b := dv_of "N-N" [q 7; q 2; None] [q 1; q 1; None] [[q 5; q 7]; [q 1; q 2]; [None; None]] [0; 1; 2]%Z.
Definition dv_av := dv_of "av" [q 9; q 9; q 9] [q 1; q 1; q 1] [[q 9; q 9]; [q 9; q 9]; [q 9; q 9]] [0; 1; 2]%Z.
Lemma shape_of cha corr value sim t0 : length sim = 3 -> (forall r, In r sim -> length r = 2) -> length corr = 3 -> length value = 3 ->
  dv_shape 3 2 (dv_of cha corr value sim t0).
Proof. intros A B C D. split; assumption || reflexivity. Qed.
Example C76_example : exists a, average_components [dv_a; dv_av; dv_b] = Ok a /\
  (forall d, In d [dv_a; dv_av; dv_b] -> dv_shape 3 2 d) /\ picked (contributes dv_a) [dv_a; dv_av; dv_b] [dv_a; dv_b] /\
  a_cha a = "av" /\ a_net a = "N-N" /\ a_n a = [2; 1; 0] /\ a_value a = [Some 0%Q; Some 1%Q; None] /\
  map (option_map Qred) (a_corr a) = [q 4; q 2; None].
Proof.
  eexists. split; [vm_compute; reflexivity|].
  assert (SH : forall d, In d [dv_a; dv_av; dv_b] -> dv_shape 3 2 d).
  { intros d [<-|[<-|[<-|[]]]]; apply shape_of; try reflexivity; intros r [<-|[<-|[<-|[]]]]; reflexivity. }
  assert (DM : forall d, In d [dv_a; dv_av; dv_b] -> dims 3 2 (d_sim d)) by (intros d I; now apply shape_dims, SH).
  split; [exact SH|]. split; [|repeat split].
  constructor; [|constructor; [|constructor; [|constructor]]].
  - split; [reflexivity|]. split; [exists 3, 2; split; apply DM; cbn; auto|]. repeat constructor.
  - intros [H _]. vm_compute in H. discriminate.
  - split; [reflexivity|]. split; [exists 3, 2; split; apply DM; cbn; auto|]. repeat constructor.
Qed.

(** Similarities below zero and a missing one: the value is the stretch without any similarity. *)
Theorem C79_negative_refuted : exists d a, average_components [d] = Ok a /\
  a_sim a = [[None; q (-1)]] /\ a_corr a = [q (-1)] /\ a_value a = [Some 0%Q] /\ d_axis d = [0%Q; 1%Q].
Proof.
  exists (dv_of "Z-Z" [q (-1)] [q 1] [[None; q (-1)]] [0%Z]). eexists. split; [vm_compute; reflexivity|]. repeat split.
Qed.
Print Assumptions C79_negative_refuted.

(** ** C77 *)
(** The result is the average of exactly the DVs of which both stations are within the limits (limits included) and
    which are not marked as averages by their channel; its codes and coordinates describe the area.
    Missing: lists with results of an earlier average over an area (see below). *)
Theorem C77_area_partial : forall dvs lat lon el, (forall p, In p dvs -> d_cha (p_dv p) <> "av" -> has_numbers p) ->
  exists l, picked (fun p => d_cha (p_dv p) <> "av" /\ inside_area lat lon el p) dvs l /\
  match average_by_coords dvs lat lon el with
  | Ok r => exists a, l <> [] /\ average_components (map p_dv l) = Ok a /\
      a_sim (aa r) = a_sim a /\ a_corr (aa r) = a_corr a /\ a_value (aa r) = a_value a /\ a_n (aa r) = a_n a /\ a_cha (aa r) = a_cha a /\
      a_net (aa r) = "geoav" /\ a_sta (aa r) = "geoav" /\
      aa_lat r = Span (fst lat) (snd lat) /\ aa_lon r = Span (fst lon) (snd lon) /\ aa_el r = Span (fst el) (snd el)
  | Raise e => (l = [] /\ e = ValueError) \/ (l <> [] /\ average_components (map p_dv l) = Raise e)
  end.
Proof. exact by_coords_spec. Qed.
Print Assumptions C77_area_partial.

(** DVs outside make no difference. *)
Theorem C77_outside_partial : forall dvs dvs' lat lon el l,
  (forall p, In p (dvs ++ dvs')%list -> d_cha (p_dv p) <> "av" -> has_numbers p) ->
  picked (fun p => d_cha (p_dv p) <> "av" /\ inside_area lat lon el p) dvs l ->
  picked (fun p => d_cha (p_dv p) <> "av" /\ inside_area lat lon el p) dvs' l ->
  average_by_coords dvs lat lon el = average_by_coords dvs' lat lon el.
Proof. exact by_coords_same. Qed.
Print Assumptions C77_outside_partial.

Definition at_place (d : dv) (x y : Q) : placed := mkP d (At x) (At x) (At y) (At y) (At 0) (At 0).
Definition area := (0%Q, 2%Q).
Example C77_example :
  picked (fun p => d_cha (p_dv p) <> "av" /\ inside_area area area area p)
    [at_place dv_b 2 1; at_place dv_a 1 3; at_place dv_av 1 1] [at_place dv_b 2 1] /\
  exists r, average_by_coords [at_place dv_b 2 1; at_place dv_a 1 3; at_place dv_av 1 1] area area area = Ok r /\ a_cha (aa r) = "N-N" /\
    a_n (aa r) = [1; 1; 0] /\ aa_lat r = Span 0 2.
Proof.
  split.
  - constructor; [|constructor; [|constructor; [|constructor]]].
    + split; [discriminate|]. repeat split; eexists; (split; [reflexivity|]); split; discriminate.
    + intros [_ (_ & _ & (x & [= <-] & H) & _)]. cbn in H. lra.
    + intros [H _]. now apply H.
  - eexists. split; [vm_compute; reflexivity|]. repeat split.
Qed.

(** The result of an average over an area, in which all components were the same, in a later list: TypeError instead of
    being skipped, wherever it is and whatever else is in the list. *)
Theorem C77_earlier_average_refuted : forall dvs lat lon el, (exists p, In p dvs /\ d_cha (p_dv p) <> "av" /\ ~ has_numbers p) ->
  average_by_coords dvs lat lon el = Raise TypeError.
Proof. exact by_coords_earlier. Qed.
Print Assumptions C77_earlier_average_refuted.
Example C77_earlier_average_example : exists r d, average_by_coords [at_place dv_b 2 1] area area area = Ok r /\
  d = mkDV (a_corr (aa r)) (a_value (aa r)) (a_sim (aa r)) [0%Q; 1%Q] "m" (a_net (aa r)) (a_sta (aa r)) (a_cha (aa r)) [] [] /\
  average_by_coords [at_place dv_b 2 1; mkP d (aa_lat r) (aa_lat r) (aa_lon r) (aa_lon r) (aa_el r) (aa_el r)] area area area = Raise TypeError.
Proof. eexists. eexists. split; [vm_compute; reflexivity|]. split; [reflexivity|]. vm_compute. reflexivity. Qed.

(** ** C78 *)
(** Each curve is shifted to the curve that precedes it in time, as that one is after its own shift; without a
    predecessor a curve stays as it is, and so it does if the shift cannot be determined. *)
Theorem C78_chain : forall m n dvs res, align_several m n dvs = Ok res ->
  length res = length dvs /\
  forall i d, nth_error dvs i = Some d -> exists d', nth_error res i = Some d' /\
    ((forall r, ~ predecessor dvs i r) -> d' = d) /\
    (forall r, predecessor dvs i r -> exists ref, nth_error res r = Some ref /\
       (correct_dv_shift d ref m n = Ok d' \/ (correct_dv_shift d ref m n = Raise ValueError /\ d' = d))).
Proof. exact align_spec. Qed.
Print Assumptions C78_chain.

(** Every curve with measurements has a predecessor if any other one is earlier. *)
Theorem C78_predecessor : forall dvs i d c, nth_error dvs i = Some d -> mean_start d c ->
  (exists j f a, nth_error dvs j = Some f /\ mean_start f a /\ (a < c)%Q) -> exists r, predecessor dvs i r.
Proof. exact predecessor_exists. Qed.
Print Assumptions C78_predecessor.

(** Correlations, stretches, times and codes of every curve are kept. *)
Theorem C78_kept : forall m n dvs res, align_several m n dvs = Ok res -> forall i d d', nth_error dvs i = Some d -> nth_error res i = Some d' ->
  d_corr d' = d_corr d /\ d_axis d' = d_axis d /\ d_t0 d' = d_t0 d /\ d_net d' = d_net d /\ d_sta d' = d_sta d /\ d_cha d' = d_cha d.
Proof. exact align_kept. Qed.
Print Assumptions C78_kept.

(** An average with correct_shift is the average of the aligned curves: exactly those are aligned that contribute, and
    all of them are averaged. *)
Theorem C78_average : forall m n rows cols d0 l a, 0 < rows ->
  (forall d, In d (d0 :: l) -> exists r c, 0 < r /\ dv_shape r c d) -> dv_shape rows cols d0 ->
  average_aligned m n (d0 :: l) = Ok a ->
  exists us res, picked (contributes d0) (d0 :: l) us /\ us <> [] /\ align_several m n us = Ok res /\
    dims rows cols (a_sim a) /\
    (forall i j, i < rows -> j < cols -> is_average (map (fun d => cell (d_sim d) i j) res) (cell (a_sim a) i j)) /\
    length (a_n a) = rows /\
    (forall i, i < rows -> nth i (a_n a) 0 = length (filter (fun d => is_some (nth i (d_corr d) None)) us)).
Proof. exact aligned_average. Qed.
Print Assumptions C78_average.

(** three curves, each measured at two of four times; given in another order *)
Definition axis5 : list Q := [0; 1; 2; 3; 4]%Q.
Definition peak (k : nat) : list sample := map (fun j => if j =? k then q 9 else q 0) (seq 0 5).
Definition gap : list sample := [None; None; None; None; None].
Definition curve (corr value : list sample) (sim : list (list sample)) : dv :=
  mkDV corr value sim axis5 "m" "N-N" "A-A" "Z-Z" [0; 1; 2; 3; 4; 5]%Z [1; 2; 3; 4; 5; 6]%Z.
Definition one : sample := q 1.
Definition early := curve [one; one; one; None; None; None] [q 1; q 1; q 1; None; None; None] [peak 1; peak 1; peak 1; gap; gap; gap].
Definition middle := curve [None; one; one; one; one; None] [None; q 2; q 2; q 2; q 2; None] [gap; peak 2; peak 2; peak 2; peak 2; gap].
Definition late := curve [None; None; None; one; one; one] [None; None; None; q 3; q 3; q 3] [gap; gap; gap; peak 3; peak 3; peak 3].
Definition curves : list dv := [late; early; middle].
Example C78_example : exists res, align_several Mean 0 curves = Ok res /\
  nth_error res 1 = Some early /\ map (fun d => nth 3 (d_value d) None) res = [q 1; None; q 1] /\
  (forall r, ~ predecessor curves 1 r) /\ predecessor curves 2 1 /\ predecessor curves 0 2.
Proof.
  assert (ME : mean_start early 1) by (exists [0; 1; 2]%Z; split; [discriminate|split; reflexivity]).
  assert (MM : mean_start middle (5 # 2)) by (exists [1; 2; 3; 4]%Z; split; [discriminate|split; reflexivity]).
  assert (ML : mean_start late 4) by (exists [3; 4; 5]%Z; split; [discriminate|split; reflexivity]).
  assert (ALL : forall j f a, nth_error curves j = Some f -> mean_start f a ->
    (j = 0 /\ (a == 4)%Q) \/ (j = 1 /\ (a == 1)%Q) \/ (j = 2 /\ (a == 5 # 2)%Q)).
  { intros [|[|[|j]]] f a J A; cbn in J; [| | |destruct j; discriminate]; injection J as <-.
    - left. split; [reflexivity|]. exact (mean_start_unique _ _ _ A ML).
    - right. left. split; [reflexivity|]. exact (mean_start_unique _ _ _ A ME).
    - right. right. split; [reflexivity|]. exact (mean_start_unique _ _ _ A MM). }
  eexists. split; [vm_compute; reflexivity|]. split; [reflexivity|]. split; [reflexivity|].
  split; [|split].
  - intros r [(d & e & c & b & D & E & MC & MB & LT & _)].
    destruct (ALL 1 d c D MC) as [[H _]|[[_ H]|[H _]]]; try discriminate.
    destruct (ALL r e b E MB) as [[_ K]|[[_ K]|[_ K]]]; lra.
  - split. exists middle, early, (5 # 2)%Q, 1%Q. repeat split; try assumption;
      destruct (ALL j f a H H0) as [[K1 K2]|[[K1 K2]|[K1 K2]]]; try lra; lia || (intros; lra).
  - split. exists late, middle, 4%Q, (5 # 2)%Q. repeat split; try assumption;
      destruct (ALL j f a H H0) as [[K1 K2]|[[K1 K2]|[K1 K2]]]; try lra; lia || (intros; lra).
Qed.
Example C78_average_example : exists a, average_aligned Mean 0 curves = Ok a /\
  a_value a = [q 1; q 1; q 1; q 1; q 1; q 1] /\ a_n a = [1; 2; 2; 2; 2; 1].
Proof. eexists. split; [vm_compute; reflexivity|]. split; reflexivity. Qed.


(** ** C80 *)
(** Two curves, one earlier than the other: the later one is shifted to the earlier one, in whatever order they are given.
    Missing: curves of the same times and more than two curves, for which it is false. *)
Theorem C80_two_partial : forall m n d e a b e', mean_start d a -> mean_start e b -> (a < b)%Q -> correct_dv_shift e d m n = Ok e' ->
  align_several m n [d; e] = Ok [d; e'] /\ align_several m n [e; d] = Ok [e'; d].
Proof. exact align_two. Qed.
Print Assumptions C80_two_partial.
Example C80_two_example : mean_start early 1 /\ mean_start middle (5 # 2) /\ exists e', correct_dv_shift middle early Mean 0 = Ok e' /\ nth 2 (d_value middle) None = q 2 /\ nth 2 (d_value e') None = nth 2 (d_value early) None.
Proof.
  split; [exists [0; 1; 2]%Z; split; [discriminate|split; reflexivity]|].
  split; [exists [1; 2; 3; 4]%Z; split; [discriminate|split; reflexivity]|].
  eexists. split; [vm_compute; reflexivity|]. split; reflexivity.
Qed.

(** Two curves of the same times: they stay apart although they overlap completely. *)
Theorem C80_same_times_refuted : exists d e, align_several Mean 0 [d; e] = Ok [d; e] /\
  d_t0 d = d_t0 e /\ avail d = avail e /\ avail d = [true; true] /\ d_value d = [q 1; q 1] /\ d_value e = [q 2; q 2] /\
  exists e', correct_dv_shift e d Mean 0 = Ok e' /\ d_value e' = d_value d.
Proof.
  exists (mkDV [one; one] [q 1; q 1] [peak 1; peak 1] axis5 "m" "N-N" "A-A" "Z-Z" [0; 1]%Z [1; 2]%Z),
         (mkDV [one; one] [q 2; q 2] [peak 2; peak 2] axis5 "m" "N-N" "A-A" "E-E" [0; 1]%Z [1; 2]%Z).
  split; [vm_compute; reflexivity|]. repeat split. eexists. split; [vm_compute; reflexivity|]. reflexivity.
Qed.
Print Assumptions C80_same_times_refuted.

(** If a curve cannot be shifted, later curves are aligned with it where it is: here the third one, although
    all measurements of the first one are known. *)
Theorem C80_broken_chain_refuted : exists d e f res, align_several Mean 0 [d; e; f] = Ok res /\
  correct_dv_shift e d Mean 0 = Raise ValueError /\ nth_error res 0 = Some d /\ nth_error res 1 = Some e /\
  predecessor [d; e; f] 1 0 /\
  map (fun x => nth 5 (d_value x) None) res = [None; q 2; q 2] /\ nth 5 (d_value f) None = q 3 /\ nth 0 (d_value d) None = q 1.
Proof.
  set (d := curve [one; None; None; None; None; None] [q 1; None; None; None; None; None] [peak 1; gap; gap; gap; gap; gap]).
  set (e := curve [None; None; one; one; one; one] [None; None; q 2; q 2; q 2; q 2] [gap; gap; peak 2; peak 2; peak 2; peak 2]).
  set (f := curve [None; None; None; one; one; one] [None; None; None; q 3; q 3; q 3] [gap; gap; gap; peak 3; peak 3; peak 3]).
  exists d, e, f. eexists. split; [vm_compute; reflexivity|]. split; [vm_compute; reflexivity|]. split; [reflexivity|]. split; [reflexivity|].
  split; [|repeat split].
  assert (MD : mean_start d 0) by (exists [0]%Z; split; [discriminate|split; reflexivity]).
  assert (ME : mean_start e (7 # 2)) by (exists [2; 3; 4; 5]%Z; split; [discriminate|split; reflexivity]).
  assert (MF : mean_start f 4) by (exists [3; 4; 5]%Z; split; [discriminate|split; reflexivity]).
  split. exists e, d, (7 # 2)%Q, 0%Q. split; [reflexivity|]. split; [reflexivity|]. split; [exact ME|]. split; [exact MD|]. split; [lra|].
  intros [|[|[|j]]] x a J A LT; cbn in J; [| | |destruct j; discriminate]; injection J as <-.
  - pose proof (mean_start_unique _ _ _ A MD). split; [lra|lia].
  - pose proof (mean_start_unique _ _ _ A ME). lra.
  - pose proof (mean_start_unique _ _ _ A MF). lra.
Qed.
Print Assumptions C80_broken_chain_refuted.
