(** Proofs about groups, grids and files of waveform coherences. *)
From Coq Require Import Reals Lra QArith Qfield Permutation Sorted.
From Verif Require Import Lib.Base Lib.Str Model.Similarity Model.DVFile Model.Averages Model.Wfc
  Spec.DVFileSpec Spec.WfcSpec Proofs.DVFileFacts Proofs.AlignFacts Proofs.WfcFacts.
Local Open Scope nat_scope.

(** ** groups *)
Lemma same_group_iff a b : same_group a b = true <-> same_place a b.
Proof. unfold same_group, same_place. rewrite !andb_true_iff, !String.eqb_eq, same_parameters_iff. tauto. Qed.
Lemma same_place_refl a : same_place a a. Proof. repeat split; reflexivity. Qed.
Lemma same_place_sym a b : same_place a b -> same_place b a.
Proof. intros (A & B & C & D & E & F). repeat split; now symmetry. Qed.
Lemma same_place_trans a b c : same_place a b -> same_place b c -> same_place a c.
Proof. intros (A & B & C & D & E & F) (A' & B' & C' & D' & E' & F'). repeat split; etransitivity; eassumption. Qed.
Lemma firsts_spec l : forall seen,
  (forall w, In w (first_of_groups l seen) -> In w l /\ forall s, In s seen -> ~ same_place w s) /\
  (forall w, In w l -> exists s, In s (first_of_groups l seen ++ seen) /\ same_place s w) /\
  ForallOrdPairs (fun a b => ~ same_place a b) (first_of_groups l seen).
Proof.
  induction l as [|x l IH]; intros seen; cbn [first_of_groups]; [split; [intros w []|split; [intros w []|constructor]]|].
  destruct (existsb (same_group x) seen) eqn:E.
  - destruct (IH seen) as (A & B & C). split; [|split; [|exact C]].
    + intros w I. destruct (A w I). split; [now right|assumption].
    + intros w [<-|I]; [|now apply B]. apply existsb_exists in E. destruct E as (s & I & G). exists s. split; [apply in_or_app; now right|].
      apply same_place_sym, same_group_iff, G.
  - destruct (IH (x :: seen)) as (A & B & C). split; [|split].
    + intros w [<-|I].
      * split; [now left|]. intros s I S. assert (X : existsb (same_group x) seen = true) by (apply existsb_exists; exists s; split; [exact I|now apply same_group_iff]). congruence.
      * destruct (A w I) as [J K]. split; [now right|]. intros s S. apply K. now right.
    + intros w [<-|I]; [exists x; split; [now left|apply same_place_refl]|]. destruct (B w I) as (s & S & P). exists s. split; [|exact P].
      apply in_app_or in S. destruct S as [S|[<-|S]]; [right; apply in_or_app; now left|now left|right; apply in_or_app; now right].
    + constructor; [|exact C]. apply Forall_forall. intros w I S. destruct (A w I) as [_ K]. apply (K x); [now left|now apply same_place_sym].
Qed.

Lemma groups_partition_from F l : (forall w, In w l -> exists s, In s F /\ same_place s w) -> ForallOrdPairs (fun a b => ~ same_place a b) F ->
  Permutation (concat (map (fun w => filter (same_group w) l) F)) l.
Proof.
  intros C P. induction l as [|x l IH].
  - clear. induction F as [|f F IH]; [constructor|]. exact IH.
  - destruct (C x (or_introl eq_refl)) as (s & I & S).
    apply Permutation_trans with (x :: concat (map (fun w => filter (same_group w) l) F)).
    2:{ constructor. apply IH. intros w J. apply C. now right. }
    clear IH C. induction P as [|f F NF P IH]; [destruct I|]. cbn [map concat filter].
    destruct I as [->|I].
    + rewrite (proj2 (same_group_iff s x) S). cbn. constructor. apply Permutation_app_head.
      replace (map (fun w => filter (same_group w) l) F) with (map (fun w => filter (same_group w) (x :: l)) F); [apply Permutation_refl|].
      apply map_ext_in. intros w J. cbn [filter]. destruct (same_group w x) eqn:G; [|reflexivity]. exfalso. rewrite Forall_forall in NF. apply (NF w J).
      apply same_place_trans with x; [exact S|]. apply same_place_sym, same_group_iff, G.
    + assert (G : same_group f x = false).
      { destruct (same_group f x) eqn:G; [|reflexivity]. exfalso. rewrite Forall_forall in NF. apply (NF s I). apply same_group_iff in G.
        apply same_place_trans with x; [exact G|now apply same_place_sym]. }
      rewrite G. eapply Permutation_trans; [apply Permutation_app_head, IH, I|]. apply Permutation_sym, Permutation_middle.
Qed.
Lemma groups_partition l : Permutation (concat (groups l)) l.
Proof.
  unfold groups. destruct (firsts_spec l []) as (A & B & C). apply groups_partition_from; [|exact C].
  intros w I. destruct (B w I) as (s & S & P). rewrite app_nil_r in S. now exists s.
Qed.
Lemma groups_members l g : In g (groups l) -> g <> [] /\ forall w v, In w g -> (In v g <-> In v l /\ same_place w v).
Proof.
  unfold groups. rewrite in_map_iff. intros (s & <- & I). destruct (firsts_spec l []) as (A & B & C). destruct (A s I) as [J _].
  split.
  - intros E. assert (X : In s (filter (same_group s) l)) by (apply filter_In; split; [exact J|apply same_group_iff, same_place_refl]). rewrite E in X. destruct X.
  - intros w v W. apply filter_In in W. destruct W as [W G]. apply same_group_iff in G. rewrite filter_In, same_group_iff. split; intros [H K]; (split; [exact H|]).
    + apply same_place_trans with s; [now apply same_place_sym|exact K].
    + now apply same_place_trans with w.
Qed.
Lemma groups_distinct l i j g h w v : nth_error (groups l) i = Some g -> nth_error (groups l) j = Some h -> In w g -> In v h -> same_place w v -> i = j.
Proof.
  unfold groups. rewrite !nth_error_map. destruct (firsts_spec l []) as (_ & _ & C). set (F := first_of_groups l []) in *. clearbody F.
  destruct (nth_error F i) as [s|] eqn:A; [|discriminate]. destruct (nth_error F j) as [t|] eqn:B; [|discriminate]. cbn [option_map].
  intros [= <-] [= <-] W V S. apply filter_In in W. apply filter_In in V. destruct W as [_ W], V as [_ V]. apply same_group_iff in W. apply same_group_iff in V.
  assert (P : same_place s t) by (apply same_place_trans with w; [exact W|]; apply same_place_trans with v; [exact S|now apply same_place_sym]).
  clear W V S w v. revert i j A B. induction C as [|f F N C IH]; intros [|i] [|j] A B; cbn in A, B; try discriminate; try reflexivity.
  - injection A as ->. apply nth_error_In in B. rewrite Forall_forall in N. exfalso. exact (N t B P).
  - injection B as ->. apply nth_error_In in A. rewrite Forall_forall in N. exfalso. exact (N s A (same_place_sym _ _ P)).
  - f_equal. now apply IH.
Qed.

(** ** grid *)
Lemma centred_iff w f t : Qeq_bool (cfreq w) f && Qeq_bool (midpoint w) t = true <-> centred w f t.
Proof.
  rewrite andb_true_iff, !Qeq_bool_iff. unfold cfreq, midpoint, centred. split; intros [A B]; split.
  - rewrite <- A. field.
  - rewrite <- B. field.
  - setoid_replace f with ((1 # 2) * (2 * f))%Q by ring. rewrite A. field.
  - setoid_replace t with ((1 # 2) * (2 * t))%Q by ring. rewrite B. field.
Qed.
Lemma centred_self w : centred w (cfreq w) (midpoint w).
Proof. apply centred_iff. rewrite andb_true_iff, !Qeq_bool_iff. split; reflexivity. Qed.
Lemma centred_eq w f t f' t' : (f == f')%Q -> (t == t')%Q -> centred w f t <-> centred w f' t'.
Proof. intros A B. unfold centred. rewrite A, B. reflexivity. Qed.
Lemma cell_app l1 l2 f t : (forall w, In w l2 -> ~ centred w f t) -> cell (l1 ++ l2) f t = cell l1 f t.
Proof.
  intros H. unfold cell. rewrite fold_left_app. revert H. generalize (fold_left (fun acc w => if Qeq_bool (cfreq w) f && Qeq_bool (midpoint w) t then mean_of w else acc) l1 None).
  induction l2 as [|w l IH]; intros o H; [reflexivity|]. cbn [fold_left].
  destruct (Qeq_bool (cfreq w) f && Qeq_bool (midpoint w) t) eqn:E; [apply centred_iff in E; exfalso; apply (H w); [now left|exact E]|].
  apply IH. intros x I. apply H. now right.
Qed.
Lemma cell_none l f t : (forall w, In w l -> ~ centred w f t) -> cell l f t = None.
Proof. intros H. rewrite <- (app_nil_l l). now rewrite cell_app. Qed.
Lemma cell_last l1 w l2 f t : centred w f t -> (forall x, In x l2 -> ~ centred x f t) -> cell (l1 ++ w :: l2) f t = mean_of w.
Proof.
  intros C H. replace (l1 ++ w :: l2)%list with ((l1 ++ [w]) ++ l2)%list by now rewrite <- app_assoc. rewrite cell_app by exact H.
  unfold cell. rewrite fold_left_app. cbn [fold_left]. now rewrite (proj2 (centred_iff w f t) C).
Qed.
Lemma sorted_position (l : list Q) i j x y : StronglySorted Qlt l -> nth_error l i = Some x -> nth_error l j = Some y -> (x == y)%Q -> i = j.
Proof.
  intros S. revert i j. induction S as [|a l S IH F]; intros [|i] [|j] A B E; cbn in A, B; try discriminate; try reflexivity.
  - injection A as ->. apply nth_error_In in B. rewrite Forall_forall in F. specialize (F y B). rewrite E in F. destruct (Qlt_irrefl y F).
  - injection B as ->. apply nth_error_In in A. rewrite Forall_forall in F. specialize (F x A). rewrite E in F. destruct (Qlt_irrefl y F).
  - f_equal. now apply (IH i j).
Qed.
Lemma grid_shape l : StronglySorted Qlt (g_freqs (wfc_bulk l)) /\ StronglySorted Qlt (g_times (wfc_bulk l)) /\
  length (g_values (wfc_bulk l)) = length (g_freqs (wfc_bulk l)) /\ (forall row, In row (g_values (wfc_bulk l)) -> length row = length (g_times (wfc_bulk l))) /\
  (forall f, In f (g_freqs (wfc_bulk l)) -> exists w, In w l /\ exists t, centred w f t) /\
  (forall t, In t (g_times (wfc_bulk l)) -> exists w, In w l /\ exists f, centred w f t).
Proof.
  unfold wfc_bulk. cbn [g_freqs g_times g_values].
  destruct (unique_spec (map (fun w => Some (cfreq w)) l)) as (A & B & _). destruct (unique_spec (map (fun w => Some (midpoint w)) l)) as (C & D & _).
  split; [exact A|]. split; [exact C|]. split; [apply map_length|]. split; [|split].
  - intros row I. apply in_map_iff in I. destruct I as (f & <- & _). apply map_length.
  - intros f I. apply B in I. apply in_map_iff in I. destruct I as (w & [= <-] & I). exists w. split; [exact I|]. exists (midpoint w). apply centred_self.
  - intros f I. apply D in I. apply in_map_iff in I. destruct I as (w & [= <-] & I). exists w. split; [exact I|]. exists (cfreq w). apply centred_self.
Qed.
Lemma grid_at l f t v : at_cell (wfc_bulk l) f t v -> v = cell l f t.
Proof.
  intros (i & j & f' & t' & row & A & B & F & T & C & D). unfold wfc_bulk in *. cbn [g_freqs g_times g_values] in *.
  rewrite nth_error_map, A in C. cbn in C. injection C as <-. rewrite nth_error_map, B in D. cbn in D. injection D as <-.
  unfold cell. generalize (@None R). clear - F T. induction l as [|w l IH]; intros o; [reflexivity|]. cbn [fold_left]. rewrite <- IH. f_equal.
  assert (E : Qeq_bool (cfreq w) f' && Qeq_bool (midpoint w) t' = Qeq_bool (cfreq w) f && Qeq_bool (midpoint w) t).
  { apply eq_true_iff_eq. rewrite !centred_iff. now apply centred_eq. }
  now rewrite E.
Qed.
Lemma grid_cell l w f t : In w l -> centred w f t -> at_cell (wfc_bulk l) f t (cell l f t).
Proof.
  intros I C. assert (E := proj2 (centred_iff w f t) C). apply andb_true_iff in E. rewrite !Qeq_bool_iff in E. destruct E as [EF ET].
  destruct (unique_spec (map (fun w => Some (cfreq w)) l)) as (_ & _ & A). destruct (unique_spec (map (fun w => Some (midpoint w)) l)) as (_ & _ & B).
  destruct (A (cfreq w)) as (f' & F & F'); [apply in_map_iff; now exists w|]. destruct (B (midpoint w)) as (t' & T & T'); [apply in_map_iff; now exists w|].
  apply In_nth_error in F. apply In_nth_error in T. destruct F as [i F], T as [j T].
  assert (V : at_cell (wfc_bulk l) f t (cell l f' t')).
  { exists i, j, f', t', (map (cell l f') (unique (map (fun w => Some (midpoint w)) l))).
    split; [exact F|]. split; [exact T|]. split; [now rewrite F'|]. split; [now rewrite T'|]. unfold wfc_bulk. cbn [g_values]. split.
    - rewrite nth_error_map, F. reflexivity.
    - rewrite nth_error_map, T. reflexivity. }
  now rewrite <- (grid_at _ _ _ _ V) at 1.
Qed.
Lemma grid_value l1 w l2 f t : centred w f t -> (forall x, In x l2 -> ~ centred x f t) ->
  exists v, at_cell (wfc_bulk (l1 ++ w :: l2)) f t v /\ has_mean w v /\ forall v', at_cell (wfc_bulk (l1 ++ w :: l2)) f t v' -> v' = v.
Proof.
  intros C H. exists (mean_of w). split; [|split; [apply mean_of_spec|]].
  - rewrite <- (cell_last l1 w l2 f t C H). apply (grid_cell _ w); [|exact C]. apply in_or_app. right. now left.
  - intros v' V. apply grid_at in V. now rewrite cell_last in V.
Qed.
Lemma grid_empty l f t v : at_cell (wfc_bulk l) f t v -> (forall w, In w l -> ~ centred w f t) -> v = None.
Proof. intros V H. apply grid_at in V. rewrite V. now apply cell_none. Qed.
