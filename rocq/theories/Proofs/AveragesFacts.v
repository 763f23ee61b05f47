(** Proofs about averages of velocity changes. *)
From Coq Require Import QArith Lqa.
From Verif Require Import Lib.Base Lib.Str Model.CorrStream Model.LagMatrix Model.DVs Model.Averages
  Spec.LagSpec Spec.DVSpec Spec.AveragesSpec Proofs.LagFacts Proofs.DVFacts Proofs.MovingFacts.
Local Open Scope string_scope.
Local Open Scope nat_scope.

(** ** selections *)
Lemma picked_unique {A} (P : A -> Prop) l m m' : picked P l m -> picked P l m' -> m = m'.
Proof.
  intros H. revert m'. induction H as [|x l m Y H IH|x l m N H IH]; intros m' K; inversion K; subst; try contradiction; auto.
  f_equal. auto.
Qed.
Lemma picked_in {A} (P : A -> Prop) l m : picked P l m -> forall x, In x m <-> In x l /\ P x.
Proof.
  induction 1 as [|y l m Y H IH|y l m N H IH]; intros x.
  - cbn. tauto.
  - cbn. rewrite IH. split; [intros [->|[I J]]; auto|]. intros [[->|I] J]; auto.
  - cbn. rewrite IH. split; [intros [I J]; auto|]. intros [[->|I] J]; [contradiction|auto].
Qed.
Lemma picked_map {A B} (f : A -> B) (P : B -> Prop) l m : picked (fun x => P (f x)) l m -> picked P (map f l) (map f m).
Proof. induction 1; cbn; constructor; auto. Qed.

Lemma qlist_eqb_iff a b : qlist_eqb a b = true <-> Forall2 Qeq a b.
Proof.
  unfold qlist_eqb. rewrite andb_true_iff, Nat.eqb_eq. revert b. induction a as [|x a IH]; intros [|y b]; cbn.
  - split; [constructor|auto].
  - split; [intros [H _]; discriminate|inversion 1].
  - split; [intros [H _]; discriminate|inversion 1].
  - rewrite andb_true_iff, Qeq_bool_iff. split.
    + intros [L [E F]]. constructor; [exact E|]. apply IH. auto.
    + inversion 1 as [|? ? ? ? E F]; subst. apply IH in F as [F1 F2]. auto.
Qed.
Lemma dims_unique {A} r c r' c' (m : list (list A)) : dims r c m -> dims r' c' m -> 0 < r -> r = r' /\ c = c'.
Proof.
  intros [L H] [L' H'] R. split; [lia|]. destruct m as [|x m]; [cbn in L; lia|].
  rewrite <- (H x), <- (H' x); [reflexivity|now left|now left].
Qed.
Lemma shape_dims r c d : dv_shape r c d -> dims r c (d_sim d).
Proof. intros S. split; [apply (ds_sim _ _ _ S)|apply (ds_row _ _ _ S)]. Qed.

Section Use.
  Variables (rows cols : nat) (d0 : dv).
  Hypothesis R0 : 0 < rows.
  Hypothesis S0 : dv_shape rows cols d0.

  Lemma left_out_iff d r c : 0 < r -> dv_shape r c d -> left_out d0 d = false <-> contributes d0 d.
  Proof.
    intros R S. unfold left_out, contributes. rewrite !orb_false_iff, !negb_false_iff, andb_true_iff, !Nat.eqb_eq, qlist_eqb_iff.
    rewrite (shape_eq rows cols d0 S0 R0), (shape_eq r c d S R). cbn [fst snd]. unfold is_av.
    split.
    - intros [[A [-> ->]] F]. split; [exact A|]. split; [|exact F]. exists rows, cols. split; now apply shape_dims.
    - intros (A & (r' & c' & D0 & D) & F). split; [|exact F]. split; [exact A|].
      destruct (dims_unique _ _ _ _ _ (shape_dims _ _ _ S0) D0 R0) as [-> ->].
      destruct (dims_unique _ _ _ _ _ (shape_dims _ _ _ S) D R) as [-> ->]. now split.
  Qed.
  Lemma use_picked l : (forall d, In d l -> exists r c, 0 < r /\ dv_shape r c d) ->
    match use d0 l with
    | Ok us => picked (contributes d0) l us /\ forall d, In d l -> d_method d = d_method d0
    | Raise e => e = TypeError /\ exists d, In d l /\ d_method d <> d_method d0
    end.
  Proof.
    induction l as [|d l IH]; intros W; cbn [use]; [split; [constructor|intros d []]|].
    destruct (String.eqb_spec (d_method d) (d_method d0)) as [E|E]; cbn [negb].
    2:{ split; [reflexivity|]. exists d. split; [now left|exact E]. }
    assert (W' : forall d, In d l -> exists r c, 0 < r /\ dv_shape r c d) by (intros; apply W; now right).
    specialize (IH W'). destruct (use d0 l) as [us|e]; cbn [bind].
    - destruct IH as [P M]. split; [|intros x [<-|I]; auto].
      destruct (W d (or_introl eq_refl)) as (r & c & R & S). pose proof (left_out_iff d r c R S) as L.
      destruct (left_out d0 d); constructor; try assumption.
      + intros H. apply L in H. discriminate.
      + now apply L.
    - destruct IH as (-> & x & I & N). split; [reflexivity|]. exists x. split; [now right|exact N].
  Qed.
End Use.

(** ** the average *)
Definition has_corr (i : nat) (d : dv) : bool := is_some (nth i (d_corr d) None).
Lemma avail_nth i d : nth i (avail d) false = has_corr i d.
Proof. unfold avail, has_corr. exact (map_nth is_some (d_corr d) None i). Qed.

Lemma contributes_shape rows cols d0 d : 0 < rows -> dv_shape rows cols d0 -> contributes d0 d ->
  (exists r c, 0 < r /\ dv_shape r c d) -> dv_shape rows cols d.
Proof.
  intros R S (_ & (r & c & D0 & D) & _) (r' & c' & R' & S').
  destruct (dims_unique _ _ _ _ _ (shape_dims _ _ _ S) D0 R) as [-> ->].
  destruct (dims_unique _ _ _ _ _ (shape_dims _ _ _ S') D R') as [-> ->]. exact S'.
Qed.

Theorem average_spec rows cols d0 l a : 0 < rows ->
  (forall d, In d (d0 :: l) -> exists r c, 0 < r /\ dv_shape r c d) -> dv_shape rows cols d0 ->
  average_components (d0 :: l) = Ok a ->
  exists us, picked (contributes d0) (d0 :: l) us /\ us <> [] /\ dims rows cols (a_sim a) /\
    (forall i j, i < rows -> j < cols -> is_average (map (fun d => cell (d_sim d) i j) us) (cell (a_sim a) i j)) /\
    length (a_n a) = rows /\
    (forall i, i < rows -> nth i (a_n a) 0 = length (filter (fun d => is_some (nth i (d_corr d) None)) us)).
Proof.
  intros R W S. unfold average_components. pose proof (use_picked rows cols d0 R S (d0 :: l) W) as U.
  destruct (use d0 (d0 :: l)) as [us|e]; [|discriminate]. destruct U as [P _]. cbn [bind].
  destruct us as [|u0 us]; [discriminate|].
  assert (SU : dv_shape rows cols u0).
  { assert (I : In u0 (u0 :: us)) by now left. apply (picked_in _ _ _ P) in I as [I C].
    apply (contributes_shape rows cols d0); auto. }
  rewrite (shape_eq rows cols u0 SU R). set (sim := map _ (seq 0 rows)).
  destruct (mapM (best (d_axis d0)) sim) as [b|]; [|discriminate]. cbn [bind]. intros [= <-].
  exists (u0 :: us). split; [exact P|]. split; [discriminate|]. cbn [a_sim a_n].
  assert (NS : forall i, i < rows -> nth i sim [] = map (fun j => nanmean (map (fun d => nth j (nth i (d_sim d) []) None) (u0 :: us))) (seq 0 cols)).
  { intros i I. unfold sim. now rewrite nth_map_seq'. }
  split; [|split; [|split]].
  - split; [unfold sim; now rewrite map_length, seq_length|]. intros r I. apply in_map_iff in I as (i & <- & I).
    now rewrite map_length, seq_length.
  - intros i j I J. unfold cell at 2. rewrite NS by exact I. rewrite nth_map_seq' by exact J. apply nanmean_average.
  - rewrite map_length, seq_length. unfold avail. rewrite map_length. apply (ds_corr _ _ _ SU).
  - intros i I. rewrite nth_map_seq' by (unfold avail; rewrite map_length, (ds_corr _ _ _ SU); exact I).
    transitivity (count (map (fun d => nth i (avail d) false) (u0 :: us))); [reflexivity|]. rewrite count_has. apply filter_length_ext. intros d _. apply avail_nth.
Qed.

Lemma best_spec axis row c v : best axis row = Ok (c, v) -> highest row c /\ (v = None <-> c = None) /\
  exists k x w, nth_error axis k = Some x /\ (v <> None -> v = Some x) /\ nth_error (map val row) k = Some w /\
    (forall y, In y (map val row) -> (y <= w)%Q).
Proof.
  unfold best. destruct (qargmax (map val row)) as [k|] eqn:E; [|discriminate]. destruct (nth_error axis k) as [x|] eqn:A; [|discriminate].
  intros [= <- <-]. split; [|split].
  - unfold highest. destruct (nanmax row) as [m|] eqn:M; [now apply nanmax_some|now apply nanmax_none].
  - destruct (nanmax row); split; congruence.
  - destruct (value_spec axis row (Some x)) as (k' & q & N & B & a & A' & H).
    { unfold value_at. now rewrite E, A. }
    injection H as <-. exists k', x, q. split; [exact A'|]. split; [destruct (nanmax row); congruence|]. split; [exact N|exact B].
Qed.

Lemma average_best dvs a : average_components dvs = Ok a -> exists axis b, mapM (best axis) (a_sim a) = Ok b /\ a_corr a = map fst b /\
  a_value a = map snd b /\ exists d0 r, dvs = d0 :: r /\ axis = d_axis d0.
Proof.
  unfold average_components. destruct dvs as [|d0 r]; [discriminate|]. destruct (use d0 (d0 :: r)) as [us|]; [|discriminate]. cbn [bind].
  destruct us as [|u0 us]; [discriminate|]. destruct (shape u0) as [rows cols]. set (sim := map _ _).
  destruct (mapM (best (d_axis d0)) sim) as [b|] eqn:E; [|discriminate]. cbn [bind]. intros [= <-]. cbn.
  exists (d_axis d0), b. repeat split; [exact E|]. eauto.
Qed.

Theorem average_correlation dvs a : average_components dvs = Ok a ->
  length (a_corr a) = length (a_sim a) /\ length (a_value a) = length (a_sim a) /\
  forall i row, nth_error (a_sim a) i = Some row -> exists c v, nth_error (a_corr a) i = Some c /\ nth_error (a_value a) i = Some v /\
    highest row c /\ (v = None <-> c = None).
Proof.
  intros H. destruct (average_best dvs a H) as (axis & b & E & -> & -> & _). apply mapM_nth in E as [L E].
  rewrite !map_length. split; [exact L|]. split; [exact L|]. intros i row N. destruct (E i row N) as ([c v] & B & M).
  exists c, v. rewrite !nth_error_map, M. split; [reflexivity|]. split; [reflexivity|]. apply best_spec in B as (B1 & B2 & _). now split.
Qed.

Theorem average_value d0 r a i row m : average_components (d0 :: r) = Ok a -> nth_error (a_sim a) i = Some row ->
  nth_error (a_corr a) i = Some (Some m) -> (0 < m)%Q \/ (forall x, In x row -> x <> None) ->
  exists k v q, nth_error (d_axis d0) k = Some v /\ nth_error (a_value a) i = Some (Some v) /\ nth_error row k = Some (Some q) /\ (q == m)%Q.
Proof.
  intros H N C Z. destruct (average_best _ a H) as (axis & b & E & EC & EV & d & r' & D & ->). injection D as <- <-.
  apply mapM_nth in E as [L E]. destruct (E i row N) as ([c v] & B & M).
  rewrite EC, nth_error_map, M in C. cbn in C. injection C as ->. rewrite EV, nth_error_map, M. cbn [option_map snd].
  apply best_spec in B as ((I & U) & NV & k & x & w & A & V & W & B).
  rewrite V by (intros ->; destruct NV as [NV _]; discriminate (NV eq_refl)).
  exists k, x. rewrite nth_error_map in W. destruct (nth_error row k) as [s|] eqn:K; [|discriminate]. cbn in W. injection W as <-.
  assert (G : (m <= val s)%Q) by (apply B, in_map_iff; exists (Some m); auto).
  destruct s as [q|].
  - exists q. repeat split; try assumption. cbn in G. assert (q <= m)%Q by (apply U; eapply nth_error_In; exact K). lra.
  - exfalso. destruct Z as [Z|Z]; [cbn in G; lra|]. apply (Z None); [eapply nth_error_In; exact K|reflexivity].
Qed.

(** ** codes *)
Lemma common_spec c l : In c l -> code_of l (common c l).
Proof.
  intros I. unfold common. destruct (forallb (String.eqb c) l) eqn:E.
  - left. rewrite forallb_forall in E. intros x X. symmetry. now apply String.eqb_eq, E.
  - right. split; [reflexivity|]. assert (N : exists x, In x l /\ c <> x).
    { clear I. induction l as [|y l IH]; [discriminate|]. cbn in E. destruct (String.eqb_spec c y) as [->|D].
      - destruct (IH E) as (x & X & Y). exists x. split; [now right|exact Y].
      - exists y. split; [now left|exact D]. }
    destruct N as (x & X & Y). exists c, x. auto.
Qed.
Theorem average_codes rows cols d0 l a : 0 < rows ->
  (forall d, In d (d0 :: l) -> exists r c, 0 < r /\ dv_shape r c d) -> dv_shape rows cols d0 ->
  average_components (d0 :: l) = Ok a ->
  exists us, picked (contributes d0) (d0 :: l) us /\
    code_of (map d_net us) (a_net a) /\ code_of (map d_sta us) (a_sta a) /\ code_of (map d_cha us) (a_cha a).
Proof.
  intros R W S. unfold average_components. pose proof (use_picked rows cols d0 R S (d0 :: l) W) as U.
  destruct (use d0 (d0 :: l)) as [us|e]; [|discriminate]. destruct U as [P _]. cbn [bind].
  destruct us as [|u0 us]; [discriminate|]. destruct (shape u0). set (sim := map _ _).
  destruct (mapM (best (d_axis d0)) sim) as [b|]; [|discriminate]. cbn [bind]. intros [= <-].
  exists (u0 :: us). split; [exact P|]. cbn [a_net a_sta a_cha].
  split; [|split]; apply common_spec; now left.
Qed.

(** ** when there is an average *)
Lemma mapM_ok {A B} (f : A -> result B) l : (forall x, In x l -> exists y, f x = Ok y) -> exists m, mapM f l = Ok m.
Proof.
  induction l as [|x l IH]; intros H; [eexists; reflexivity|]. destruct (H x (or_introl eq_refl)) as [y E].
  destruct IH as [m M]; [intros; apply H; now right|]. exists (y :: m). cbn. now rewrite E, M.
Qed.
Lemma qargmax_from_lt l : forall i b bv n, b < n -> i + length l <= n -> qargmax_from i b bv l < n.
Proof.
  induction l as [|x l IH]; intros i b bv n B L; cbn [qargmax_from]; [exact B|]. cbn in L.
  destruct (Qlt_bool bv x); apply IH; lia.
Qed.
Lemma best_ok axis row : 0 < length row -> length row <= length axis -> exists p, best axis row = Ok p.
Proof.
  intros N L. unfold best. destruct row as [|x row]; [cbn in N; lia|]. cbn [map qargmax].
  set (k := qargmax_from _ _ _ _).
  assert (K : k < length axis).
  { apply (Nat.lt_le_trans _ (length (x :: row))); [|exact L]. apply qargmax_from_lt; [lia|]. rewrite map_length. cbn. lia. }
  destruct (nth_error axis k) as [v|] eqn:E; [eexists; reflexivity|]. apply nth_error_None in E. lia.
Qed.
Theorem average_outcome rows cols d0 l : 0 < rows -> 0 < cols ->
  (forall d, In d (d0 :: l) -> exists r c, 0 < r /\ dv_shape r c d) -> dv_shape rows cols d0 ->
  match average_components (d0 :: l) with
  | Ok _ => (forall d, In d (d0 :: l) -> d_method d = d_method d0) /\ exists d, In d (d0 :: l) /\ contributes d0 d
  | Raise e => (e = TypeError /\ exists d, In d (d0 :: l) /\ d_method d <> d_method d0) \/
               (e = ValueError /\ forall d, In d (d0 :: l) -> ~ contributes d0 d)
  end.
Proof.
  intros R C W S. unfold average_components. pose proof (use_picked rows cols d0 R S (d0 :: l) W) as U.
  destruct (use d0 (d0 :: l)) as [us|e]; cbn [bind]; [|left; exact U]. destruct U as [P M].
  pose proof (picked_in _ _ _ P) as PI.
  destruct us as [|u0 us].
  { right. split; [reflexivity|]. intros d I K. apply (proj2 (PI d)). auto. }
  assert (I0 : In u0 (d0 :: l) /\ contributes d0 u0) by (apply PI; now left).
  assert (SU : dv_shape rows cols u0) by (destruct I0; apply (contributes_shape rows cols d0); auto).
  rewrite (shape_eq rows cols u0 SU R). set (sim := map _ (seq 0 rows)).
  destruct (mapM_ok (best (d_axis d0)) sim) as [b ->].
  { intros row I. apply in_map_iff in I as (i & <- & I). apply best_ok; rewrite map_length, seq_length; [exact C|].
    rewrite (ds_axis _ _ _ S). lia. }
  cbn [bind]. split; [exact M|]. exists u0. exact I0.
Qed.

(** ** areas *)
Lemma in_limits_iff r x : in_limits r (At x) = Ok true <-> number_within r (At x).
Proof.
  unfold in_limits, number_within. split.
  - intros [= H]. apply andb_prop in H as [H1 H2]. exists x. split; [reflexivity|]. split; now apply Qle_bool_iff.
  - intros (y & [= <-] & H1 & H2). apply Qle_bool_iff in H1, H2. now rewrite H1, H2.
Qed.
Lemma in_area_spec lat lon el p : has_numbers p -> exists b, in_area lat lon el p = Ok b /\ (b = true <-> inside_area lat lon el p).
Proof.
  intros ((a & Ea) & (b & Eb) & (c & Ec) & (d & Ed) & (e & Ee) & (f & Ef)).
  unfold in_area, inside_area. rewrite Ea, Eb, Ec, Ed, Ee, Ef. cbn [in_limits bind]. eexists. split; [reflexivity|].
  rewrite !andb_true_iff, !Qle_bool_iff. unfold number_within. split.
  - intros H. repeat split; eexists; (split; [reflexivity|]); tauto.
  - intros ((? & [= <-] & ?) & (? & [= <-] & ?) & (? & [= <-] & ?) & (? & [= <-] & ?) & (? & [= <-] & ?) & (? & [= <-] & ?)). tauto.
Qed.
Lemma in_area_picked lat lon el l : (forall p, In p l -> d_cha (p_dv p) <> "av" -> has_numbers p) ->
  exists m, in_area_list lat lon el l = Ok m /\ picked (fun p => d_cha (p_dv p) <> "av" /\ inside_area lat lon el p) l m.
Proof.
  induction l as [|p l IH]; intros W; cbn [in_area_list]; [eexists; split; [reflexivity|constructor]|].
  destruct IH as (m & E & P); [intros; apply W; [now right|assumption]|].
  destruct (String.eqb_spec (d_cha (p_dv p)) "av") as [A|A].
  - exists m. split; [exact E|]. constructor; [tauto|exact P].
  - destruct (in_area_spec lat lon el p) as (b & B & I); [apply W; [now left|exact A]|]. rewrite B. cbn [bind]. rewrite E. cbn [bind].
    destruct b; eexists; (split; [reflexivity|]); constructor; try assumption.
    + split; [exact A|]. now apply I.
    + intros [_ H]. apply I in H. discriminate.
Qed.
Theorem by_coords_spec dvs lat lon el : (forall p, In p dvs -> d_cha (p_dv p) <> "av" -> has_numbers p) ->
  exists l, picked (fun p => d_cha (p_dv p) <> "av" /\ inside_area lat lon el p) dvs l /\
  match average_by_coords dvs lat lon el with
  | Ok r => exists a, l <> [] /\ average_components (map p_dv l) = Ok a /\
      a_sim (aa r) = a_sim a /\ a_corr (aa r) = a_corr a /\ a_value (aa r) = a_value a /\ a_n (aa r) = a_n a /\ a_cha (aa r) = a_cha a /\
      a_net (aa r) = "geoav" /\ a_sta (aa r) = "geoav" /\
      aa_lat r = Span (fst lat) (snd lat) /\ aa_lon r = Span (fst lon) (snd lon) /\ aa_el r = Span (fst el) (snd el)
  | Raise e => (l = [] /\ e = ValueError) \/ (l <> [] /\ average_components (map p_dv l) = Raise e)
  end.
Proof.
  intros W. destruct (in_area_picked lat lon el dvs W) as (l & E & P). exists l. split; [exact P|].
  unfold average_by_coords. rewrite E. cbn [bind]. destruct l as [|p l]; [left; now split|].
  destruct (average_components (map p_dv (p :: l))) as [a|e]; cbn [bind].
  - exists a. repeat split. discriminate.
  - right. split; [discriminate|reflexivity].
Qed.
Theorem by_coords_same dvs dvs' lat lon el l :
  (forall p, In p (dvs ++ dvs')%list -> d_cha (p_dv p) <> "av" -> has_numbers p) ->
  picked (fun p => d_cha (p_dv p) <> "av" /\ inside_area lat lon el p) dvs l ->
  picked (fun p => d_cha (p_dv p) <> "av" /\ inside_area lat lon el p) dvs' l ->
  average_by_coords dvs lat lon el = average_by_coords dvs' lat lon el.
Proof.
  intros W P P'.
  destruct (in_area_picked lat lon el dvs) as (m & E & Q); [intros; apply W; [apply in_or_app; auto|assumption]|].
  destruct (in_area_picked lat lon el dvs') as (m' & E' & Q'); [intros; apply W; [apply in_or_app; auto|assumption]|].
  unfold average_by_coords. rewrite E, E'. rewrite (picked_unique _ _ _ _ Q P), (picked_unique _ _ _ _ Q' P'). reflexivity.
Qed.
Theorem by_coords_earlier dvs lat lon el : (exists p, In p dvs /\ d_cha (p_dv p) <> "av" /\ ~ has_numbers p) ->
  average_by_coords dvs lat lon el = Raise TypeError.
Proof.
  intros H. unfold average_by_coords.
  assert (LIM : forall r c, (exists b, in_limits r c = Ok b /\ is_number c) \/ (in_limits r c = Raise TypeError /\ ~ is_number c)).
  { intros r [x|a b]; cbn; [left|right]; [eexists; split; [reflexivity|]; now exists x|]. split; [reflexivity|]. intros [x E]. discriminate. }
  assert (AR : forall p, (exists b, in_area lat lon el p = Ok b /\ has_numbers p) \/ (in_area lat lon el p = Raise TypeError /\ ~ has_numbers p)).
  { intros p. unfold in_area, has_numbers.
    destruct (LIM lat (p_stla p)) as [(? & -> & ?)|[-> ?]]; cbn [bind]; [|right; tauto].
    destruct (LIM lat (p_evla p)) as [(? & -> & ?)|[-> ?]]; cbn [bind]; [|right; tauto].
    destruct (LIM lon (p_stlo p)) as [(? & -> & ?)|[-> ?]]; cbn [bind]; [|right; tauto].
    destruct (LIM lon (p_evlo p)) as [(? & -> & ?)|[-> ?]]; cbn [bind]; [|right; tauto].
    destruct (LIM el (p_stel p)) as [(? & -> & ?)|[-> ?]]; cbn [bind]; [|right; tauto].
    destruct (LIM el (p_evel p)) as [(? & -> & ?)|[-> ?]]; cbn [bind]; [|right; tauto].
    left. eexists. split; [reflexivity|]. tauto. }
  assert (E : in_area_list lat lon el dvs = Raise TypeError); [|now rewrite E].
  destruct H as (p & I & C & N). induction dvs as [|x l IH]; [destruct I|]. cbn [in_area_list].
  destruct (String.eqb_spec (d_cha (p_dv x)) "av") as [A|A].
  - destruct I as [->|I]; [contradiction|auto].
  - destruct (AR x) as [(b & -> & HN)|[-> _]]; [|reflexivity]. cbn [bind]. destruct I as [->|I]; [contradiction|]. rewrite IH by exact I. reflexivity.
Qed.
