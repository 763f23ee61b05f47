(** Facts about station metadata and the selection of pairs by distance. *)
From Coq Require Import QArith Permutation.
From Verif Require Import Lib.Base Lib.Str Lib.StrFacts Model.Metadata Model.Combos Spec.MetadataSpec Spec.ComboSpec Spec.DBSpec Spec.XCombiSpec
  Proofs.ComboFacts Proofs.XCombiFacts.
Local Open Scope string_scope.
Local Open Scope list_scope.

Lemma write_mem c inv : mem (fst (write_inventory c inv)) = mem c ++ inv.
Proof. unfold write_inventory. destruct inv; [|destruct (has_dir c)]; reflexivity. Qed.

Lemma responses_mem c w a x : mem (fst (responses c w a x)) = mem c \/ exists inv, x = Ok inv /\ mem (fst (responses c w a x)) = mem c ++ inv.
Proof.
  unfold responses. destruct (forallb _ _); [now left|]. destruct x as [inv|e]; [|now left].
  destruct (a && _); [now left|]. right. exists inv. split; auto. apply write_mem.
Qed.
Lemma select_mem c n s x : mem (fst (select_or_load c n s x)) = mem c \/ exists inv, x = Ok inv /\ mem (fst (select_or_load c n s x)) = mem c ++ inv.
Proof.
  unfold select_or_load. destruct (select _ _ _); [|now left]. destruct x as [inv|e]; [|now left].
  right. exists inv. split; auto. pose proof (write_mem c inv) as W. destruct (write_inventory c inv) as [c' [e|]]; exact W.
Qed.

Lemma in_use_keeps ops : forall c m, Forall in_use ops -> In m (mem c) -> In m (mem (history c ops)).
Proof.
  induction ops as [|o r IH]; intros c m H Hm; auto. inversion H as [|? ? H1 H2]; subst. cbn [history fold_left]. apply IH; auto.
  destruct o as [w a x|n s x| |]; try contradiction H1; cbn [step].
  - destruct (responses_mem c w a x) as [->|(inv & _ & ->)]; auto. apply in_or_app. now left.
  - destruct (select_mem c n s x) as [->|(inv & _ & ->)]; auto. apply in_or_app. now left.
Qed.

Lemma knows_app a b c : knows (a ++ b) c = knows a c || knows b c.
Proof. destruct c as [[n s] x]. unfold knows. apply existsb_app. Qed.

Lemma request_known c w x c' : responses c w true x = (c', None) -> forallb (knows (mem c')) w = true.
Proof.
  unfold responses. destruct (forallb (knows (mem c)) w) eqn:E; [now intros [= <-]|]. destruct x as [inv|]; [|discriminate].
  cbn [andb]. destruct (forallb (knows inv) w) eqn:F; cbn [negb]; [|discriminate]. intros H.
  assert (M : mem c' = mem c ++ inv) by (rewrite <- (write_mem c inv), H; reflexivity). rewrite M.
  apply forallb_forall. intros y Hy. rewrite knows_app. rewrite forallb_forall in F. rewrite (F _ Hy). apply orb_true_r.
Qed.

Lemma select_keeps c n s x c' inv : select_or_load c n s x = (c', Ok inv) -> inv <> [] ->
  (forall m, In m inv -> m_net m = n /\ m_sta m = s) -> forall y, select_or_load c' n s y = (c', Ok inv).
Proof.
  unfold select_or_load. destruct (select (mem c) n s) as [|m r] eqn:E.
  - destruct x as [i|]; [|discriminate]. pose proof (write_mem c i) as W. destruct (write_inventory c i) as [c1 [e|]]; [discriminate|].
    intros [= -> ->] HN HS y. cbn [fst] in W. unfold select in *. rewrite W, filter_app, E. cbn [app].
    assert (F : filter (of_station n s) inv = inv).
    { clear - HS. induction inv as [|m r IH]; auto. cbn [filter]. destruct (HS m (or_introl eq_refl)) as [-> ->] || idtac.
      unfold of_station at 1. destruct (HS m (or_introl eq_refl)) as [H1 H2]. rewrite H1, H2, !String.eqb_refl. cbn [andb]. f_equal. apply IH. intros z Hz. apply HS. now right. }
    rewrite F. destruct inv; [contradiction|reflexivity].
  - intros [= <- <-] _ _ y. rewrite E. reflexivity.
Qed.

(** ** files *)
Lemma replace_other name inv fs x i : x <> name -> (In (x, i) (replace name inv fs) <-> In (x, i) fs).
Proof.
  intros H. unfold replace. cbn [In]. rewrite filter_In. cbn [fst]. split.
  - intros [[= <- <-]|[H1 _]]; [contradiction|auto].
  - intros H1. right. split; auto. apply negb_true_iff. now apply String.eqb_neq.
Qed.
Lemma replace_same name inv fs i : In (name, i) (replace name inv fs) <-> i = inv.
Proof.
  unfold replace. cbn [In]. rewrite filter_In. cbn [fst]. rewrite String.eqb_refl. cbn [negb]. split.
  - intros [[= <-]|[_ H]]; [auto|discriminate].
  - intros ->. now left.
Qed.

Lemma write_files c inv : files (fst (write_inventory c inv)) = files c \/
  exists m r, inv = m :: r /\ files (fst (write_inventory c inv)) = replace (file_name m) inv (files c).
Proof.
  unfold write_inventory. destruct inv as [|m r]; [now left|]. destruct (has_dir c); [|now left]. right. now exists m, r.
Qed.
Lemma step_files c o : files (step c o) = files c \/
  exists m r, answer_of o = Some (Ok (m :: r)) /\ files (step c o) = replace (file_name m) (m :: r) (files c).
Proof.
  destruct o as [w a x|n s x| |ro]; cbn [step answer_of].
  - unfold responses. destruct (forallb _ _); [now left|]. destruct x as [inv|]; [|now left]. destruct (a && _); [now left|].
    destruct (write_files c inv) as [->|(m & r & -> & ->)]; [now left|]. right. now exists m, r.
  - unfold select_or_load. destruct (select _ _ _); [|now left]. destruct x as [inv|]; [|now left].
    pose proof (write_files c inv) as W. destruct (write_inventory c inv) as [c' [e|]]; cbn [fst] in *;
    (destruct W as [->|(m & r & -> & ->)]; [now left|]; right; now exists m, r).
  - left. unfold read_inventory. destruct (files c) eqn:E; cbn [fst files]; auto.
  - now left.
Qed.

Lemma other_files ops : forall c name, Forall (fun o => ~ writes name o) ops ->
  forall inv, In (name, inv) (files (history c ops)) <-> In (name, inv) (files c).
Proof.
  induction ops as [|o r IH]; intros c name H inv; [reflexivity|]. inversion H as [|? ? H1 H2]; subst. cbn [history fold_left].
  rewrite (IH (step c o) name H2). destruct (step_files c o) as [->|(m & q & E & ->)]; [reflexivity|].
  apply replace_other. intros ->. apply H1. exists m, q. split; auto.
Qed.

Lemma name_inj n s n' s' : has_char "." n = false -> has_char "." n' = false ->
  (n ++ "." ++ s ++ ".xml" = n' ++ "." ++ s' ++ ".xml")%string -> n = n' /\ s = s'.
Proof.
  revert n'. induction n as [|a n IH]; intros [|b n'] H H' E.
  - split; auto. cbn in E. injection E as E.
    assert (L : String.length s = String.length s') by (apply (f_equal String.length) in E; rewrite !length_append in E; lia).
    now destruct (append_inj_len _ _ _ _ L E).
  - exfalso. cbn in E. injection E as <- _. cbn in H'. discriminate.
  - exfalso. cbn in E. injection E as -> _. cbn in H. discriminate.
  - cbn in E. injection E as -> E. cbn in H, H'. apply orb_false_iff in H as [_ H]. apply orb_false_iff in H' as [_ H'].
    destruct (IH n' H H' E) as [-> ->]. auto.
Qed.

Lemma complete_step full c o : of_its_station full -> complete_files full (files c) -> complete_answer full o ->
  complete_files full (files (step c o)) /\ (forall f, In f (files c) -> In f (files (step c o))).
Proof.
  intros HF HC HA. destruct (step_files c o) as [->|(m & r & E & ->)]; [split; auto|].
  destruct (HA _ E) as (n & s & En).
  destruct (HF n s m) as (H1 & H2 & H3); [rewrite <- En; now left|].
  assert (EN : file_name m = (n ++ "." ++ s ++ ".xml")%string) by (unfold file_name; rewrite H1, H2; reflexivity).
  split.
  - intros name inv H. destruct (string_dec name (file_name m)) as [->|D].
    + apply replace_same in H as ->. split; [discriminate|]. exists n, s. auto.
    + apply replace_other in H; auto.
  - intros [name inv] H. destruct (string_dec name (file_name m)) as [->|D].
    + apply replace_same. destruct (HC _ _ H) as (HN & n' & s' & En' & ->).
      rewrite EN in En'. destruct (full n' s') as [|m' r'] eqn:EF; [contradiction|].
      destruct (HF n' s' m') as (_ & _ & H3'); [rewrite EF; now left|].
      destruct (name_inj n s n' s' H3 H3' En') as [-> ->]. congruence.
    + now apply replace_other.
Qed.
Lemma complete_history full ops : forall c, of_its_station full -> complete_files full (files c) -> Forall (complete_answer full) ops ->
  complete_files full (files (history c ops)) /\ (forall f, In f (files c) -> In f (files (history c ops))).
Proof.
  induction ops as [|o r IH]; intros c HF HC HA; [split; auto|]. inversion HA as [|? ? H1 H2]; subst. cbn [history fold_left].
  destruct (complete_step full c o HF HC H1) as [C1 C2]. destruct (IH (step c o) HF C1 H2) as [D1 D2]. split; auto.
Qed.

Lemma in_stored c m : In m (stored c) <-> exists name inv, In (name, inv) (files c) /\ In m inv.
Proof.
  unfold stored. rewrite in_concat. split.
  - intros (inv & H & Hm). apply in_map_iff in H as ([name i] & <- & H). now exists name, i.
  - intros (name & inv & H & Hm). exists inv. split; auto. apply in_map_iff. now exists (name, inv).
Qed.
Lemma stored_kept full c ops : of_its_station full -> complete_files full (files c) -> Forall (complete_answer full) ops ->
  forall m, In m (stored c) -> In m (stored (history c ops)).
Proof.
  intros HF HC HA m H. apply in_stored in H as (name & inv & H & Hm). apply in_stored. exists name, inv. split; auto.
  now apply (complete_history full).
Qed.

Lemma step_dir c o : has_dir c = true -> has_dir (step c o) = true.
Proof.
  intros H. destruct o as [w a x|n s x| |ro]; cbn [step].
  - unfold responses, write_inventory. destruct (forallb _ _); auto. destruct x as [[|m r]|]; auto.
    + destruct (a && _); auto.
    + destruct (a && _); auto. now rewrite H.
  - unfold select_or_load, write_inventory. destruct (select _ _ _); auto. destruct x as [[|m r]|]; auto. now rewrite H.
  - unfold read_inventory. destruct (files c); auto.
  - unfold open_client. cbn [has_dir]. now rewrite H.
Qed.
Lemma written_stored c inv m : has_dir c = true -> In m inv -> In m (stored (fst (write_inventory c inv))).
Proof.
  intros H Hm. unfold write_inventory. destruct inv as [|m' r]; [contradiction|]. rewrite H. apply in_stored. cbn [fst files].
  exists (file_name m'), (m' :: r). split; auto. now apply replace_same.
Qed.
Lemma mem_step full c o : of_its_station full -> complete_files full (files c) -> complete_answer full o -> has_dir c = true ->
  (forall m, In m (mem c) -> In m (stored c)) -> forall m, In m (mem (step c o)) -> In m (stored (step c o)).
Proof.
  intros HF HC HA HD HM m.
  assert (K : forall x, In x (stored c) -> In x (stored (step c o))).
  { intros x Hx. apply (stored_kept full c [o]); auto. }
  destruct o as [w a x|n s x| |ro]; cbn [step] in *.
  - unfold responses in *. destruct (forallb _ _); auto. destruct x as [inv|]; auto. destruct (a && _); auto.
    rewrite write_mem. rewrite in_app_iff. intros [H|H]; auto. now apply written_stored.
  - unfold select_or_load in *. destruct (select _ _ _); auto. destruct x as [inv|]; auto.
    pose proof (write_mem c inv) as W. pose proof (fun H => written_stored c inv m HD H) as V.
    destruct (write_inventory c inv) as [c' [e|]]; cbn [fst] in *; rewrite W, in_app_iff; intros [H|H]; auto.
  - unfold read_inventory in *. destruct (files c) eqn:E; auto.
  - unfold open_client in *. cbn [mem] in *. rewrite HD. auto.
Qed.
Lemma mem_history full ops : forall c, of_its_station full -> complete_files full (files c) -> Forall (complete_answer full) ops -> has_dir c = true ->
  (forall m, In m (mem c) -> In m (stored c)) -> forall m, In m (mem (history c ops)) -> In m (stored (history c ops)).
Proof.
  induction ops as [|o r IH]; intros c HF HC HA HD HM; auto. inversion HA as [|? ? H1 H2]; subst. cbn [history fold_left].
  apply IH; auto; [now apply (complete_step full c o)|now apply step_dir|]. now apply (mem_step full).
Qed.

(** ** distances *)
Lemma position_select inv x : position inv x = match select inv (fst x) (snd x) with [] => None | m :: _ => Some (m_pos m) end.
Proof.
  unfold position, select, of_station. induction inv as [|m r IH]; auto. cbn [find filter].
  destruct (String.eqb (m_net m) (fst x) && String.eqb (m_sta m) (snd x)); auto.
Qed.
Lemma position_app a b x p : position a x = Some p -> position (a ++ b) x = Some p.
Proof.
  rewrite !position_select. unfold select. rewrite filter_app. destruct (filter _ a) as [|m r]; [discriminate|auto].
Qed.
Lemma select_all inv n s : (forall m, In m inv -> m_net m = n /\ m_sta m = s) -> select inv n s = inv.
Proof.
  intros H. unfold select. induction inv as [|m r IH]; auto. cbn [filter]. unfold of_station at 1.
  destruct (H m (or_introl eq_refl)) as [-> ->]. rewrite !String.eqb_refl. cbn [andb]. f_equal. apply IH. intros z Hz. apply H. now right.
Qed.

Section Distances.
  Variable dist : Q * Q -> Q * Q -> Q.
  Variable server : string -> string -> result inventory.
  Hypothesis HS : honest server.

  Lemma loaded c x c' inv : select_or_load c (fst x) (snd x) (server (fst x) (snd x)) = (c', Ok inv) ->
    (forall z p, position (mem c) z = Some p -> position (mem c') z = Some p) /\
    (exists m r, inv = m :: r /\ position (mem c') x = Some (m_pos m)).
  Proof.
    unfold select_or_load. destruct (select (mem c) (fst x) (snd x)) as [|m r] eqn:E.
    - destruct (server (fst x) (snd x)) as [i|] eqn:ES; [|discriminate].
      pose proof (write_mem c i) as W. destruct (write_inventory c i) as [c1 [e|]] eqn:EW; [discriminate|]. intros [= -> ->].
      cbn [fst] in W. rewrite W. split; [intros z p; apply position_app|].
      destruct inv as [|m r]; [discriminate EW|]. exists m, r. split; auto. rewrite position_select. unfold select in *. rewrite filter_app, E. cbn [app].
      change (filter (of_station (fst x) (snd x)) (m :: r)) with (select (m :: r) (fst x) (snd x)).
      rewrite select_all; auto. intros z Hz. exact (HS _ _ _ _ ES Hz).
    - intros [= <- <-]. split; auto. exists m, r. split; auto. rewrite position_select, E. reflexivity.
  Qed.

  Definition withinb (inv : inventory) (d : Q) (x y : string * string) : bool :=
    match position inv x, position inv y with Some p, Some q => Qle_bool (dist p q) d | _, _ => false end.
  Lemma withinb_spec inv d x y : withinb inv d x y = true <-> within dist inv d x y.
  Proof.
    unfold withinb, within. destruct (position inv x) as [p|], (position inv y) as [q|].
    - rewrite Qle_bool_iff. split; [intros H; exists p, q; auto|]. now intros (p' & q' & [= <-] & [= <-] & H).
    - split; [discriminate|]. intros (p' & q' & _ & H & _). discriminate.
    - split; [discriminate|]. intros (p' & q' & H & _). discriminate.
    - split; [discriminate|]. intros (p' & q' & H & _). discriminate.
  Qed.
  Definition grows (c c' : client) : Prop := forall z p, position (mem c) z = Some p -> position (mem c') z = Some p.

  Lemma withinb_grows c c' d x y : grows c c' -> (exists p, position (mem c) x = Some p) -> (exists q, position (mem c) y = Some q) ->
    withinb (mem c') d x y = withinb (mem c) d x y.
  Proof. intros G [p P] [q R]. unfold withinb. rewrite P, R, (G _ _ P), (G _ _ R). reflexivity. Qed.

  Lemma partners_spec d x : forall l c inv0 m r c' out, inv0 = m :: r -> position (mem c) x = Some (m_pos m) ->
    partners dist server c d x inv0 l = (c', Ok out) ->
    grows c c' /\ (forall y, In y l -> exists q, position (mem c') y = Some q) /\
    out = map (combination x) (filter (withinb (mem c') d x) l).
  Proof.
    induction l as [|y l IH]; intros c inv0 m r c' out E P H; cbn [partners] in H.
    - injection H as <- <-. split; [intros z p; auto|]. split; [intros y []|reflexivity].
    - destruct (select_or_load c (fst y) (snd y) (server (fst y) (snd y))) as [c1 [inv1|e]] eqn:ES; [|discriminate].
      destruct (loaded _ _ _ _ ES) as (G & m1 & r1 & E1 & P1).
      destruct (close dist inv0 inv1 d) as [b|e] eqn:EC; [|discriminate].
      destruct (partners dist server c1 d x inv0 l) as [c2 [o|e]] eqn:EP; [|discriminate]. injection H as <- <-.
      destruct (IH c1 inv0 m r c2 o E (G _ _ P) EP) as (G2 & K & EO).
      split; [intros z p Z; auto|]. split.
      { intros z [<-|Hz]; [exists (m_pos m1); now apply G2|now apply K]. }
      assert (EB : b = withinb (mem c2) d x y).
      { subst inv0 inv1. cbn [close] in EC. injection EC as <-. unfold withinb. rewrite (G2 _ _ (G _ _ P)), (G2 _ _ P1). reflexivity. }
      cbn [filter]. rewrite <- EB. destruct b; cbn [map]; now rewrite EO.
  Qed.

  (** the pairs in the order of the loops *)
  Fixpoint tails_of (l : list (string * string)) : list ((string * string) * (string * string)) :=
    match l with [] => [] | x :: r => map (pair x) (x :: r) ++ tails_of r end.

  Lemma all_partners_spec d : forall l c c' out, all_partners dist server c d l = (c', Ok out) ->
    grows c c' /\ (forall y, In y l -> exists q, position (mem c') y = Some q) /\
    out = map (fun p => combination (fst p) (snd p)) (filter (fun p => withinb (mem c') d (fst p) (snd p)) (tails_of l)).
  Proof.
    induction l as [|x l IH]; intros c c' out H; cbn [all_partners] in H.
    - injection H as <- <-. split; [intros z p; auto|]. split; [intros y []|reflexivity].
    - destruct (select_or_load c (fst x) (snd x) (server (fst x) (snd x))) as [c1 [inv0|e]] eqn:ES; [|discriminate].
      destruct (loaded _ _ _ _ ES) as (G & m & r & E & P).
      destruct (partners dist server c1 d x inv0 (x :: l)) as [c2 [here|e]] eqn:EP; [|discriminate].
      destruct (partners_spec d x (x :: l) c1 inv0 m r c2 here E P EP) as (G2 & K & EO).
      destruct (all_partners dist server c2 d l) as [c3 [more|e]] eqn:EA; [|discriminate]. injection H as <- <-.
      destruct (IH c2 c3 more EA) as (G3 & K3 & EO3).
      assert (GG : grows c c3) by (intros z p Z; apply G3, G2, G, Z). split; auto. split.
      { intros y Hy. destruct (K y Hy) as [q Hq]. exists q. now apply G3. }
      cbn [tails_of]. rewrite filter_app, map_app, <- EO3. f_equal. rewrite EO.
      assert (F : forall l', (forall y, In y l' -> In y (x :: l)) ->
        map (combination x) (filter (withinb (mem c2) d x) l') =
        map (fun p => combination (fst p) (snd p)) (filter (fun p => withinb (mem c3) d (fst p) (snd p)) (map (pair x) l'))).
      { induction l' as [|y l' IH']; intros HL; auto. cbn [map filter fst snd].
        rewrite (withinb_grows c2 c3 d x y G3); [|apply K; now left|apply K, HL; now left].
        destruct (withinb (mem c2) d x y); cbn [map fst snd]; rewrite IH'; auto; intros z Hz; apply HL; now right. }
      apply F. auto.
  Qed.

  Lemma in_tails l x y : In (x, y) (tails_of l) <-> exists i j, (i <= j)%nat /\ nth_error l i = Some x /\ nth_error l j = Some y.
  Proof.
    induction l as [|z l IH]; cbn [tails_of].
    - split; [intros []|]. intros (i & j & _ & H & _). destruct i; discriminate.
    - rewrite in_app_iff, IH, in_map_iff. split.
      + intros [(w & [= <- <-] & Hw)|(i & j & L & Hi & Hj)].
        * apply In_nth_error in Hw as [j Hj]. exists 0%nat, j. split; [lia|]. auto.
        * exists (S i), (S j). split; [lia|]. auto.
      + intros (i & j & L & Hi & Hj). destruct i as [|i].
        * injection Hi as ->. left. exists y. split; auto. now apply nth_error_In in Hj.
        * destruct j as [|j]; [lia|]. right. exists i, j. split; [lia|]. auto.
  Qed.

  Lemma found c stations d c' out :
    find_interstat_dist dist server c "betweenStations" None stations d = (c', Ok out) ->
    (forall x, In x stations -> exists p, position (mem c') x = Some p) /\
    (forall t, In t out <-> exists i j x y, (i <= j)%nat /\ nth_error stations i = Some x /\ nth_error stations j = Some y /\
                            within dist (mem c') d x y /\ t = (fst x ++ "-" ++ fst y ++ "." ++ snd x ++ "-" ++ snd y)%string).
  Proof.
    unfold find_interstat_dist. cbn [String.eqb Ascii.eqb negb]. change (String.eqb "betweenStations" "betweenStations") with true. cbn [negb].
    destruct (read_inventory c) as [c1 [e|]]; [discriminate|]. intros H. destruct (all_partners_spec _ _ _ _ _ H) as (_ & K & ->).
    split; auto. intros t. rewrite in_map_iff. split.
    - intros ([x y] & <- & Hp). apply filter_In in Hp as [Hp Hw]. cbn [fst snd] in *. apply in_tails in Hp as (i & j & L & Hi & Hj).
      exists i, j, x, y. repeat split; auto. now apply withinb_spec.
    - intros (i & j & x & y & L & Hi & Hj & Hw & ->). exists (x, y). split; [reflexivity|]. apply filter_In. cbn [fst snd].
      split; [apply in_tails; now exists i, j|now apply withinb_spec].
  Qed.
End Distances.

Section Available.
  Variable dist : Q * Q -> Q * Q -> Q.
  Variable server : string -> string -> result inventory.
  Hypothesis HS : honest server.
  Definition ready (c : client) (x : string * string) : Prop :=
    position (mem c) x <> None \/ exists m r, server (fst x) (snd x) = Ok (m :: r).
  Lemma ready_grows c c' x : grows c c' -> ready c x -> ready c' x.
  Proof.
    intros G [H|H]; [left|now right]. destruct (position (mem c) x) as [p|] eqn:E; [|contradiction]. rewrite (G _ _ E). discriminate.
  Qed.
  Lemma load_ok c x : has_dir c = true -> ready c x -> exists c' inv,
    select_or_load c (fst x) (snd x) (server (fst x) (snd x)) = (c', Ok inv) /\ has_dir c' = true.
  Proof.
    intros HD H. unfold select_or_load. destruct (select (mem c) (fst x) (snd x)) as [|m r] eqn:E; [|now exists c, (m :: r)].
    destruct H as [H|(m & r & H)]; [exfalso; apply H; rewrite position_select, E; reflexivity|].
    rewrite H. unfold write_inventory. rewrite HD. eexists; eexists. split; reflexivity.
  Qed.
  Lemma partners_ok d x : forall l c inv0 m r, has_dir c = true -> inv0 = m :: r -> (forall y, In y l -> ready c y) ->
    exists c' out, partners dist server c d x inv0 l = (c', Ok out) /\ has_dir c' = true /\ grows c c'.
  Proof.
    induction l as [|y l IH]; intros c inv0 m r HD E HR; cbn [partners].
    - exists c, []. repeat split; auto. intros z p; auto.
    - destruct (load_ok c y HD (HR y (or_introl eq_refl))) as (c1 & inv1 & EL & HD1). rewrite EL.
      destruct (loaded server HS _ _ _ _ EL) as (G & m1 & r1 & -> & _).
      subst inv0. cbn [close].
      destruct (IH c1 (m :: r) m r HD1 eq_refl) as (c2 & o & EP & HD2 & G2).
      { intros z Hz. apply (ready_grows c); auto. apply HR. now right. }
      rewrite EP. eexists; eexists. split; [reflexivity|]. split; auto. intros z p Z. auto.
  Qed.
  Lemma all_partners_ok d : forall l c, has_dir c = true -> (forall y, In y l -> ready c y) ->
    exists c' out, all_partners dist server c d l = (c', Ok out).
  Proof.
    induction l as [|x l IH]; intros c HD HR; cbn [all_partners].
    - now exists c, [].
    - destruct (load_ok c x HD (HR x (or_introl eq_refl))) as (c1 & inv0 & EL & HD1). rewrite EL.
      destruct (loaded server HS _ _ _ _ EL) as (G & m & r & -> & _).
      destruct (partners_ok d x (x :: l) c1 (m :: r) m r HD1 eq_refl) as (c2 & o & EP & HD2 & G2).
      { intros z Hz. apply (ready_grows c); auto. }
      rewrite EP. destruct (IH c2 HD2) as (c3 & o3 & EA).
      { intros z Hz. apply (ready_grows c); [intros w p Z; auto|]. apply HR. now right. }
      rewrite EA. eexists; eexists. reflexivity.
  Qed.
  Lemma available c stations d : files c <> [] -> has_dir c = true ->
    (forall x, In x stations -> position (stored c) x <> None \/ exists m r, server (fst x) (snd x) = Ok (m :: r)) ->
    exists c' out, find_interstat_dist dist server c "betweenStations" None stations d = (c', Ok out).
  Proof.
    intros HF HD HR. unfold find_interstat_dist. change (String.eqb "betweenStations" "betweenStations") with true. cbn [negb].
    unfold read_inventory. destruct (files c) as [|f l] eqn:E; [contradiction|]. apply all_partners_ok; auto.
  Qed.
End Available.

Lemma correlated_iff st es w c : Forall seed_trace st -> Forall seed_entry es ->
  (forall e a, In e es -> In a st -> same_length e a) ->
  calc_cross_combis st [] "betweenStations" (Some (map entry_text es)) = Ok (w, c) ->
  forall a b, In a st -> In b st -> ~ same_station a b ->
  ((exists i j, In (i, j) c /\ ((nth_error w i = Some a /\ nth_error w j = Some b) \/ (nth_error w i = Some b /\ nth_error w j = Some a)))
   <-> exists e, In e es /\ names e a b).
Proof.
  intros Hs HE HL H a b Ha Hb Hne. apply calc_exact in H as (HP & _ & _ & HX). rewrite Forall_forall in Hs.
  assert (EX : forall x y, In x st -> In y st -> (is_in_xcombis x y (map entry_text es) = true <-> exists e, In e es /\ names e x y)).
  { intros x y Hx Hy. apply in_xcombis_exact; auto. apply Forall_forall. intros e He. split; apply HL; auto. }
  split.
  - intros (i & j & Hij & HN). apply HX in Hij as (x & y & Ex & Ey & _ & _ & Hal).
    specialize (Hal eq_refl _ eq_refl). destruct HN as [[E1 E2]|[E1 E2]]; rewrite Ex in E1; rewrite Ey in E2; injection E1 as ->; injection E2 as ->.
    + now apply EX.
    + apply EX in Hal as (e & He & HN); auto. exists e. split; auto. unfold names in *. tauto.
  - intros HR.
    assert (Ia : In a w) by (apply (Permutation_in _ (Permutation_sym HP)); auto).
    assert (Ib : In b w) by (apply (Permutation_in _ (Permutation_sym HP)); auto).
    apply In_nth_error in Ia as [i Ei]. apply In_nth_error in Ib as [j Ej].
    assert (Hij : i <> j). { intros ->. rewrite Ei in Ej. injection Ej as ->. apply Hne. split; reflexivity. }
    destruct (Nat.lt_total i j) as [L|[L|L]]; [|contradiction|].
    + exists i, j. split; [|now left]. apply HX. exists a, b. split; auto. split; auto. split; [left; auto|].
      split; [apply compare_nothing|]. intros _ l [= <-]. now apply EX.
    + exists j, i. split; [|now right]. apply HX. exists b, a. split; auto. split; auto.
      split; [left; split; auto; split; auto; intros [X Y]; apply Hne; split; auto|].
      split; [apply compare_nothing|]. intros _ l [= <-]. apply EX; auto. destruct HR as (e & He & HN). exists e. split; auto. unfold names in *. tauto.
Qed.

Definition entry_of (p : (string * string) * (string * string)) : entry := mkEntry (fst (fst p)) (fst (snd p)) (snd (fst p)) (snd (snd p)) None.
Lemma near_correlated dist server c stations d c' out st w k : honest server -> (forall p q, (dist p q == dist q p)%Q) ->
  find_interstat_dist dist server c "betweenStations" None stations d = (c', Ok out) ->
  Forall (fun x => seed (fst x) /\ seed (snd x)) stations -> Forall seed_trace st ->
  (forall a, In a st -> In (station_of a) stations) ->
  (forall x y, In x stations -> In y stations -> String.length (snd x) = String.length (snd y)) ->
  calc_cross_combis st [] "betweenStations" (Some out) = Ok (w, k) ->
  forall a b, In a st -> In b st -> ~ same_station a b ->
  ((exists i j, In (i, j) k /\ ((nth_error w i = Some a /\ nth_error w j = Some b) \/ (nth_error w i = Some b /\ nth_error w j = Some a)))
   <-> within dist (mem c') d (station_of a) (station_of b)).
Proof.
  intros HH HD HF Hst Hseed Hin Hlen HC a b Ha Hb Hne.
  unfold find_interstat_dist in HF. change (String.eqb "betweenStations" "betweenStations") with true in HF. cbn [negb] in HF.
  destruct (read_inventory c) as [c1 [e|]]; [discriminate|]. destruct (all_partners_spec dist server HH _ _ _ _ _ HF) as (_ & _ & EO).
  set (ps := filter (fun p => withinb dist (mem c') d (fst p) (snd p)) (tails_of stations)) in *.
  assert (EE : out = map entry_text (map entry_of ps)).
  { rewrite EO, map_map. apply map_ext. intros [x y]. unfold combination, entry_text, entry_of. cbn [fst snd e_n1 e_n2 e_s1 e_s2 e_cha].
    now rewrite append_nil_r. }
  rewrite EE in HC. rewrite Forall_forall in Hst.
  assert (IP : forall x y, In (x, y) ps -> In x stations /\ In y stations).
  { intros x y H. apply filter_In in H as [H _]. apply in_tails in H as (i & j & _ & Hi & Hj). split; eapply nth_error_In; eauto. }
  rewrite (correlated_iff st (map entry_of ps) w k Hseed); auto.
  - split.
    + intros (e & He & HN). apply in_map_iff in He as ([x y] & <- & Hp). pose proof Hp as Hp0. apply filter_In in Hp as [_ Hw]. apply withinb_spec in Hw.
      cbn [fst snd] in Hw.
      destruct HN as [(N1 & N2 & N3 & N4 & _)|(N1 & N2 & N3 & N4 & _)]; cbn [entry_of fst snd e_n1 e_n2 e_s1 e_s2] in *.
      * replace (station_of a) with x by (unfold station_of; rewrite N1, N2; now destruct x).
        replace (station_of b) with y by (unfold station_of; rewrite N3, N4; now destruct y). auto.
      * replace (station_of b) with x by (unfold station_of; rewrite N1, N2; now destruct x).
        replace (station_of a) with y by (unfold station_of; rewrite N3, N4; now destruct y).
        destruct Hw as (p & q & P1 & P2 & P3). exists q, p. rewrite HD. auto.
    + intros Hw. destruct (In_nth_error _ _ (Hin a Ha)) as [i Hi]. destruct (In_nth_error _ _ (Hin b Hb)) as [j Hj].
      destruct (Nat.le_ge_cases i j) as [L|L].
      * exists (entry_of (station_of a, station_of b)). split; [|left; unfold names_in_order; cbn; tauto].
        apply in_map. apply filter_In. split; [apply in_tails; now exists i, j|]. cbn [fst snd]. now apply withinb_spec.
      * exists (entry_of (station_of b, station_of a)). split; [|right; unfold names_in_order; cbn; tauto].
        apply in_map. apply filter_In. split; [apply in_tails; now exists j, i|]. cbn [fst snd]. apply withinb_spec.
        destruct Hw as (p & q & P1 & P2 & P3). exists q, p. rewrite HD. auto.
  - apply Forall_forall. intros e He. apply in_map_iff in He as ([x y] & <- & Hp). apply IP in Hp as [Hx Hy].
    destruct (Hst _ Hx), (Hst _ Hy). unfold seed_entry, entry_of. cbn. tauto.
  - intros e z He Hz. apply in_map_iff in He as ([x y] & <- & Hp). apply IP in Hp as [Hx Hy]. unfold same_length. cbn.
    apply (Hlen (station_of z) y); auto.
Qed.

Lemma close_pair_correlated dist server c stations d c' out st w k : honest server -> (forall p q, (dist p q == dist q p)%Q) ->
  find_interstat_dist dist server c "betweenStations" None stations d = (c', Ok out) ->
  Forall (fun x => seed (fst x) /\ seed (snd x)) stations -> Forall seed_trace st ->
  (forall a, In a st -> In (station_of a) stations) ->
  calc_cross_combis st [] "betweenStations" (Some out) = Ok (w, k) ->
  forall a b, In a st -> In b st -> ~ same_station a b -> within dist (mem c') d (station_of a) (station_of b) ->
  exists i j, In (i, j) k /\ ((nth_error w i = Some a /\ nth_error w j = Some b) \/ (nth_error w i = Some b /\ nth_error w j = Some a)).
Proof.
  intros HH HD HF Hst Hseed Hin HC a b Ha Hb Hne Hw.
  unfold find_interstat_dist in HF. change (String.eqb "betweenStations" "betweenStations") with true in HF. cbn [negb] in HF.
  destruct (read_inventory c) as [c1 [e|]]; [discriminate|]. destruct (all_partners_spec dist server HH _ _ _ _ _ HF) as (_ & _ & EO).
  set (ps := filter (fun p => withinb dist (mem c') d (fst p) (snd p)) (tails_of stations)) in *.
  assert (EE : out = map entry_text (map entry_of ps)).
  { rewrite EO, map_map. apply map_ext. intros [x y]. unfold combination, entry_text, entry_of. cbn [fst snd e_n1 e_n2 e_s1 e_s2 e_cha].
    now rewrite append_nil_r. }
  rewrite EE in HC. rewrite Forall_forall in Hst, Hseed.
  assert (SE : Forall seed_entry (map entry_of ps)).
  { apply Forall_forall. intros e He. apply in_map_iff in He as ([x y] & <- & Hp). apply filter_In in Hp as [Hp _].
    apply in_tails in Hp as (i & j & _ & Hi & Hj). apply nth_error_In in Hi, Hj.
    destruct (Hst _ Hi), (Hst _ Hj). unfold seed_entry, entry_of. cbn. tauto. }
  assert (HE : exists e, In e (map entry_of ps) /\ names e a b).
  { destruct (In_nth_error _ _ (Hin a Ha)) as [i Hi]. destruct (In_nth_error _ _ (Hin b Hb)) as [j Hj].
    destruct (Nat.le_ge_cases i j) as [L|L].
    - exists (entry_of (station_of a, station_of b)). split; [|left; unfold names_in_order; cbn; tauto].
      apply in_map. apply filter_In. split; [apply in_tails; now exists i, j|]. cbn [fst snd]. now apply withinb_spec.
    - exists (entry_of (station_of b, station_of a)). split; [|right; unfold names_in_order; cbn; tauto].
      apply in_map. apply filter_In. split; [apply in_tails; now exists j, i|]. cbn [fst snd]. apply withinb_spec.
      destruct Hw as (p & q & P1 & P2 & P3). exists q, p. rewrite HD. auto. }
  destruct HE as (e & He & HN).
  apply calc_exact in HC as (HP & _ & _ & HX).
  assert (Ia : In a w) by (apply (Permutation_in _ (Permutation_sym HP)); auto).
  assert (Ib : In b w) by (apply (Permutation_in _ (Permutation_sym HP)); auto).
  apply In_nth_error in Ia as [i Ei]. apply In_nth_error in Ib as [j Ej].
  assert (Hij : i <> j). { intros ->. rewrite Ei in Ej. injection Ej as ->. apply Hne. split; reflexivity. }
  destruct (Nat.lt_total i j) as [L|[L|L]]; [|contradiction|].
  - exists i, j. split; [|now left]. apply HX. exists a, b. split; auto. split; auto. split; [left; auto|].
    split; [apply compare_nothing|]. intros _ l [= <-]. apply (requested_in _ e); auto.
  - exists j, i. split; [|now right]. apply HX. exists b, a. split; auto. split; auto.
    split; [left; split; auto; split; auto; intros [X Y]; apply Hne; split; auto|].
    split; [apply compare_nothing|]. intros _ l [= <-]. apply (requested_in _ e); auto. unfold names in *. tauto.
Qed.
