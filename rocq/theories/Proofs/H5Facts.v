From Verif Require Import Lib.Base Lib.Str Lib.StrFacts Lib.Sorting Model.H5.
From Coq Require Import Sorted.
Local Open Scope list_scope.

Definition slt (a b : string) : Prop := str_lt a b = true.
Lemma slt_trans a b c : slt a b -> slt b c -> slt a c.
Proof. apply str_lt_trans. Qed.
Lemma slt_irrefl a : ~ slt a a.
Proof. unfold slt. rewrite str_lt_irrefl. discriminate. Qed.

Section Facts.
  Context {D : Type}.
  Notation node := (node D).
  Implicit Types (n : node) (ch : list (string * node)) (p q : list string).

  Definition ksorted ch : Prop := StronglySorted slt (dkeys ch).

  (** ** children *)
  Lemma dget_in ch k v : dget ch k = Some v -> In (k, v) ch.
  Proof.
    induction ch as [|[k' v'] ch IH]; simpl; [discriminate|].
    destruct (String.eqb_spec k k') as [->|Hne]; [intros [= ->]; auto|auto].
  Qed.
  Lemma ksorted_notin ch k k' (v' : node) : ksorted ((k', v') :: ch) -> In k (dkeys ch) -> slt k' k.
  Proof. intros H Hk. inversion H as [|? ? _ HF]; subst. rewrite Forall_forall in HF. now apply HF. Qed.
  Lemma in_dget ch k v : ksorted ch -> In (k, v) ch -> dget ch k = Some v.
  Proof.
    induction ch as [|[k' v'] ch IH]; simpl; intros Hs H; [tauto|]. destruct H as [E|H].
    - injection E as -> ->. now rewrite String.eqb_refl.
    - destruct (String.eqb_spec k k') as [->|Hne].
      + exfalso. apply (slt_irrefl k'). eapply ksorted_notin; [exact Hs|]. apply (in_map fst _ _ H).
      + apply IH; auto. now inversion Hs.
  Qed.
  Lemma dget_none ch k : dget ch k = None <-> ~ In k (dkeys ch).
  Proof.
    induction ch as [|[k' v'] ch IH]; simpl; [tauto|]. destruct (String.eqb_spec k k') as [->|Hne].
    - split; [discriminate|tauto].
    - rewrite IH. intuition congruence.
  Qed.
  Lemma dget_some_key ch k v : dget ch k = Some v -> In k (dkeys ch).
  Proof. intros H. apply dget_in in H. apply (in_map fst _ _ H). Qed.
  Lemma key_dget ch k : In k (dkeys ch) -> exists v, dget ch k = Some v.
  Proof. intros H. destruct (dget ch k) eqn:E; eauto. apply dget_none in E. contradiction. Qed.

  Lemma kput_keys ch k v k0 : In k0 (dkeys (kput ch k v)) <-> k0 = k \/ In k0 (dkeys ch).
  Proof.
    induction ch as [|[k' v'] ch IH]; simpl; [intuition congruence|].
    destruct (String.eqb_spec k k') as [->|Hne]; simpl; [intuition congruence|].
    destruct (str_lt k k'); simpl; [intuition congruence|]. rewrite IH. intuition congruence.
  Qed.
  Lemma kput_sorted ch k v : ksorted ch -> ksorted (kput ch k v).
  Proof.
    unfold ksorted. induction ch as [|[k' v'] ch IH]; simpl; intros Hs; [constructor; constructor|].
    inversion Hs as [|? ? Hs' HF]; subst.
    destruct (String.eqb_spec k k') as [->|Hne]; simpl; [constructor; auto|].
    destruct (str_lt k k') eqn:E; simpl.
    - constructor; [constructor; auto|]. constructor; auto.
      eapply Forall_impl; [|exact HF]. intros z Hz. eapply slt_trans; [exact E|exact Hz].
    - constructor; auto. apply Forall_forall. intros z Hz. apply kput_keys in Hz as [->|Hz].
      + destruct (str_lt_total k k' Hne); congruence.
      + rewrite Forall_forall in HF; auto.
  Qed.
  Lemma dget_kput_same ch k v : ksorted ch -> dget (kput ch k v) k = Some v.
  Proof.
    intros Hs. induction ch as [|[k' v'] ch IH]; simpl; [now rewrite String.eqb_refl|].
    inversion Hs; subst.
    destruct (String.eqb_spec k k') as [->|Hne]; simpl; [now rewrite String.eqb_refl|].
    destruct (str_lt k k'); simpl; [now rewrite String.eqb_refl|].
    destruct (String.eqb_spec k k'); [congruence|]. now apply IH.
  Qed.
  Lemma dget_kput_other ch k v k0 : k0 <> k -> dget (kput ch k v) k0 = dget ch k0.
  Proof.
    intros Hn. induction ch as [|[k' v'] ch IH]; simpl.
    - destruct (String.eqb_spec k0 k); congruence.
    - destruct (String.eqb_spec k k') as [->|Hne]; simpl.
      + destruct (String.eqb_spec k0 k'); congruence.
      + destruct (str_lt k k'); simpl.
        * destruct (String.eqb_spec k0 k); congruence.
        * destruct (String.eqb k0 k'); auto.
  Qed.
  Lemma kput_forall (P : string * node -> Prop) ch k v : P (k, v) -> Forall P ch -> Forall P (kput ch k v).
  Proof.
    intros Hv. induction 1 as [|[k' v'] ch H HF IH]; simpl; [auto|].
    destruct (String.eqb k k'); [auto|]. destruct (str_lt k k'); auto.
  Qed.
  Lemma ddel_keys ch k k0 : ksorted ch -> (In k0 (dkeys (ddel ch k)) <-> In k0 (dkeys ch) /\ k0 <> k).
  Proof.
    intros Hs. induction ch as [|[k' v'] ch IH]; simpl; [tauto|].
    destruct (String.eqb_spec k k') as [->|Hne]; simpl.
    - split.
      + intros H. split; auto. intros ->. apply (slt_irrefl k'). eapply ksorted_notin; eauto.
      + intros [[H|H] H2]; congruence.
    - inversion Hs; subst. rewrite IH by auto. intuition congruence.
  Qed.
  Lemma ddel_sorted ch k : ksorted ch -> ksorted (ddel ch k).
  Proof.
    unfold ksorted. induction ch as [|[k' v'] ch IH]; simpl; intros Hs; auto.
    inversion Hs as [|? ? Hs' HF]; subst. destruct (String.eqb k k'); auto. simpl. constructor; auto.
    apply Forall_forall. intros z Hz. apply ddel_keys in Hz as [Hz _]; auto. rewrite Forall_forall in HF; auto.
  Qed.
  Lemma dget_ddel ch k k0 : ksorted ch -> dget (ddel ch k) k0 = if String.eqb k0 k then None else dget ch k0.
  Proof.
    intros Hs. induction ch as [|[k' v'] ch IH]; simpl; [now destruct (String.eqb k0 k)|].
    inversion Hs; subst. destruct (String.eqb_spec k k') as [->|Hne].
    - destruct (String.eqb_spec k0 k') as [->|]; auto. apply dget_none.
      intros H. apply (slt_irrefl k'). eapply ksorted_notin; eauto.
    - simpl. destruct (String.eqb_spec k0 k') as [->|].
      + destruct (String.eqb_spec k' k); congruence.
      + now apply IH.
  Qed.
  Lemma ddel_forall (P : string * node -> Prop) ch k : Forall P ch -> Forall P (ddel ch k).
  Proof. induction 1 as [|[k' v'] ch H HF IH]; simpl; auto. destruct (String.eqb k k'); auto. Qed.

  (** ** trees whose data sets all lie at depth k, with sorted keys *)
  Fixpoint good (k : nat) n : Prop :=
    match k with
    | O => exists d, n = Data d
    | S k' => exists ch, n = Group ch /\ ksorted ch /\ Forall (fun kv => good k' (snd kv)) ch
    end.

  Lemma good_empty k : good (S k) (Group []).
  Proof. exists []. repeat split; constructor. Qed.

  Lemma good_child k ch key c : Forall (fun kv => good k (snd kv)) ch -> dget ch key = Some c -> good k c.
  Proof. intros HF H. apply dget_in in H. rewrite Forall_forall in HF. apply (HF _ H). Qed.

  Definition contents n p : option D :=
    match lookup n p with Some (Data d) => Some d | _ => None end.

  Lemma lookup_app n p q : lookup n (p ++ q) = match lookup n p with Some m => lookup m q | None => None end.
  Proof.
    revert n; induction p as [|k p IH]; intros n; simpl; auto. destruct n as [d|ch]; auto.
    destruct (dget ch k); auto.
  Qed.

  Lemma good_lookup k n p m : good k n -> lookup n p = Some m -> length p <= k /\ good (k - length p) m.
  Proof.
    revert k n; induction p as [|key p IH]; intros k n Hg H; simpl in *.
    - injection H as <-. split; [lia|]. now rewrite Nat.sub_0_r.
    - destruct k as [|k]; simpl in Hg.
      + destruct Hg as [d ->]. discriminate.
      + destruct Hg as (ch & -> & Hs & HF). destruct (dget ch key) as [c|] eqn:E; [|discriminate].
        destruct (IH k c) as [H1 H2]; auto; [eapply good_child; eauto|]. split; [lia|]. exact H2.
  Qed.

  Lemma good_data_depth k n p d : good k n -> lookup n p = Some (Data d) -> length p = k.
  Proof.
    intros Hg H. destruct (good_lookup _ _ _ _ Hg H) as [H1 H2].
    destruct (k - length p) eqn:E; [lia|]. simpl in H2. destruct H2 as (ch & E' & _). discriminate.
  Qed.

  (** create succeeds exactly when nothing is stored at the path *)
  Lemma create_iff k n p d : good k n -> length p = k -> 0 < k ->
    (create n p d = None <-> lookup n p <> None).
  Proof.
    revert n k; induction p as [|key p IH]; intros n k Hg HL Hk; simpl in HL; [lia|].
    destruct k as [|k]; [lia|]. simpl in Hg. destruct Hg as (ch & -> & Hs & HF).
    injection HL as HL. simpl. destruct p as [|key2 p].
    - destruct (dget ch key); simpl; split; congruence.
    - destruct k as [|k]; [discriminate|].
      destruct (dget ch key) as [c|] eqn:E.
      + pose proof (good_child _ _ _ _ HF E) as Hc.
        destruct (create c (key2 :: p) d) eqn:EC.
        * split; [discriminate|]. intros H. exfalso.
          apply (IH c (S k) Hc HL ltac:(lia)) in H. congruence.
        * split; auto. intros _. apply (IH c (S k) Hc HL ltac:(lia)). auto.
      + assert (EC : create (Group []) (key2 :: p) d <> None).
        { intros EC. exact (proj1 (IH (Group []) (S k) (good_empty k) HL ltac:(lia)) EC eq_refl). }
        destruct (create (Group []) (key2 :: p) d); [split; congruence|congruence].
  Qed.

  Lemma create_good k n p d n' : good k n -> length p = k -> create n p d = Some n' -> good k n'.
  Proof.
    revert n n' k; induction p as [|key p IH]; intros n n' k Hg HL H.
    - destruct n; discriminate.
    - destruct k as [|k]; [discriminate|]. injection HL as HL. simpl in Hg. destruct Hg as (ch & -> & Hs & HF).
      simpl in H. destruct p as [|key2 p].
      + destruct (dget ch key); [discriminate|]. injection H as <-. simpl in HL. subst k.
        exists (kput ch key (Data d)). split; auto. split; [now apply kput_sorted|].
        apply kput_forall; simpl; eauto.
      + destruct k as [|k]; [discriminate|].
        set (c := match dget ch key with Some c => c | None => Group [] end) in *.
        assert (Hc : good (S k) c).
        { unfold c. destruct (dget ch key) eqn:E; [eapply good_child; eauto|apply good_empty]. }
        destruct (create c (key2 :: p) d) as [c'|] eqn:EC; [|discriminate]. injection H as <-.
        exists (kput ch key c'). split; auto. split; [now apply kput_sorted|].
        apply kput_forall; auto. simpl snd. eapply IH; eauto.
  Qed.

  Fixpoint path_eqb p q : bool :=
    match p, q with
    | [], [] => true
    | a :: p', b :: q' => String.eqb a b && path_eqb p' q'
    | _, _ => false
    end.
  Lemma path_eqb_spec p q : reflect (p = q) (path_eqb p q).
  Proof.
    revert q; induction p as [|a p IH]; intros [|b q]; simpl; try (constructor; congruence).
    destruct (String.eqb_spec a b), (IH q); simpl; constructor; congruence.
  Qed.
  Lemma path_eqb_refl p : path_eqb p p = true.
  Proof. destruct (path_eqb_spec p p); auto. Qed.

  (** effect of create on every path *)
  Lemma create_lookup k n p d n' : good k n -> length p = k -> create n p d = Some n' ->
    forall q, contents n' q = if path_eqb q p then Some d else contents n q.
  Proof.
    revert n n' k; induction p as [|key p IH]; intros n n' k Hg HL H q.
    - destruct n; discriminate.
    - destruct k as [|k]; [discriminate|]. injection HL as HL. simpl in Hg. destruct Hg as (ch & -> & Hs & HF).
      simpl in H. destruct p as [|key2 p].
      + destruct (dget ch key) eqn:E; [discriminate|]. injection H as <-. unfold contents.
        destruct q as [|q0 q]; [reflexivity|].
        simpl. destruct (String.eqb_spec q0 key) as [->|Hne].
        * rewrite dget_kput_same, E by auto. destruct q; reflexivity.
        * now rewrite dget_kput_other.
      + destruct k as [|k]; [discriminate|].
        set (c := match dget ch key with Some c => c | None => Group [] end) in *.
        assert (Hc : good (S k) c).
        { unfold c. destruct (dget ch key) eqn:E; [eapply good_child; eauto|apply good_empty]. }
        destruct (create c (key2 :: p) d) as [c'|] eqn:EC; [|discriminate]. injection H as <-.
        destruct q as [|q0 q]; [reflexivity|].
        unfold contents. cbn [lookup path_eqb]. destruct (String.eqb_spec q0 key) as [->|Hne].
        * rewrite dget_kput_same by auto. pose proof (IH c c' (S k) Hc HL EC q) as Q. unfold contents in Q. rewrite Q.
          simpl andb. destruct (path_eqb q (key2 :: p)); auto.
          unfold c. destruct (dget ch key); auto. destruct q; reflexivity.
        * now rewrite dget_kput_other.
  Qed.

  (** ** delete: removes the subtree at the path *)
  Lemma delete_iff k n p : good k n -> p <> [] -> (delete n p = None <-> lookup n p = None).
  Proof.
    revert n k; induction p as [|key p IH]; intros n k Hg Hp; [congruence|].
    destruct k as [|k]; simpl in Hg.
    - destruct Hg as [d ->]. simpl. tauto.
    - destruct Hg as (ch & -> & Hs & HF). simpl. destruct p as [|key2 p].
      + destruct (dget ch key); simpl; split; congruence.
      + destruct (dget ch key) as [c|] eqn:E; [|tauto].
        pose proof (IH c k (good_child _ _ _ _ HF E) ltac:(discriminate)) as IH'.
        destruct (delete c (key2 :: p)) eqn:ED; rewrite <- IH'; split; congruence.
  Qed.

  Lemma delete_good k n p n' : good k n -> delete n p = Some n' -> good k n'.
  Proof.
    revert n n' k; induction p as [|key p IH]; intros n n' k Hg H; [destruct n; discriminate|].
    destruct k as [|k]; simpl in Hg; [destruct Hg as [d ->]; discriminate|].
    destruct Hg as (ch & -> & Hs & HF). simpl in H. destruct p as [|key2 p].
    - destruct (dget ch key); [|discriminate]. injection H as <-. exists (ddel ch key). split; auto.
      split; [now apply ddel_sorted|now apply ddel_forall].
    - destruct (dget ch key) as [c|] eqn:E; [|discriminate].
      destruct (delete c (key2 :: p)) as [c'|] eqn:ED; [|discriminate]. injection H as <-.
      exists (kput ch key c'). split; auto. split; [now apply kput_sorted|]. apply kput_forall; auto.
      simpl. eapply IH; eauto. eapply good_child; eauto.
  Qed.

  Fixpoint has_prefix p q : bool :=
    match p, q with
    | [], _ => true
    | a :: p', b :: q' => String.eqb a b && has_prefix p' q'
    | _ :: _, [] => false
    end.

  Lemma has_prefix_iff p q : has_prefix p q = true <-> exists r, q = p ++ r.
  Proof.
    revert q; induction p as [|a p IH]; intros q; simpl; [split; eauto|].
    destruct q as [|b q]; [split; [discriminate|intros [r E]; discriminate]|].
    rewrite andb_true_iff, IH, String.eqb_eq. split.
    - intros [-> [r ->]]. eauto.
    - intros [r E]. injection E as -> ->. eauto.
  Qed.

  Lemma delete_lookup k n p n' : good k n -> delete n p = Some n' ->
    forall q, contents n' q = if has_prefix p q then None else contents n q.
  Proof.
    revert n n' k; induction p as [|key p IH]; intros n n' k Hg H q; [destruct n; discriminate|].
    destruct k as [|k]; simpl in Hg; [destruct Hg as [d ->]; discriminate|].
    destruct Hg as (ch & -> & Hs & HF). simpl in H. destruct p as [|key2 p].
    - destruct (dget ch key) as [c|] eqn:E; [|discriminate]. injection H as <-.
      unfold contents. destruct q as [|q0 q]; simpl; auto. rewrite dget_ddel by auto.
      rewrite (String.eqb_sym key q0), andb_true_r. destruct (String.eqb q0 key); auto.
    - destruct (dget ch key) as [c|] eqn:E; [|discriminate].
      destruct (delete c (key2 :: p)) as [c'|] eqn:ED; [|discriminate]. injection H as <-.
      unfold contents. destruct q as [|q0 q]; [reflexivity|]. cbn [lookup has_prefix].
      destruct (string_dec q0 key) as [->|Hne].
      + rewrite dget_kput_same, E, String.eqb_refl by auto. rewrite andb_true_l.
        pose proof (IH c c' k (good_child _ _ _ _ HF E) ED q) as Q. unfold contents in Q. now rewrite Q.
      + rewrite dget_kput_other by auto. destruct (String.eqb_spec key q0); [congruence|]. reflexivity.
  Qed.

  (** ** listing of all data sets *)
  Lemma leaves_in k : forall n pre q d, good k n ->
    (In (q, d) (leaves pre n) <-> exists r, q = pre ++ r /\ lookup n r = Some (Data d)).
  Proof.
    induction k as [|k IH]; intros n pre q d Hg; simpl in Hg.
    - destruct Hg as [d0 ->]. simpl. split.
      + intros [E|[]]. injection E as <- <-. exists []. rewrite app_nil_r. auto.
      + intros (r & -> & H). destruct r as [|? r]; [|discriminate]. injection H as ->. rewrite app_nil_r. auto.
    - destruct Hg as (ch & -> & Hs & HF). cbn [leaves]. rewrite in_flat_map. split.
      + intros ([key c] & Hc & H). simpl in H.
        assert (Gc : good k c) by (rewrite Forall_forall in HF; apply (HF _ Hc)).
        apply (IH c (pre ++ [key]) q d Gc) in H as (r & -> & H).
        exists (key :: r). rewrite <- app_assoc. split; auto. simpl. rewrite (in_dget ch key c); auto.
      + intros (r & -> & H). destruct r as [|key r]; [discriminate|]. simpl in H.
        destruct (dget ch key) as [c|] eqn:E; [|discriminate].
        exists (key, c). split; [now apply dget_in|]. simpl.
        apply (IH c (pre ++ [key]) (pre ++ key :: r) d); [eapply good_child; eauto|].
        exists r. rewrite <- app_assoc. auto.
  Qed.

  (** paths are listed once *)
  Lemma leaves_prefix k : forall n pre q d, good k n -> In (q, d) (leaves pre n) -> exists r, q = pre ++ r.
  Proof. intros n pre q d Hg H. apply (leaves_in k) in H as (r & -> & _); eauto. Qed.

  Lemma NoDup_app_i {A} (l l' : list A) : NoDup l -> NoDup l' -> (forall x, In x l -> ~ In x l') -> NoDup (l ++ l').
  Proof.
    induction 1 as [|x l Hx Hl IH]; simpl; auto. intros Hl' HD. constructor.
    - rewrite in_app_iff. intros [H|H]; [contradiction|]. exact (HD x (or_introl eq_refl) H).
    - apply IH; auto.
  Qed.

  Lemma leaves_nodup k : forall n pre, good k n -> NoDup (map fst (leaves pre n)).
  Proof.
    induction k as [|k IH]; intros n pre Hg; simpl in Hg.
    - destruct Hg as [d ->]. simpl. constructor; [simpl; tauto|constructor].
    - destruct Hg as (ch & -> & Hs & HF). cbn [leaves]. unfold ksorted in Hs.
      induction ch as [|[key c] ch IHc]; simpl; [constructor|].
      inversion Hs as [|? ? Hs' HFs]; subst. inversion HF as [|? ? Gc HF']; subst. simpl in *.
      rewrite map_app. apply NoDup_app_i; [now apply IH|now apply IHc|].
      intros q H1 H2. apply in_map_iff in H1 as ([q1 d1] & <- & H1). apply in_map_iff in H2 as ([q2 d2] & E & H2).
      simpl in E. subst q2. apply (leaves_prefix k) in H1 as [r1 ->]; auto.
      apply in_flat_map in H2 as ([key2 c2] & Hc2 & H2). simpl in H2.
      apply (leaves_prefix k) in H2 as [r2 E]; [|rewrite Forall_forall in HF'; apply (HF' _ Hc2)].
      rewrite <- !app_assoc in E. apply app_inv_head in E. injection E as -> _.
      rewrite Forall_forall in HFs. apply (slt_irrefl key2). apply HFs. apply (in_map fst _ _ Hc2).
  Qed.
End Facts.

(** ** path strings *)
Definition ok_name (s : string) : Prop := s <> ""%string /\ has_char "/" s = false.

Local Open Scope string_scope.
Lemma filter_nonempty l : Forall ok_name l -> filter (fun s => negb (String.eqb s "")) l = l.
Proof.
  induction 1 as [|y l0 [Hy Hy'] HF IH]; simpl; auto. destruct (String.eqb_spec y ""); [contradiction|].
  simpl. now rewrite IH.
Qed.
Lemma comps_join l : Forall ok_name l -> comps ("/" ++ join "/" l) = l.
Proof.
  intros H. unfold comps. change (split_on "/" ("/" ++ join "/" l)) with ("" :: split_on "/" (join "/" l)).
  destruct l as [|x l]; [reflexivity|].
  rewrite split_join; [|discriminate|eapply Forall_impl; [|exact H]; intros s [_ Hs]; exact Hs].
  cbn [filter]. change (negb (String.eqb "" "")) with false. exact (filter_nonempty (x :: l) H).
Qed.
