(** The grid as an object: kept kernels, remembered stations. *)
From Coq Require Import Reals Lra Permutation.
From Verif Require Import Lib.Base Model.Kernel Model.Spatial Model.DVGrid Proofs.KernelFacts.
Local Open Scope R_scope.

Lemma same_point_iff p q : same_point p q = true <-> p = q.
Proof.
  unfold same_point, eqb. destruct p as [a b], q as [c d]; simpl.
  destruct (Req_EM_T a c), (Req_EM_T b d); simpl; split; intros H; try congruence; injection H; intros; subst; congruence.
Qed.
Lemma same_key_iff a b : same_key a b = true <-> a = b.
Proof.
  unfold same_key. destruct a as [[p q] t], b as [[p' q'] t']; simpl. rewrite !andb_true_iff, !same_point_iff. unfold eqb.
  destruct (Req_EM_T t t'); split; intros H.
  - destruct H as [[-> ->] _]; subst; reflexivity.
  - injection H; intros; subst; auto.
  - destruct H as [_ H]; discriminate.
  - injection H; intros; congruence.
Qed.
(** every kept kernel is the kernel *)
Definition cache_ok (g : grid) (c : list (key * list R)) : Prop := forall k v, In (k, v) c -> kernel_row g (snd k) (fst k) = Ok v.
Lemma find_key_in c k v : find_key c k = Some v -> In (k, v) c.
Proof.
  induction c as [|[q w] c IH]; [discriminate|]. simpl. destruct (same_key q k) eqn:E.
  - apply same_key_iff in E as ->. intros H. left. congruence.
  - intros H. right. auto.
Qed.
Lemma kernels_ok g t pairs : forall c, cache_ok g c -> snd (kernels g t c pairs) = mapM (kernel_row g t) pairs /\ cache_ok g (fst (kernels g t c pairs)).
Proof.
  induction pairs as [|p r IH]; intros c C; simpl; [auto|].
  destruct (find_key c (p, t)) as [k|] eqn:F.
  - apply find_key_in, C in F. simpl in F. rewrite F. specialize (IH _ C). destruct (kernels g t c r) as [c' rs]. simpl in *.
    destruct IH as [-> IH]. simpl. split; [reflexivity|exact IH].
  - destruct (kernel_row g t p) as [k|e] eqn:K; [|simpl; auto].
    assert (C' : cache_ok g ((p, t, k) :: c)).
    { intros q v [H|H]; [|now apply C]. assert (q = (p, t)) by congruence. assert (v = k) by congruence. subst. exact K. }
    specialize (IH _ C'). destruct (kernels g t ((p, t, k) :: c) r) as [c' rs]. simpl in *. destruct IH as [-> IH]. split; [reflexivity|exact IH].
Qed.

Lemma add_new_in p : forall l st, In p (add_new st l) <-> In p st \/ In p l.
Proof.
  induction l as [|q l IH]; intros st; simpl; [tauto|]. rewrite IH.
  destruct (existsb (same_point q) st) eqn:E.
  - apply existsb_exists in E as (x & I & E). apply same_point_iff in E as ->. split; [tauto|]. intros [H|[->|H]]; auto.
  - rewrite in_app_iff. simpl. tauto.
Qed.
Lemma add_new_nodup : forall l st, NoDup st -> NoDup (add_new st l).
Proof.
  induction l as [|q l IH]; intros st N; simpl; [exact N|]. apply IH.
  destruct (existsb (same_point q) st) eqn:E; [exact N|].
  apply (Permutation_NoDup (Permutation_cons_append _ _)). constructor; [|exact N].
  intros I. assert (existsb (same_point q) st = true); [|congruence]. apply existsb_exists. exists q. split; [exact I|now apply same_point_iff].
Qed.
(** the result does not depend on the stations that are known *)
Lemma extract_result st st' dvs utc : snd (extract st dvs utc) = snd (extract st' dvs utc).
Proof.
  unfold extract, add_stations. destruct (rev (used utc dvs)) as [|[l x] r]; [reflexivity|].
  destruct (existsb outside (map _ (used utc dvs))); [reflexivity|].
  destruct (existsb outside (map _ (used utc dvs))); reflexivity.
Qed.
Lemma extract_nodup st dvs utc : NoDup st -> NoDup (fst (extract st dvs utc)).
Proof.
  intros N. unfold extract, add_stations. destruct (rev (used utc dvs)) as [|[l x] r]; [exact N|].
  destruct (existsb outside (map _ (used utc dvs))); [exact N|].
  destruct (existsb outside (map _ (used utc dvs))); simpl; repeat apply add_new_nodup; exact N.
Qed.
Definition station_of (utc : Z) (dvs : list dvr) (p : R * R) : Prop := exists u, In u (used utc dvs) /\ (p = d_s0 (fst u) \/ p = d_s1 (fst u)).
Lemma extract_only st dvs utc p : In p (fst (extract st dvs utc)) -> In p st \/ station_of utc dvs p.
Proof.
  unfold extract, add_stations. destruct (rev (used utc dvs)) as [|[l x] r]; [auto|].
  assert (A0 : In p (map (fun u => d_s0 (fst u)) (used utc dvs)) -> station_of utc dvs p).
  { intros H. apply in_map_iff in H as (u & <- & H). exists u. auto. }
  assert (A1 : In p (map (fun u => d_s1 (fst u)) (used utc dvs)) -> station_of utc dvs p).
  { intros H. apply in_map_iff in H as (u & <- & H). exists u. auto. }
  destruct (existsb outside (map _ (used utc dvs))); [auto|].
  destruct (existsb outside (map _ (used utc dvs))); simpl; rewrite !add_new_in; tauto.
Qed.
Lemma extract_all st dvs utc i p : snd (extract st dvs utc) = Ok i -> In p (fst (extract st dvs utc)) <-> In p st \/ station_of utc dvs p.
Proof.
  unfold extract, add_stations. destruct (rev (used utc dvs)) as [|[l x] r]; [discriminate|].
  destruct (existsb outside (map _ (used utc dvs))); [discriminate|].
  destruct (existsb outside (map _ (used utc dvs))); [discriminate|]. intros _. simpl. rewrite !add_new_in, !in_map_iff.
  split.
  - intros [[H|(u & <- & H)]|(u & <- & H)]; [auto|right; exists u; auto|right; exists u; auto].
  - intros [H|(u & H & [->| ->])]; [auto|left; right; eauto|right; eauto].
Qed.

(** what is extracted *)
Definition info_of (us : list (dvr * (R * R))) (last : dvr) : info :=
  mkI (map (fun u => fst (snd u)) us) (map (fun u => snd (snd u)) us) (map (fun u => (d_s0 (fst u), d_s1 (fst u))) us)
    (match d_proc last with Some (a, l, _, _) => Some (a, a + l) | None => None end)
    (match d_proc last with Some (_, _, f, _) => Some f | None => None end)
    (match d_proc last with Some (_, _, _, f) => Some f | None => None end).
Lemma extract_iff st dvs utc i : snd (extract st dvs utc) = Ok i <->
  exists d p us, used utc dvs = us ++ [(d, p)] /\ (forall q, station_of utc dvs q -> outside q = false) /\ i = info_of (used utc dvs) d.
Proof.
  assert (S : forall us : list (dvr * (R * R)), existsb outside (map (fun u => d_s0 (fst u)) us) = false /\ existsb outside (map (fun u => d_s1 (fst u)) us) = false <->
    (forall q, (exists u, In u us /\ (q = d_s0 (fst u) \/ q = d_s1 (fst u))) -> outside q = false)).
  { intros us. split.
    - intros [A B] q (u & I & [->| ->]).
      + destruct (outside (d_s0 (fst u))) eqn:O; [|reflexivity]. exfalso. rewrite <- not_true_iff_false, existsb_exists in A. apply A. eexists. split; [|exact O]. apply in_map_iff. eauto.
      + destruct (outside (d_s1 (fst u))) eqn:O; [|reflexivity]. exfalso. rewrite <- not_true_iff_false, existsb_exists in B. apply B. eexists. split; [|exact O]. apply in_map_iff. eauto.
    - intros H. split; apply not_true_iff_false; rewrite existsb_exists; intros (q & I & O); apply in_map_iff in I as (u & <- & I); rewrite H in O; try discriminate; eauto. }
  specialize (S (used utc dvs)). unfold extract, add_stations, station_of.
  destruct (rev (used utc dvs)) as [|[l x] r] eqn:V.
  - split; [discriminate|]. intros (d & p & us & E & _). rewrite E, rev_app_distr in V. discriminate.
  - assert (U : used utc dvs = rev r ++ [(l, x)]) by (rewrite <- (rev_involutive (used utc dvs)), V; reflexivity).
    destruct (existsb outside (map (fun u => d_s0 (fst u)) (used utc dvs))) eqn:E0; [split; [discriminate|intros (? & ? & ? & _ & H & _); apply S in H as [H _]; discriminate]|].
    destruct (existsb outside (map (fun u => d_s1 (fst u)) (used utc dvs))) eqn:E1; [split; [discriminate|intros (? & ? & ? & _ & H & _); apply S in H as [_ H]; discriminate]|].
    simpl. split.
    + intros H. exists l, x, (rev r). split; [exact U|]. split; [now apply S|]. unfold info_of. congruence.
    + intros (d & p & us & E & _ & ->). rewrite U in E. apply app_inj_tail in E as [_ E]. replace d with l by congruence. reflexivity.
Qed.
Lemma used_perm utc dvs dvs' : Permutation dvs dvs' -> Permutation (used utc dvs) (used utc dvs').
Proof. apply Permutation_flat_map. Qed.
Lemma used_app utc a b : used utc (a ++ b) = used utc a ++ used utc b.
Proof. unfold used. now rewrite flat_map_app. Qed.
Lemma used_in utc dvs u : In u (used utc dvs) <-> In (fst u) dvs /\ picked utc (fst u) = Some (snd u).
Proof.
  unfold used. rewrite in_flat_map. split.
  - intros (d & I & H). destruct (picked utc d) as [p|] eqn:E; [|destruct H]. destruct H as [<-|[]]. auto.
  - intros [I E]. exists (fst u). split; [exact I|]. rewrite E. left. now destruct u.
Qed.

(** ** mapM as map *)
Lemma mapM_unok {A B} (d : B) (f : A -> result B) : forall l r, mapM f l = Ok r -> r = map (fun x => match f x with Ok y => y | Raise _ => d end) l.
Proof.
  induction l as [|a l IH]; intros r E; cbn in E; [now injection E as <-|].
  destruct (f a) as [y|] eqn:F; [|discriminate]. cbn in E. destruct (mapM f l) as [m|] eqn:M; [|discriminate]. cbn in E.
  simpl. rewrite F. rewrite <- (IH m eq_refl). now injection E as <-.
Qed.
Lemma mapM_ok_in {A B} (f : A -> result B) : forall l r x, mapM f l = Ok r -> In x l -> exists y, f x = Ok y.
Proof.
  induction l as [|a l IH]; intros r x E I; [destruct I|]. cbn in E.
  destruct (f a) as [y|] eqn:F; [|discriminate]. cbn in E. destruct (mapM f l) as [m|] eqn:M; [|discriminate].
  destruct I as [<-|I]; eauto.
Qed.
Lemma mapM_perm {A B} (f : A -> result B) l l' r : Permutation l l' -> mapM f l = Ok r -> exists r', mapM f l' = Ok r'.
Proof.
  intros P E. assert (H : forall x, In x l' -> exists y, f x = Ok y).
  { intros x I. apply (Permutation_in _ (Permutation_sym P)) in I. eapply mapM_ok_in; eauto. }
  clear P E. induction l' as [|a l' IH]; [eexists; reflexivity|]. destruct (H a (or_introl eq_refl)) as [y Y].
  destruct IH as [m M]; [intros; apply H; now right|]. exists (y :: m). cbn. rewrite Y. cbn. now rewrite M.
Qed.
