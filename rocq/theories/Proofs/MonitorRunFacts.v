(** The run over all correlations of a project. *)
From Coq Require Import Permutation.
From Verif Require Import Lib.Base Lib.Str Lib.StrFacts Model.Partition Model.H5 Model.CorrDB Model.MonitorFiles Model.MonitorRun.
From Verif Require Import Spec.MonitorSpec Spec.MonitorRunSpec Proofs.PartitionFacts Proofs.MonitorFilesFacts.
Local Open Scope string_scope.
Local Open Scope nat_scope.

(** ** schedules *)
Lemma all_empty {A} (ls : list (list A)) : Forall (fun l => l = []) ls -> concat ls = [].
Proof. induction 1; [reflexivity|]. subst. exact IHForall. Qed.

Lemma schedule_perm {A} (ls : list (list A)) t : schedule ls t -> Permutation t (concat ls).
Proof.
  induction 1 as [ls H|l1 l2 x r t _ IH].
  - now rewrite all_empty.
  - rewrite concat_app in *. cbn [concat] in *. rewrite IH. cbn. now apply Permutation_cons_app.
Qed.

Lemma every_item p (l t : list item) : 0 < p -> schedule (shares p l) t -> Permutation t l.
Proof. intros P S. apply schedule_perm in S. unfold shares in S. now rewrite (partition_concat p l P) in S. Qed.

(** ** the results *)
Section Run.
  Context {V : Type} (compute : item -> outcome V).
  Notation run := (attempts compute).

  Lemma run_app s a b : run s (a ++ b) = run (run s a) b.
  Proof. apply fold_left_app. Qed.

  Lemma put_same name v (d : string -> option V) : put name v d name = Some v.
  Proof. unfold put. now rewrite String.eqb_refl. Qed.
  Lemma put_other name v (d : string -> option V) x : x <> name -> put name v d x = d x.
  Proof. intros N. unfold put. destruct (String.eqb_spec x name); [contradiction|reflexivity]. Qed.

  Lemma attempt_other s i x : x <> out_name i -> dir (attempt compute s i) x = dir s x.
  Proof. intros N. unfold attempt. destruct (compute i) as [e|v [e|]]; cbn; [reflexivity|..]; now apply put_other. Qed.
  Lemma attempt_own s i : dir (attempt compute s i) (out_name i) = expected (compute i) (dir s (out_name i)).
  Proof. unfold attempt. destruct (compute i) as [e|v [e|]]; cbn; [reflexivity|..]; apply put_same. Qed.

  Lemma run_other l : forall s x, (forall i, In i l -> x <> out_name i) -> dir (run s l) x = dir s x.
  Proof.
    induction l as [|i l IH]; intros s x H; [reflexivity|]. cbn. change (dir (run (attempt compute s i) l) x = dir s x).
    rewrite IH by (intros; apply H; now right). apply attempt_other, H. now left.
  Qed.

  Lemma run_own l : forall s i, NoDup (map out_name l) -> In i l -> dir (run s l) (out_name i) = expected (compute i) (dir s (out_name i)).
  Proof.
    induction l as [|j l IH]; intros s i ND I; [contradiction|]. cbn [map] in ND. apply NoDup_cons_iff in ND as [N ND].
    change (dir (run (attempt compute s j) l) (out_name i) = expected (compute i) (dir s (out_name i))).
    destruct I as [<-|I].
    - rewrite run_other; [apply attempt_own|]. intros k K E. apply N. rewrite E. now apply in_map.
    - rewrite IH by assumption. rewrite attempt_other; [reflexivity|]. intros E. apply N. rewrite <- E. now apply in_map.
  Qed.

  Definition complaints (l : list item) : list (item * exc) :=
    flat_map (fun i => match complaint (compute i) with Some e => [(i, e)] | None => [] end) l.

  Lemma run_log l : forall s, log (run s l) = (log s ++ complaints l)%list.
  Proof.
    induction l as [|i l IH]; intros s; [cbn; now rewrite app_nil_r|].
    change (log (run (attempt compute s i) l) = (log s ++ complaints (i :: l))%list). rewrite IH. unfold attempt. cbn [complaints flat_map].
    destruct (compute i) as [e|v [e|]]; cbn; now rewrite <- ?app_assoc.
  Qed.

  Lemma NoDup_perm {A} (l l' : list A) : Permutation l l' -> NoDup l -> NoDup l'.
  Proof. apply Permutation_NoDup. Qed.

  Lemma run_results p l t s : 0 < p -> schedule (shares p l) t -> NoDup (map out_name l) ->
    (forall i, In i l -> dir (run s t) (out_name i) = expected (compute i) (dir s (out_name i))) /\
    (forall x, (forall i, In i l -> x <> out_name i) -> dir (run s t) x = dir s x) /\
    (exists c, log (run s t) = (log s ++ c)%list /\
       Permutation c (flat_map (fun i => match complaint (compute i) with Some e => [(i, e)] | None => [] end) l)).
  Proof.
    intros P S ND. pose proof (every_item p l t P S) as PM. repeat split.
    - intros i I. apply run_own; [|now apply (Permutation_in _ (Permutation_sym PM))].
      apply (NoDup_perm (map out_name l)); [|exact ND]. apply Permutation_map. now symmetry.
    - intros x H. apply run_other. intros i I. apply H. now apply (Permutation_in _ PM).
    - exists (complaints t). split; [apply run_log|]. unfold complaints. now apply Permutation_flat_map.
  Qed.

  Lemma name_in l x : (exists i, In i l /\ x = out_name i) \/ (forall i, In i l -> x <> out_name i).
  Proof.
    induction l as [|i l [(j & J & E)|N]].
    - right. contradiction.
    - left. exists j. split; [now right|exact E].
    - destruct (string_dec x (out_name i)) as [E|E]; [left; exists i; split; [now left|exact E]|].
      right. intros j [<-|J]; [exact E|now apply N].
  Qed.

  Lemma run_processes p q l t u s : 0 < p -> 0 < q -> schedule (shares p l) t -> schedule (shares q l) u -> NoDup (map out_name l) ->
    forall x, dir (run s t) x = dir (run s u) x.
  Proof.
    intros P Q S U ND x. destruct (run_results p l t s P S ND) as (A & B & _). destruct (run_results q l u s Q U ND) as (A' & B' & _).
    destruct (name_in l x) as [(i & I & ->)|N]; [now rewrite A, A'|now rewrite B, B'].
  Qed.

  Lemma expected_twice (o : outcome V) old : expected o (expected o old) = expected o old.
  Proof. now destruct o. Qed.

  Lemma in_firstn {A} (x : A) k l : In x (firstn k l) -> In x l.
  Proof. intros I. rewrite <- (firstn_skipn k l). apply in_or_app. now left. Qed.
  Lemma NoDup_firstn {A} k (l : list A) : NoDup l -> NoDup (firstn k l).
  Proof. rewrite <- (firstn_skipn k l) at 1. generalize (skipn k l). induction (firstn k l) as [|x a IH]; intros b H; [constructor|].
    cbn in H. apply NoDup_cons_iff in H as [N H]. constructor; [|eapply IH; eauto]. intros I. apply N, in_or_app. now left.
  Qed.

  Lemma stopped p l t s k : 0 < p -> schedule (shares p l) t -> NoDup (map out_name l) ->
    forall x, dir (run s (firstn k t)) x = dir s x \/ dir (run s (firstn k t)) x = dir (run s t) x.
  Proof.
    intros P S ND x. pose proof (every_item p l t P S) as PM.
    assert (NT : NoDup (map out_name t)) by (apply (NoDup_perm (map out_name l)); [apply Permutation_map; now symmetry|exact ND]).
    destruct (name_in (firstn k t) x) as [(i & I & ->)|N].
    - right. rewrite run_own by (try assumption; rewrite <- firstn_map; now apply NoDup_firstn).
      rewrite run_own by (try assumption; now apply in_firstn in I). reflexivity.
    - left. now apply run_other.
  Qed.

  Lemma again p q l t u s k : 0 < p -> 0 < q -> schedule (shares p l) t -> schedule (shares q l) u -> NoDup (map out_name l) ->
    forall x, dir (run (run s (firstn k t)) u) x = dir (run s u) x.
  Proof.
    intros P Q S U ND x. destruct (run_results q l u s Q U ND) as (A & B & _).
    destruct (run_results q l u (run s (firstn k t)) Q U ND) as (A' & B' & _).
    destruct (name_in l x) as [(i & I & ->)|N].
    - rewrite A, A' by exact I. destruct (stopped p l t s k P S ND (out_name i)) as [E|E]; rewrite E; [reflexivity|].
      destruct (run_results p l t s P S ND) as (C & _). rewrite C by exact I. apply expected_twice.
    - rewrite B, B' by exact N. destruct (stopped p l t s k P S ND x) as [E|E]; rewrite E; [reflexivity|].
      destruct (run_results p l t s P S ND) as (_ & C & _). now apply C.
  Qed.
End Run.

(** ** names *)
Lemma split_parts c s : Forall (fun x => has_char c x = false) (split_on c s).
Proof.
  induction s as [|a s IH]; cbn; [now repeat constructor|]. destruct (Ascii.eqb_spec a c) as [E|E].
  - now constructor.
  - destruct (split_on c s) as [|h t] eqn:S; [now apply split_on_nonempty in S|]. apply Forall_cons_iff in IH as [H1 H2].
    constructor; [|exact H2]. cbn. destruct (Ascii.eqb_spec a c); [contradiction|exact H1].
Qed.

Lemma append_inj_r a : forall b c, a ++ c = b ++ c -> a = b.
Proof.
  intros b c. revert b. induction a as [|x a IH]; intros [|y b] E; auto.
  - exfalso. assert (L := f_equal String.length E). cbn in L. rewrite length_append in L. lia.
  - exfalso. assert (L := f_equal String.length E). cbn in L. rewrite length_append in L. lia.
  - cbn in E. injection E as -> E. f_equal. now apply IH.
Qed.

Lemma out_name_inj i j : has_char "." (i_net i) = false -> has_char "." (i_sta i) = false -> has_char "." (i_net j) = false -> has_char "." (i_sta j) = false ->
  out_name i = out_name j -> i_net i = i_net j /\ i_sta i = i_sta j /\ i_cha i = i_cha j.
Proof.
  intros A B C D E. unfold out_name in E. cbn in E. injection E as E.
  assert (S := f_equal (split_on ".") E). rewrite !(split_on_app "." (i_net _)) in S by assumption. injection S as N S.
  rewrite !(split_on_app "." (i_sta _)) in S by assumption. injection S as T _.
  rewrite N, T in E. repeat split; try assumption.
  assert (X : i_cha i ++ ".npz" = i_cha j ++ ".npz").
  { apply (append_inj_l (i_net j ++ "." ++ i_sta j ++ ".")). rewrite !append_assoc in *. exact E. }
  now apply append_inj_r in X.
Qed.

Definition from (fs : list string) (i : item) : Prop := In (i_file i) fs /\ split_on "." (i_file i) = [i_net i; i_sta i; "h5"].

Lemma from_dots fs i : from fs i -> has_char "." (i_net i) = false /\ has_char "." (i_sta i) = false.
Proof.
  intros [_ S]. pose proof (split_parts "." (i_file i)) as F. rewrite S in F.
  apply Forall_cons_iff in F as [A F]. apply Forall_cons_iff in F as [B _]. now split.
Qed.

Lemma from_inj fs i j : from fs i -> from fs j -> out_name i = out_name j -> i = j.
Proof.
  intros A B E. destruct (from_dots _ _ A) as [A1 A2], (from_dots _ _ B) as [B1 B2].
  destruct (out_name_inj i j A1 A2 B1 B2 E) as (N & S & C). destruct A as [_ A], B as [_ B].
  rewrite N, S, <- B in A. assert (F := f_equal (join ".") A). rewrite !join_split in F.
  destruct i, j. cbn in *. congruence.
Qed.

Lemma NoDup_map_on {A B} (f : A -> B) l : (forall x y, In x l -> In y l -> f x = f y -> x = y) -> NoDup l -> NoDup (map f l).
Proof.
  intros H ND. induction ND as [|x l N ND IH]; cbn; constructor.
  - intros I. apply in_map_iff in I as (y & E & I). apply N. rewrite <- (H y x); [exact I|now right|now left|exact E].
  - apply IH. intros; apply H; auto; now right.
Qed.

Lemma NoDup_append {A} (l m : list A) : NoDup l -> NoDup m -> (forall x, In x l -> ~ In x m) -> NoDup (l ++ m).
Proof.
  intros NL NM D. induction NL as [|x l N NL IH]; cbn; [exact NM|]. constructor.
  - rewrite in_app_iff. intros [I|I]; [contradiction|]. apply (D x); [now left|exact I].
  - apply IH. intros y Y. apply D. now right.
Qed.

Lemma plist_from net sta opened listing : NoDup listing -> (forall f, In f listing -> plain_name f) ->
  (forall f db n s, opened f = Ok db -> NoDup (get_available_channels db "subdivision" n s)) ->
  forall l, plist opened (flat_map (fun f => match keep_file net sta f with Some x => [x] | None => [] end) listing) = Ok l ->
  NoDup l /\ forall i, In i l -> from listing i.
Proof.
  intros ND PN CH. induction listing as [|f fs IH]; intros l E.
  - injection E as <-. split; [constructor|contradiction].
  - apply NoDup_cons_iff in ND as [N ND]. cbn [flat_map] in E.
    destruct (keep_file net sta f) as [[[n s] g]|] eqn:K.
    + apply keep_file_iff in K as (-> & (r & S) & _). destruct (PN f) as (n' & s' & S'); [now left|].
      rewrite S' in S. injection S as <- <- <-. unfold plist in E. cbn [app mapM] in E.
      destruct (opened f) as [db|e] eqn:O; [|discriminate]. cbn [bind] in E.
      destruct (mapM _ (flat_map _ fs)) as [ls|e] eqn:M; [|discriminate]. cbn [bind] in E. injection E as <-.
      destruct (IH ND) with (l := concat ls) as [A B].
      { intros; apply PN; now right. }
      { unfold plist. rewrite M. reflexivity. }
      split.
      * apply NoDup_append; [|exact A|].
        -- apply (FinFun.Injective_map_NoDup); [|eapply CH; eauto]. intros a b Eab. now injection Eab.
        -- intros i I J. apply in_map_iff in I as (c & <- & _). apply B in J as [J _]. contradiction.
      * intros i I. apply in_app_or in I as [I|I].
        -- apply in_map_iff in I as (c & <- & _). split; [now left|exact S'].
        -- apply B in I as [I1 I2]. split; [now right|exact I2].
    + cbn [app] in E. destruct (IH ND) with (l := l) as [A B]; [intros; apply PN; now right|exact E|].
      split; [exact A|]. intros i I. apply B in I as [I1 I2]. split; [now right|exact I2].
Qed.

Lemma names_distinct net sta opened listing l : NoDup listing -> (forall f, In f listing -> globbed f = true -> plain_name f) ->
  (forall f db n s, opened f = Ok db -> NoDup (get_available_channels db "subdivision" n s)) ->
  plist opened (corr_find_filter net sta listing) = Ok l -> NoDup (map out_name l).
Proof.
  intros ND PN CH E. apply (plist_from net sta opened (filter globbed listing)) in E as [A B].
  - apply NoDup_map_on; [|exact A]. intros x y X Y. apply (from_inj (filter globbed listing)); now apply B.
  - now apply NoDup_filter.
  - intros f F. apply filter_In in F as [F G]. now apply PN.
  - exact CH.
Qed.

Lemma in_mapM {A B} (f : A -> result B) l : forall r, mapM f l = Ok r -> forall y, In y r <-> exists x, In x l /\ f x = Ok y.
Proof.
  induction l as [|a l IH]; intros r E y; cbn in E.
  - injection E as <-. split; [contradiction|]. intros (x & [] & _).
  - destruct (f a) as [b|e] eqn:F; [|discriminate]. cbn in E. destruct (mapM f l) as [s|e] eqn:M; [|discriminate]. cbn in E. injection E as <-.
    split.
    + intros [<-|I]; [exists a; split; [now left|exact F]|]. apply (IH s eq_refl) in I as (x & X & H). exists x. split; [now right|exact H].
    + intros (x & [<-|X] & H); [left; congruence|]. right. apply (IH s eq_refl). eauto.
Qed.

(** which combinations are worked on *)
Lemma plist_complete opened listed l : plist opened listed = Ok l ->
  forall i, In i l <-> exists db, In (i_net i, i_sta i, i_file i) listed /\ opened (i_file i) = Ok db /\
                        In (i_cha i) (get_available_channels db "subdivision" (i_net i) (i_sta i)).
Proof.
  intros E i. unfold plist in E. destruct (mapM _ listed) as [ls|e] eqn:M; [|discriminate]. cbn in E. injection E as <-.
  rewrite in_concat. split.
  - intros (x & X & I). apply (in_mapM _ _ _ M) in X as ([[n s] f] & L & H). destruct (opened f) as [db|e] eqn:O; [|discriminate].
    cbn in H. injection H as <-. apply in_map_iff in I as (c & <- & C). exists db. cbn. auto.
  - intros (db & L & O & C). exists (map (mkItem (i_file i) (i_net i) (i_sta i)) (get_available_channels db "subdivision" (i_net i) (i_sta i))).
    split.
    + apply (in_mapM _ _ _ M). exists (i_net i, i_sta i, i_file i). split; [exact L|]. rewrite O. reflexivity.
    + apply in_map_iff. exists (i_cha i). split; [now destruct i|exact C].
Qed.
